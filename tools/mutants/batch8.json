[
 {
  "file": "PrintModel",
  "definition": "indent",
  "old": "blanks num_spaces ++ line",
  "new": "line",
  "edit": "continuation lines not indented",
  "claim": "C92: nested entries two blanks further right"
 },
 {
  "file": "PrintModel",
  "definition": "indent",
  "old": "| [] | [_] => s_",
  "new": "| [] => s_ | [_] => (blanks num_spaces ++ s_)%string",
  "edit": "single lines indented too",
  "claim": "C92: layout"
 },
 {
  "file": "PrintModel",
  "definition": "indent",
  "old": "join_nl (map (fun line => blanks num_spaces ++ line) s)",
  "new": "join_nl (map (fun line => blanks num_spaces ++ line) (tl s))",
  "edit": "first nested line lost",
  "claim": "C92: every entry is shown"
 },
 {
  "file": "PrintModel",
  "definition": "blanks",
  "old": "S m => String \" \"%char (blanks m)",
  "new": "S m => String \" \"%char EmptyString",
  "edit": "one blank only",
  "claim": "C92: two blanks per level"
 },
 {
  "file": "PrintModel",
  "definition": "insert",
  "old": "if String.leb (fst e) (fst x) then",
  "new": "if String.leb (fst x) (fst e) then",
  "edit": "descending order",
  "claim": "C92: keys in increasing order"
 },
 {
  "file": "PrintModel",
  "definition": "sorted",
  "old": "fold_right insert [] l",
  "new": "l",
  "edit": "not sorted",
  "claim": "C92: independent of the order of insertion"
 },
 {
  "file": "PrintModel",
  "definition": "split_nl",
  "old": "Ascii.eqb c nl then EmptyString :: split_nl r",
  "new": "Ascii.eqb c nl then split_nl r",
  "edit": "line breaks lost",
  "claim": "C92: layout"
 },
 {
  "file": "PrintModel",
  "definition": "join_nl",
  "old": "String.concat (String nl EmptyString) l",
  "new": "String.concat EmptyString l",
  "edit": "entries not separated",
  "claim": "C92: one line per entry"
 },
 {
  "file": "PrintModel",
  "definition": "each",
  "old": "ret (s :: ss)",
  "new": "ret ss",
  "edit": "first entries lost",
  "claim": "C92: every entry is shown"
 },
 {
  "file": "PrintModel",
  "definition": "cfg_str",
  "old": "(k ++ \":\" ++ String nl EmptyString ++ t)%string 2",
  "new": "(k ++ \":\" ++ String nl EmptyString ++ t)%string 4",
  "edit": "four blanks",
  "claim": "C92: two blanks per level"
 },
 {
  "file": "PrintModel",
  "definition": "cfg_str",
  "old": "(k ++ \":\" ++ String nl EmptyString ++ t)",
  "new": "(k ++ \":\" ++ \" \" ++ t)",
  "edit": "nested configs on the line of their key",
  "claim": "C92: layout"
 },
 {
  "file": "PrintModel",
  "definition": "cfg_str",
  "old": "(k ++ \":\" ++ \" \" ++ str_of h v)",
  "new": "(k ++ \" \" ++ str_of h v)",
  "edit": "colon dropped",
  "claim": "C92: key: value"
 },
 {
  "file": "PrintModel",
  "definition": "cfg_str",
  "old": "(k ++ \":\" ++ \" \" ++ str_of h v)",
  "new": "(k ++ \":\" ++ \" \" ++ k)",
  "edit": "key printed as value",
  "claim": "C92: the text identifies the config"
 },
 {
  "file": "PrintModel",
  "definition": "cfg_str",
  "old": "ret (indent (k ++ \":\" ++ \" \" ++ str_of h v)%string 2) h",
  "new": "ret (k ++ \":\" ++ \" \" ++ str_of h v)%string h",
  "edit": "multi-line values not indented",
  "claim": "C92: the other lines of a value are indented below its key"
 },
 {
  "file": "PrintModel",
  "definition": "cfg_str",
  "old": "(sorted d) in",
  "new": "d in",
  "edit": "not sorted",
  "claim": "C92: independent of the order of insertion"
 },
 {
  "file": "PrintModel",
  "definition": "cfg_str",
  "old": "ret (join_nl s)) h",
  "new": "fun h => (h ++ [OList []], Done (join_nl s))) h",
  "edit": "a list left on the heap",
  "claim": "C92: printing changes nothing"
 },
 {
  "file": "PrintModel",
  "definition": "cfg_str",
  "old": "| 0 => throw XRecursion",
  "new": "| 0 => ret EmptyString",
  "edit": "recursion cut silently",
  "claim": "C92: a cyclic config raises RecursionError"
 }
]