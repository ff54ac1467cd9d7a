import json
M=[]
def m(d,old,new,edit,claim,**k): M.append(dict(file='PrintModel',definition=d,old=old,new=new,edit=edit,claim=claim,**k))
m('indent','blanks num_spaces ++ line','line','continuation lines not indented','C92: nested entries two blanks further right')
m('indent','| [] | [_] => s_','| [] => s_ | [_] => (blanks num_spaces ++ s_)%string','single lines indented too','C92: layout')
m('indent','join_nl (map (fun line => blanks num_spaces ++ line) s)','join_nl (map (fun line => blanks num_spaces ++ line) (tl s))','first nested line lost','C92: every entry is shown')
m('blanks','S m => String " "%char (blanks m)','S m => String " "%char EmptyString','one blank only','C92: two blanks per level')
m('insert','if String.leb (fst e) (fst x) then','if String.leb (fst x) (fst e) then','descending order','C92: keys in increasing order')
m('sorted','fold_right insert [] l','l','not sorted','C92: independent of the order of insertion')
m('split_nl','Ascii.eqb c nl then EmptyString :: split_nl r','Ascii.eqb c nl then split_nl r','line breaks lost','C92: layout')
m('join_nl','String.concat (String nl EmptyString) l','String.concat EmptyString l','entries not separated','C92: one line per entry')
m('each','ret (s :: ss)','ret ss','first entries lost','C92: every entry is shown')
m('cfg_str','(k ++ ":" ++ String nl EmptyString ++ t)%string 2','(k ++ ":" ++ String nl EmptyString ++ t)%string 4','four blanks','C92: two blanks per level')
m('cfg_str','(k ++ ":" ++ String nl EmptyString ++ t)','(k ++ ":" ++ " " ++ t)','nested configs on the line of their key','C92: layout')
m('cfg_str','(k ++ ":" ++ " " ++ str_of h v)','(k ++ " " ++ str_of h v)','colon dropped','C92: key: value')
m('cfg_str','(k ++ ":" ++ " " ++ str_of h v)','(k ++ ":" ++ " " ++ k)','key printed as value','C92: the text identifies the config')
m('cfg_str','ret (indent (k ++ ":" ++ " " ++ str_of h v)%string 2) h','ret (k ++ ":" ++ " " ++ str_of h v)%string h','multi-line values not indented','C92: the other lines of a value are indented below its key')
m('cfg_str','(sorted d) in','d in','not sorted','C92: independent of the order of insertion')
m('cfg_str','ret (join_nl s)) h','fun h => (h ++ [OList []], Done (join_nl s))) h','a list left on the heap','C92: printing changes nothing')
m('cfg_str','| 0 => throw XRecursion','| 0 => ret EmptyString','recursion cut silently','C92: a cyclic config raises RecursionError')
json.dump(M,open('/verif/tools/mutants/batch8.json','w'),indent=1); print(len(M))
src=open('/verif/rocq/theories/PrintModel.v').read()
for x in M:
    n=src.count(x['old'])
    if n!=1: print(n,x['definition'],x['old'])
