(* Scalars.  The data-structure part of the model is parametric in a field with decidable
   equality; the instances used are Qc (computable) and the reals. *)
From Coq Require Import Field_theory Ring_theory Qcanon Reals.
From Coq Require Import List.

(* the numbers: an arbitrary field with decidable equality *)
Record Fld : Type := mkFld {
  car :> Type;
  f0 : car; f1 : car;
  fadd : car -> car -> car;
  fmul : car -> car -> car;
  fsub : car -> car -> car;
  fopp : car -> car;
  fdiv : car -> car -> car;
  finv : car -> car;
  fth : field_theory f0 f1 fadd fmul fsub fopp fdiv finv (@eq car);
  feq_dec : forall x y : car, {x = y} + {x <> y}
}.
Arguments f0 {_}. Arguments f1 {_}.
Arguments fadd {_} _ _. Arguments fmul {_} _ _. Arguments fsub {_} _ _.
Arguments fopp {_} _. Arguments fdiv {_} _ _. Arguments finv {_} _.
Arguments feq_dec {_} _ _.

(* stdlib: Qcft, Qc_eq_dec *)
Definition QcF : Fld :=
  mkFld Qc (Q2Qc 0) (Q2Qc 1) Qcplus Qcmult Qcminus Qcopp Qcdiv Qcinv Qcft Qc_eq_dec.

(* stdlib: Rfield, Req_EM_T (classical) *)
Definition RF : Fld :=
  mkFld R R0 R1 Rplus Rmult Rminus Ropp Rdiv Rinv Rfield Req_EM_T.
