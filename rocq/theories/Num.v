(** Numbers used by the model.

    The code computes with IEEE doubles (numpy float64, /repo/wakis/field.py:56
    [dtype=float]).  The model is polymorphic in a type with the field operations;
    rounding is not modelled.  Algebraic theorems hold for every instance. *)
From Coq Require Import Field Ring Bool QArith Qcanon Reals.

Class Num (T : Type) : Type := {
  nzero : T;
  none_ : T;
  nadd : T -> T -> T;
  nmul : T -> T -> T;
  nsub : T -> T -> T;
  nopp : T -> T;
  ndiv : T -> T -> T;
  ninv : T -> T;
  neqb : T -> T -> bool
}.

Declare Scope num_scope.
Delimit Scope num_scope with num.
Notation "0" := nzero : num_scope.
Notation "1" := none_ : num_scope.
Infix "+" := nadd : num_scope.
Infix "*" := nmul : num_scope.
Infix "-" := nsub : num_scope.
Infix "/" := ndiv : num_scope.
Notation "- x" := (nopp x) : num_scope.
Infix "=?" := neqb : num_scope.

Class NumLaws (T : Type) {NT : Num T} : Prop := {
  num_field : field_theory nzero none_ nadd nmul nsub nopp ndiv ninv (@eq T);
  neqb_eq : forall a b : T, neqb a b = true <-> a = b
}.

Lemma neqb_neq {T} {NT : Num T} {LT : NumLaws T} (a b : T) :
  neqb a b = false <-> a <> b.
Proof.
  destruct (neqb a b) eqn:E.
  - apply neqb_eq in E. split; congruence.
  - split; intros _; [|reflexivity]. intros H. apply neqb_eq in H. congruence.
Qed.

(** ** Canonical rationals: computable instance. *)
#[global] Instance Num_Qc : Num Qc := {
  nzero := Q2Qc 0; none_ := Q2Qc 1;
  nadd := Qcplus; nmul := Qcmult; nsub := Qcminus; nopp := Qcopp;
  ndiv := Qcdiv; ninv := Qcinv;
  neqb := fun a b => if Qc_eq_dec a b then true else false
}.

#[global] Instance NumLaws_Qc : NumLaws Qc.
Proof.
  constructor.
  - exact Qcft.
  - intros a b. cbn. destruct (Qc_eq_dec a b); split; congruence.
Qed.

(** ** Real numbers (standard library axioms). *)
#[global] Instance Num_R : Num R := {
  nzero := 0%R; none_ := 1%R;
  nadd := Rplus; nmul := Rmult; nsub := Rminus; nopp := Ropp;
  ndiv := Rdiv; ninv := Rinv;
  neqb := fun a b => if Req_EM_T a b then true else false
}.

#[global] Instance NumLaws_R : NumLaws R.
Proof.
  constructor.
  - exact RealField.Rfield.
  - intros a b. cbn. destruct (Req_EM_T a b); split; congruence.
Qed.

(** Python results: a value or an exception.  Only the exception class is kept. *)
Inductive exn : Type :=
| IndexError | ValueError | TypeError | AttributeError | KeyError
| UnboundLocalError | ImportError_ | OtherException.

Inductive result (A : Type) : Type :=
| Ok (a : A)
| Err (e : exn).
Arguments Ok {A} a.
Arguments Err {A} e.

Definition bind {A B} (r : result A) (f : A -> result B) : result B :=
  match r with Ok a => f a | Err e => Err e end.
Notation "'do' x <- r ; k" := (bind r (fun x => k))
  (at level 200, x name, r at level 100, k at level 200).
