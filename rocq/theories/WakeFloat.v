(** Binary64 numbers (Coq.Floats.SpecFloat) as an instance of the number classes, and the effect of
    their rounding on the time array written by wakesolve (routines.py:384).  Property C58. *)
From Coq Require Import List Arith ZArith Bool String Lia.
From Coq.Floats Require Import SpecFloat.
From Verif Require Import Num Vec FieldModel GridModel SolverModel WakeModel WakeNames WakeRun.
Import ListNotations.

Definition prec64 : Z := 53.
Definition emax64 : Z := 1024.
#[export] Instance Num_F64 : Num spec_float := {
  nzero := S754_zero false;
  none_ := S754_finite false 4503599627370496 (-52);
  nadd := SFadd prec64 emax64;
  nmul := SFmul prec64 emax64;
  nsub := SFsub prec64 emax64;
  nopp := SFopp;
  ndiv := SFdiv prec64 emax64;
  ninv := SFdiv prec64 emax64 (S754_finite false 4503599627370496 (-52));
  neqb := SFeqb
}.
#[export] Instance NumOrd_F64 : NumOrd spec_float := { nltb := SFltb }.
#[export] Instance NumFl_F64 : NumFl spec_float := {
  nfloor x := match x with
              | S754_finite s m e =>
                  let z := if s then Z.neg m else Z.pos m in
                  if (0 <=? e)%Z then (z * 2 ^ e)%Z else (z / 2 ^ (- e))%Z
              | _ => 0%Z
              end
}.
(** 1 + 2^-53 rounds to 1; 1/3 + 1/3 + 1/3 does not need rounding to 1. *)
Example F64_rounds : (none_ + S754_finite false 4503599627370496 (-105))%num = none_ /\
  neqb (none_ / (none_ + none_ + none_) * (none_ + none_ + none_))%num none_ = true.
Proof. split; vm_compute; reflexivity. Qed.

Section Head.
  Context {T : Type} {NT : Num T} {OT : NumOrd T} {FT : NumFl T}.
  (** The file of a run, for any numbers: axes, widths, np.arange(0, Nt*dt, dt), one array per step. *)
  Theorem record_file (s : Solver T) g (w : Wake T) (a : WakeArgs T) s' f :
    wake_record s g w a = Ok (s', f) ->
    exists zmax zmin xs ys zs ts c, np_max (centres (gz g)) = Ok zmax /\ np_min (centres (gz g)) = Ok zmin /\
      let Nt := wake_Nt w (wa_len a) (sdt s) zmax zmin in
      arange nzero (nmul (nofZ Nt) (sdt s)) (sdt s) = Ok ts /\
      f = axes_file xs ys zs (widths (gx g)) (widths (gy g)) (widths (gz g)) ts ++ map (fun n => (snap_key n, c n)) (seq 0 (Z.to_nat Nt)).
  Proof.
    intros H. unfold wake_record in H.
    repeat match type of H with (do x <- ?r; _) = _ => destruct r eqn:?; [cbn [bind] in H|discriminate H] end.
    cbv zeta in H. do 7 eexists. split; [reflexivity|]. split; [reflexivity|]. cbv zeta. split; [eassumption|].
    destruct (record_steps _ _ _ _ _ _ _ _ _ H) as [_ E]. apply (f_equal snd) in E. exact E.
  Qed.
End Head.
