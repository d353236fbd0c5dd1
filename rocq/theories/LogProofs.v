(** Lemmas about LogModel.v. *)
From Coq Require Import List Arith ZArith Bool String Lia.
From Verif Require Import Num Vec FieldModel GridModel SolverModel WakeModel GridFileModel GridInitModel LogModel.
Import ListNotations.

Section Ind.
  Context {T : Type} (P : pv T -> Prop).
  Context (P1 : P VNone) (P2 : forall b, P (VBool b)) (P3 : forall z, P (VInt z)) (P4 : forall x, P (VFloat x)) (P5 : P VInf)
    (P6 : forall s, P (VStr s)) (P7 : forall s, P (VObj s)) (P8 : forall l, Forall P l -> P (VList l)) (P9 : forall l, Forall P l -> P (VTuple l))
    (P10 : forall d, Forall (fun a => P (snd a)) d -> P (VDict d)) (P11 : forall v, P v -> P (VArray v)).
  Definition pv_all : forall v, P v :=
    fix F v := match v with
    | VNone => P1 | VBool b => P2 b | VInt z => P3 z | VFloat x => P4 x | VInf => P5 | VStr s => P6 s | VObj s => P7 s
    | VList l => P8 l ((fix G l := match l return Forall P l with [] => Forall_nil _ | a :: l => Forall_cons _ (F a) (G l) end) l)
    | VTuple l => P9 l ((fix G l := match l return Forall P l with [] => Forall_nil _ | a :: l => Forall_cons _ (F a) (G l) end) l)
    | VDict d => P10 d ((fix G d := match d return Forall (fun a => P (snd a)) d with [] => Forall_nil _ | (k, a) :: l => Forall_cons (k, a) (F a) (G l) end) d)
    | VArray v => P11 v (F v)
    end.
End Ind.

Section Log.
  Context {T : Type}.
  Fixpoint all_ok {A B} (f : A -> result B) (l : list A) : result (list B) :=
    match l with [] => Ok [] | a :: r => do b <- f a; do s <- all_ok f r; Ok (b :: s) end.
  Definition dump_item (a : key * pv T) : result (string * json T) :=
    match fst a with KStr s => do j <- dumps (snd a); Ok (s, j) | KOther => Err TypeError end.
  Lemma dumps_list l : dumps (VList l) = do r <- all_ok dumps l; Ok (JList (T := T) r).
  Proof.
    cbn [dumps]. match goal with |- bind ?a _ = _ => assert (E : a = all_ok dumps l); [|rewrite E; reflexivity] end.
    induction l as [|v l IH]; [reflexivity|]. cbn [all_ok]. destruct (dumps v); cbn [bind]; [rewrite IH; reflexivity|reflexivity].
  Qed.
  Lemma dumps_dict d : dumps (VDict d) = do r <- all_ok dump_item d; Ok (JObj (T := T) r).
  Proof.
    cbn [dumps]. match goal with |- bind ?a _ = _ => assert (E : a = all_ok dump_item d); [|rewrite E; reflexivity] end.
    induction d as [|[k v] d IH]; [reflexivity|]. cbn [all_ok]. unfold dump_item at 1. cbn [fst snd]. destruct k; [|reflexivity].
    destruct (dumps v); cbn [bind]; [rewrite IH; reflexivity|reflexivity].
  Qed.
  Lemma all_ok_forall2 {A B} (f : A -> result B) (Q : A -> B -> Prop) l : Forall (fun a => exists b, f a = Ok b /\ Q a b) l ->
    exists r, all_ok f l = Ok r /\ Forall2 Q l r.
  Proof.
    induction 1 as [|a l (b & E & Hq) _ (r & Er & F)]; [exists []; auto|]. exists (b :: r). cbn [all_ok]. rewrite E, Er. auto.
  Qed.
  Lemma log_get_set d s v t : log_get (T := T) (log_set d s v) t = if String.eqb t s then Some v else log_get d t.
  Proof.
    induction d as [|[k w] d IH]; cbn [log_set log_get is_key]; [reflexivity|].
    destruct (is_key s k) eqn:E; cbn [log_get].
    - destruct k as [u|]; [|discriminate]. cbn [is_key] in *. apply String.eqb_eq in E. subst u. destruct (String.eqb t s); reflexivity.
    - rewrite IH. destruct (is_key t k) eqn:F; [|reflexivity]. destruct (String.eqb t s) eqn:G; [|reflexivity].
      apply String.eqb_eq in G. subst t. congruence.
  Qed.
  Fixpoint last_of (l : list (string * pv T)) (s : string) : option (pv T) :=
    match l with [] => None | (t, v) :: r => match last_of r s with Some w => Some w | None => if String.eqb s t then Some v else None end end.
  Lemma log_get_all l s : forall d, log_get (log_all d l) s = match last_of l s with Some v => Some v | None => log_get d s end.
  Proof.
    induction l as [|[t v] l IH]; intros d; [reflexivity|]. cbn [log_all fold_left last_of fst snd].
    change (fold_left _ l (log_set d t v)) with (log_all (log_set d t v) l). rewrite IH, log_get_set.
    destruct (last_of l s); [reflexivity|]. destruct (String.eqb s t); reflexivity.
  Qed.
End Log.
