(** Lemmas: order of the dataset names of a wake run. *)
From Coq Require Import List Arith ZArith Bool String Ascii Lia.
From Verif Require Import Num Vec FieldModel GridModel SolverModel WakeModel.
Import ListNotations.

Definition dig5 (n : nat) : string :=
  String (digit (n / 10 / 10 / 10 / 10)) (String (digit (n / 10 / 10 / 10 mod 10))
    (String (digit (n / 10 / 10 mod 10)) (String (digit (n / 10 mod 10)) (String (digit (n mod 10)) EmptyString)))).

Lemma dec_fuel f : forall g n acc, n < 10 ^ f -> n < 10 ^ g -> 0 < f -> 0 < g -> dec_go f n acc = dec_go g n acc.
Proof.
  induction f as [|f IH]; intros g n acc Hf Hg F G; [lia|]. destruct g as [|g]; [lia|]. cbn [dec_go].
  destruct (Nat.ltb_spec n 10) as [L|L]; [reflexivity|].
  assert (B : forall h, n < 10 ^ S h -> n / 10 < 10 ^ h).
  { intros h Hh. apply Nat.div_lt_upper_bound; [lia|]. rewrite Nat.pow_succ_r' in Hh. exact Hh. }
  apply IH; auto.
  - destruct f; [|lia]. cbn in Hf. lia.
  - destruct g; [|lia]. cbn in Hg. lia.
Qed.
Lemma pow10_gt n : n < 10 ^ S n.
Proof. induction n as [|n IH]; [cbn; lia|]. rewrite Nat.pow_succ_r'. lia. Qed.

Lemma pow5 : 10 ^ 5 = 10 * (10 * (10 * (10 * 10))).
Proof. rewrite !Nat.pow_succ_r', Nat.pow_0_r, Nat.mul_1_r. reflexivity. Qed.
Lemma div10 n : exists q r, n = 10 * q + r /\ r < 10 /\ n / 10 = q /\ n mod 10 = r.
Proof.
  exists (n / 10), (n mod 10). split; [apply Nat.div_mod; lia|]. split; [apply Nat.mod_upper_bound; lia|]. auto.
Qed.

Lemma zfill_dec n : n < 10 ^ 5 -> zfill 5 (dec n) = dig5 n.
Proof.
  intros H. unfold dec. rewrite (dec_fuel (S n) 5 n); [|apply pow10_gt|exact H|lia|lia].
  assert (H4 : n / 10 / 10 / 10 / 10 < 10).
  { do 4 (apply Nat.div_lt_upper_bound; [lia|]). rewrite pow5 in H. lia. }
  clear H. unfold dig5.
  destruct (div10 n) as (n1 & r0 & E0 & R0 & D0 & M0). rewrite D0, M0 in *.
  destruct (div10 n1) as (n2 & r1 & E1 & R1 & D1 & M1). rewrite D1, M1 in *.
  destruct (div10 n2) as (n3 & r2 & E2 & R2 & D2 & M2). rewrite D2, M2 in *.
  destruct (div10 n3) as (n4 & r3 & E3 & R3 & D3 & M3). rewrite D3, M3 in *.
  cbn [dec_go]. rewrite D0, M0, D1, M1, D2, M2, D3, M3.
  rewrite (Nat.mod_small n4) by lia. clear D0 M0 D1 M1 D2 M2 D3 M3.
  destruct (Nat.ltb_spec n 10). { replace n1 with 0 in * by lia. replace n2 with 0 in * by lia. replace n3 with 0 in * by lia. replace n4 with 0 in * by lia.
    replace r1 with 0 by lia. replace r2 with 0 by lia. replace r3 with 0 by lia. reflexivity. }
  destruct (Nat.ltb_spec n1 10). { replace n2 with 0 in * by lia. replace n3 with 0 in * by lia. replace n4 with 0 in * by lia.
    replace r2 with 0 by lia. replace r3 with 0 by lia. reflexivity. }
  destruct (Nat.ltb_spec n2 10). { replace n3 with 0 in * by lia. replace n4 with 0 in * by lia. replace r3 with 0 by lia. reflexivity. }
  destruct (Nat.ltb_spec n3 10). { replace n4 with 0 in * by lia. reflexivity. }
  destruct (Nat.ltb_spec n4 10); [reflexivity|lia].
Qed.

Lemma compare_digit x y : x < 10 -> y < 10 -> Ascii.compare (digit x) (digit y) = Nat.compare x y.
Proof.
  intros Hx Hy.
  do 10 (destruct x as [|x]; [do 10 (destruct y as [|y]; [reflexivity|]); lia|]). lia.
Qed.

Lemma compare_cons a b s t : String.compare (String a s) (String b t) =
  match Ascii.compare a b with Eq => String.compare s t | Lt => Lt | Gt => Gt end.
Proof. reflexivity. Qed.

Lemma snap_key_compare a b : a < 10 ^ 5 -> b < 10 ^ 5 -> String.compare (snap_key a) (snap_key b) = Nat.compare a b.
Proof.
  intros Ha Hb. unfold snap_key. rewrite !zfill_dec by assumption. cbn [String.append].
  rewrite compare_cons. change (Ascii.compare "#" "#") with Eq. cbv iota. unfold dig5.
  assert (A4 : a / 10 / 10 / 10 / 10 < 10) by (do 4 (apply Nat.div_lt_upper_bound; [lia|]); rewrite pow5 in Ha; lia).
  assert (B4 : b / 10 / 10 / 10 / 10 < 10) by (do 4 (apply Nat.div_lt_upper_bound; [lia|]); rewrite pow5 in Hb; lia).
  clear Ha Hb.
  rewrite !compare_cons, !compare_digit by (assumption || (apply Nat.mod_upper_bound; lia)).
  destruct (div10 a) as (a1 & r0 & E0 & R0 & D0 & M0). rewrite D0, M0 in *.
  destruct (div10 a1) as (a2 & r1 & E1 & R1 & D1 & M1). rewrite D1, M1 in *.
  destruct (div10 a2) as (a3 & r2 & E2 & R2 & D2 & M2). rewrite D2, M2 in *.
  destruct (div10 a3) as (a4 & r3 & E3 & R3 & D3 & M3). rewrite D3, M3 in *.
  destruct (div10 b) as (b1 & q0 & F0 & Q0 & D7 & M7). rewrite D7, M7 in *.
  destruct (div10 b1) as (b2 & q1 & F1 & Q1 & D4 & M4). rewrite D4, M4 in *.
  destruct (div10 b2) as (b3 & q2 & F2 & Q2 & D5 & M5). rewrite D5, M5 in *.
  destruct (div10 b3) as (b4 & q3 & F3 & Q3 & D6 & M6). rewrite D6, M6 in *.
  symmetry. change (String.compare EmptyString EmptyString) with Eq.
  destruct (Nat.compare_spec a4 b4); [|apply Nat.compare_lt_iff; lia|apply Nat.compare_gt_iff; lia].
  destruct (Nat.compare_spec r3 q3); [|apply Nat.compare_lt_iff; lia|apply Nat.compare_gt_iff; lia].
  destruct (Nat.compare_spec r2 q2); [|apply Nat.compare_lt_iff; lia|apply Nat.compare_gt_iff; lia].
  destruct (Nat.compare_spec r1 q1); [|apply Nat.compare_lt_iff; lia|apply Nat.compare_gt_iff; lia].
  destruct (Nat.compare_spec r0 q0); [apply Nat.compare_eq_iff; lia|apply Nat.compare_lt_iff; lia|apply Nat.compare_gt_iff; lia].
Qed.

Lemma snap_key_leb a b : a < 10 ^ 5 -> b < 10 ^ 5 -> str_leb (snap_key a) (snap_key b) = (a <=? b).
Proof.
  intros Ha Hb. unfold str_leb. rewrite snap_key_compare by assumption.
  destruct (Nat.compare_spec a b); symmetry; [apply Nat.leb_le|apply Nat.leb_le|apply Nat.leb_gt]; lia.
Qed.

Definition meta_keys : list string := ["dx"; "dy"; "dz"; "t"; "x"; "y"; "z"]%string.
Definition meta_order : list string := ["x"; "y"; "z"; "dx"; "dy"; "dz"; "t"]%string.

Lemma sort_snaps n : forall s, s + n <= 10 ^ 5 -> sort_names (map snap_key (seq s n)) = map snap_key (seq s n).
Proof.
  induction n as [|n IH]; intros s H; [reflexivity|]. cbn [seq map sort_names fold_right].
  change (fold_right insert_name [] (map snap_key (seq (S s) n))) with (sort_names (map snap_key (seq (S s) n))).
  rewrite IH by lia. destruct n as [|n]; [reflexivity|]. cbn [seq map insert_name].
  rewrite snap_key_leb by lia. destruct (Nat.leb_spec s (S s)); [reflexivity|lia].
Qed.
Lemma insert_after a l1 l2 : (forall x, In x l1 -> str_leb a x = false) -> insert_name a (l1 ++ l2) = l1 ++ insert_name a l2.
Proof.
  induction l1 as [|b l1 IH]; intros H; [reflexivity|]. cbn [app insert_name].
  rewrite (H b (or_introl eq_refl)). f_equal. apply IH. intros x Hx. apply H. right. exact Hx.
Qed.
Lemma meta_after m n : In m meta_order -> str_leb m (snap_key n) = false.
Proof.
  intros H. unfold str_leb, snap_key. cbn [String.append].
  cbn in H. repeat (destruct H as [<-|H]; [reflexivity|]). destruct H.
Qed.

(** Sorting the names of a run gives the snapshots in order, then the axes. *)
Theorem sort_run Nt : Nt <= 10 ^ 5 ->
  sort_names (meta_order ++ map snap_key (seq 0 Nt)) = map snap_key (seq 0 Nt) ++ meta_keys.
Proof.
  intros H. unfold sort_names. rewrite fold_right_app.
  change (fold_right insert_name [] (map snap_key (seq 0 Nt))) with (sort_names (map snap_key (seq 0 Nt))).
  rewrite sort_snaps by exact H. unfold meta_order. cbn [fold_right].
  rewrite <- (app_nil_r (map snap_key (seq 0 Nt))) at 1.
  assert (A : forall m x, In m meta_order -> In x (map snap_key (seq 0 Nt)) -> str_leb m x = false).
  { intros m x Hm Hx. apply in_map_iff in Hx. destruct Hx as (n & <- & _). apply meta_after. exact Hm. }
  rewrite !insert_after by (intros x Hx; apply A; [cbn; tauto|exact Hx]). reflexivity.
Qed.

(** Sorting leaves no adjacent inversion. *)
Fixpoint ordered (l : list string) : Prop :=
  match l with a :: (b :: _) as r => str_leb a b = true /\ ordered r | _ => True end.
Lemma str_leb_total a b : str_leb a b = false -> str_leb b a = true.
Proof.
  unfold str_leb. rewrite (String.compare_antisym b a). destruct (String.compare a b); cbn; congruence.
Qed.
Lemma insert_ordered a l : ordered l -> ordered (insert_name a l).
Proof.
  induction l as [|b l IH]; intros H; [exact I|]. cbn [insert_name]. destruct (str_leb a b) eqn:E.
  - cbn [ordered]. split; assumption.
  - assert (Ho : ordered l) by (destruct l; [exact I|apply H]).
    specialize (IH Ho). destruct l as [|c l]; cbn [insert_name] in *.
    + cbn [ordered]. split; [apply str_leb_total; exact E|exact I].
    + destruct (str_leb a c) eqn:F.
      * split; [apply str_leb_total; exact E|exact IH].
      * split; [apply H|exact IH].
Qed.
Lemma sort_ordered l : ordered (sort_names l).
Proof. induction l as [|a l IH]; [exact I|]. cbn [sort_names fold_right]. apply insert_ordered. exact IH. Qed.
Lemma ordered_app l1 l2 a b : ordered (l1 ++ a :: b :: l2) -> str_leb a b = true.
Proof.
  induction l1 as [|c l1 IH]; intros H; [apply H|]. apply IH. cbn [app] in H. destruct (l1 ++ a :: b :: l2) eqn:E; [exact I|]. apply H.
Qed.
Lemma key_99999 : snap_key (Nat.pred (10 ^ 5)) = "#99999"%string.
Proof. vm_compute. reflexivity. Qed.
Lemma key_100000 : snap_key (10 ^ 5) = "#100000"%string.
Proof. vm_compute. reflexivity. Qed.

Theorem sort_run_fails Nt : 10 ^ 5 < Nt ->
  sort_names (meta_order ++ map snap_key (seq 0 Nt)) <> map snap_key (seq 0 Nt) ++ meta_keys.
Proof.
  intros H E. pose proof (sort_ordered (meta_order ++ map snap_key (seq 0 Nt))) as O. rewrite E in O.
  assert (P : 0 < 10 ^ 5) by (apply Nat.neq_0_lt_0, Nat.pow_nonzero; lia).
  set (m := 10 ^ 5) in *.
  assert (S1 : seq 0 Nt = seq 0 (Nat.pred m) ++ Nat.pred m :: m :: seq (S m) (Nt - S m)).
  { replace Nt with (Nat.pred m + S (S (Nt - S m))) at 1 by lia. rewrite seq_app. cbn [Nat.add seq].
    replace (S (Nat.pred m)) with m by lia. reflexivity. }
  rewrite S1, map_app in O. cbn [map] in O. rewrite <- app_assoc in O. cbn [app] in O.
  apply ordered_app in O. unfold m in O. rewrite key_99999, key_100000 in O. discriminate O.
Qed.
