(** Facts about the STEP import. *)
From Coq Require Import List Arith NArith Bool String Ascii DecimalString Decimal DecimalNat Lia.
From Verif Require Import Num Vec FieldModel SolverModel GeomModel.
Import ListNotations.
Open Scope string_scope.

(** ** str(i).zfill(3) *)
Fixpoint all_chars (P : ascii -> bool) (s : string) : bool :=
  match s with EmptyString => true | String c t => P c && all_chars P t end.
Lemma all_chars_app P a b : all_chars P (a ++ b) = all_chars P a && all_chars P b.
Proof. induction a as [|c a IH]; cbn; [reflexivity|]. rewrite IH, andb_assoc. reflexivity. Qed.
Lemma all_chars_impl (P Q : ascii -> bool) s : (forall c, P c = true -> Q c = true) -> all_chars P s = true -> all_chars Q s = true.
Proof.
  intros H. induction s as [|c s IH]; cbn; [auto|]. intros E. apply andb_true_iff in E as [E1 E2]. rewrite (H c E1), (IH E2). reflexivity.
Qed.
Lemma uint_digits d : all_chars is_digit (NilEmpty.string_of_uint d) = true.
Proof. induction d; cbn; auto. Qed.
Lemma uint_value d : forall acc, digits_value acc (NilEmpty.string_of_uint d) = Some (N.of_nat (Nat.of_uint_acc d (N.to_nat acc))).
Proof.
  induction d; intros acc; [cbn; rewrite Nnat.N2Nat.id; reflexivity|..];
    (cbn [NilEmpty.string_of_uint digits_value]; unfold is_digit, ain; cbn [nat_of_ascii N_of_ascii N_of_digits]; simpl (andb _ _); cbv iota;
     cbn [Nat.of_uint_acc]; rewrite Nat.tail_mul_spec; rewrite IHd; do 3 f_equal; cbn [nat_of_ascii]; simpl (N.to_nat _); lia).
Qed.
Lemma str_digits i : all_chars is_digit (py_str i) = true.
Proof. unfold py_str, NilZero.string_of_uint. destruct (Nat.to_uint i) eqn:E; try reflexivity; rewrite <- E; apply uint_digits. Qed.
Lemma str_value i : digits_value 0 (py_str i) = Some (N.of_nat i).
Proof.
  unfold py_str. rewrite <- (Unsigned.of_to i) at 2. unfold NilZero.string_of_uint, Nat.of_uint.
  destruct (Nat.to_uint i) eqn:E; [reflexivity|..]; rewrite <- E; apply uint_value.
Qed.
Lemma zeros_digits n : all_chars is_digit (zeros n) = true.
Proof. induction n; cbn; auto. Qed.
Lemma zeros_value n s : digits_value 0 (zeros n ++ s) = digits_value 0 s.
Proof. induction n; cbn; auto. Qed.
Lemma zfill_value n i : digits_value 0 (zfill n (py_str i)) = Some (N.of_nat i).
Proof. unfold zfill. rewrite zeros_value. apply str_value. Qed.
Lemma zfill_digits n i : all_chars is_digit (zfill n (py_str i)) = true.
Proof. unfold zfill. rewrite all_chars_app, zeros_digits, str_digits. reflexivity. Qed.
Lemma span_all P a c b : all_chars P a = true -> P c = false -> span P (a ++ String c b) = (a, String c b).
Proof.
  intros H Hc. induction a as [|x a IH]; cbn; [rewrite Hc; reflexivity|]. cbn in H. apply andb_true_iff in H as [H1 H2].
  rewrite H1, (IH H2). reflexivity.
Qed.
Lemma prefix_inj i j a b : zfill 3 (py_str i) ++ String "_" a = zfill 3 (py_str j) ++ String "_" b -> i = j.
Proof.
  intros H. apply (f_equal (span is_digit)) in H. rewrite !span_all in H by (apply zfill_digits || reflexivity).
  injection H as H _. apply (f_equal (digits_value 0)) in H. rewrite !zfill_value in H. injection H as H. lia.
Qed.
Lemma key_inj i j a b : stl_key i a = stl_key j b -> i = j.
Proof. apply prefix_inj. Qed.

Lemma digit_safe c : is_digit c = true -> safe c = true.
Proof. intros H. unfold safe. rewrite H, !orb_true_r. reflexivity. Qed.
Lemma sanitise_safe s : all_chars safe (sanitise s) = true.
Proof.
  unfold sanitise. induction s as [|c s IH]; cbn; [reflexivity|]. rewrite IH, andb_true_r. destruct (safe c) eqn:E; [exact E|reflexivity].
Qed.
Lemma key_safe i s : all_chars safe (stl_key i s) = true.
Proof.
  unfold stl_key. rewrite !all_chars_app, sanitise_safe. cbn [all_chars]. rewrite (all_chars_impl is_digit safe _ digit_safe (zfill_digits 3 i)). reflexivity.
Qed.
Lemma sanitise_len s : String.length (sanitise s) = String.length s.
Proof. unfold sanitise. induction s as [|c s IH]; cbn; [reflexivity|]. f_equal. exact IH. Qed.
Lemma sanitise_id s : all_chars safe s = true -> sanitise s = s.
Proof.
  unfold sanitise. induction s as [|c s IH]; cbn; [reflexivity|]. intros H. apply andb_true_iff in H as [H1 H2]. rewrite H1, (IH H2). reflexivity.
Qed.

(** ** The loops *)
Lemma dset_new {A} k (v : A) d : ~ In k (map fst d) -> dset String.eqb k v d = (d ++ [(k, v)])%list.
Proof.
  induction d as [|[q w] d IH]; cbn; [reflexivity|]. intros H. destruct (String.eqb_spec k q) as [->|N]; [exfalso; auto|]. rewrite IH by auto. reflexivity.
Qed.
Lemma loop_spec {A} (f : nat -> N -> string -> result A) : forall sd i d,
  (forall j s, i <= j -> ~ In (stl_key j s) (map fst d)) ->
  match stl_loop f i sd d with
  | Ok r => exists r', r = (d ++ r')%list /\ List.length r' = List.length sd /\
      forall m n s, nth_error sd m = Some (n, s) -> exists v, f (i + m) n s = Ok v /\ nth_error r' m = Some (stl_key (i + m) s, v)
  | Err e => exists m n s, nth_error sd m = Some (n, s) /\ f (i + m) n s = Err e
  end.
Proof.
  induction sd as [|[n s] sd IH]; intros i d Hd; cbn [stl_loop].
  - exists []. rewrite app_nil_r. split; [reflexivity|]. split; [reflexivity|]. intros [|m] ? ?; discriminate.
  - destruct (f i n s) as [v|e] eqn:F; cbn [bind].
    + rewrite (dset_new (stl_key i s) v d) by (apply Hd; lia).
      specialize (IH (S i) (d ++ [(stl_key i s, v)])%list). destruct (stl_loop f (S i) sd _) as [r|e].
      * destruct IH as (r' & -> & L & P).
        { intros j s' Hj. rewrite map_app, in_app_iff. cbn [map fst In]. intros [H|[H|[]]]; [apply (Hd j s' ltac:(lia) H)|].
          apply key_inj in H. lia. }
        exists ((stl_key i s, v) :: r'). split; [rewrite <- app_assoc; reflexivity|]. split; [cbn; lia|].
        intros [|m] n' s' E; cbn [nth_error] in *.
        -- injection E as <- <-. rewrite Nat.add_0_r. exists v. auto.
        -- destruct (P m n' s' E) as (w & W1 & W2). exists w. rewrite Nat.add_succ_r. auto.
      * destruct IH as (m & n' & s' & E & F').
        { intros j s' Hj. rewrite map_app, in_app_iff. cbn [map fst In]. intros [H|[H|[]]]; [apply (Hd j s' ltac:(lia) H)|].
          apply key_inj in H. lia. }
        exists (S m), n', s'. rewrite Nat.add_succ_r. auto.
    + exists 0, n, s. rewrite Nat.add_0_r. auto.
Qed.
Lemma loop_total {A} (f : nat -> N -> string -> result A) sd : (forall i n s, i < List.length sd -> exists v, f i n s = Ok v) ->
  exists r, stl_loop f 0 sd [] = Ok r /\ List.length r = List.length sd /\
    forall m n s, nth_error sd m = Some (n, s) -> exists v, f m n s = Ok v /\ nth_error r m = Some (stl_key m s, v).
Proof.
  intros H. pose proof (loop_spec f sd 0 []) as L. destruct (stl_loop f 0 sd []) as [r|e].
  - destruct L as (r' & -> & L & P); [intros ? ? ? []|]. exists r'. auto.
  - destruct L as (m & n & s & E & F); [intros ? ? ? []|]. destruct (H m n s) as [v V]; [apply nth_error_Some; congruence|].
    cbn [Nat.add] in F. congruence.
Qed.
Lemma numbered_NoDup (l : list string) : (forall m k, nth_error l m = Some k -> exists a, k = zfill 3 (py_str m) ++ String "_" a) -> NoDup l.
Proof.
  intros H. apply NoDup_nth_error. intros i j Hi E. destruct (nth_error l i) as [k|] eqn:Ei; [|apply nth_error_None in Ei; lia].
  symmetry in E. destruct (H i k Ei) as [a Ea]. destruct (H j k E) as [b Eb]. apply (prefix_inj i j a b). congruence.
Qed.
Lemma app_inj_l (a b c : string) : a ++ b = a ++ c -> b = c.
Proof. induction a as [|x a IH]; cbn; [auto|]. intros H. injection H as H. auto. Qed.
Lemma paths_NoDup (p : string) (l : list string) :
  (forall m k, nth_error l m = Some k -> exists a, k = p ++ zfill 3 (py_str m) ++ String "_" a) -> NoDup l.
Proof.
  intros H. apply NoDup_nth_error. intros i j Hi E. destruct (nth_error l i) as [k|] eqn:Ei; [|apply nth_error_None in Ei; lia].
  symmetry in E. destruct (H i k Ei) as [a Ea]. destruct (H j k E) as [b Eb]. rewrite Ea in Eb. apply app_inj_l in Eb. apply (prefix_inj i j a b Eb).
Qed.

(** ** The two passes *)
Section D.
  Context {A : Type}.
  Implicit Types d : list (N * A).
  Lemma dget_dset k (v : A) d q : dget N.eqb q (dset N.eqb k v d) = if N.eqb q k then Some v else dget N.eqb q d.
  Proof.
    induction d as [|[x w] d IH]; cbn; [reflexivity|]. destruct (N.eqb_spec k x) as [->|N1]; cbn.
    - destruct (N.eqb_spec q x); reflexivity.
    - destruct (N.eqb_spec q x) as [->|N2]; [|exact IH]. destruct (N.eqb_spec x k); [congruence|reflexivity].
  Qed.
  Lemma dset_keys k (v : A) d x : In x (map fst (dset N.eqb k v d)) <-> x = k \/ In x (map fst d).
  Proof.
    induction d as [|[q w] d IH]; cbn; [intuition|]. destruct (N.eqb_spec k q) as [->|N1]; cbn; [intuition|]. rewrite IH. intuition.
  Qed.
  Lemma dset_NoDup k (v : A) d : NoDup (map fst d) -> NoDup (map fst (dset N.eqb k v d)).
  Proof.
    induction d as [|[q w] d IH]; cbn; intros H; [constructor; [intros []|constructor]|]. inversion_clear H as [|? ? H1 H2].
    destruct (N.eqb_spec k q) as [->|N1]; cbn; constructor; auto. rewrite dset_keys. intros [->|X]; auto.
  Qed.
  Lemma dget_in d : NoDup (map fst d) -> forall k v, In (k, v) d <-> dget N.eqb k d = Some v.
  Proof.
    induction d as [|[q w] d IH]; cbn; intros H k v; [split; [intros []|discriminate]|]. inversion_clear H as [|? ? H1 H2].
    destruct (N.eqb_spec k q) as [->|N1].
    - split; [intros [E|E]; [congruence|]|intros E; left; congruence]. exfalso. apply H1. apply in_map_iff. exists (q, v). auto.
    - rewrite <- IH by exact H2. split; [intros [E|E]; [congruence|exact E]|auto].
  Qed.
  Lemma dget_key d k : (exists v, dget N.eqb k d = Some v) <-> In k (map fst d).
  Proof.
    induction d as [|[q w] d IH]; cbn; [split; [intros [v V]; discriminate|intros []]|].
    destruct (N.eqb_spec k q) as [->|N1]; [split; eauto|]. rewrite IH. split; [auto|intros [E|E]; [congruence|exact E]].
  Qed.
End D.

(** The entity number and name a line declares as a solid. *)
Definition declares (l : string) (n : N) (name : string) : Prop :=
  exists items, search solid_at l = Some (name, items) /\ py_int (lstrip is_hash (rstrip is_space (lstrip is_space (hd "" (split "," items))))) = Ok n.
(** The line puts entity n on the layer. *)
Definition assigns (l : string) (n : N) (layer : string) : Prop :=
  exists nums ns, search material_at l = Some (layer, nums) /\ all_ints (split "," nums) = Ok ns /\ In n ns.
(** P holds of the last of the lines for which some P holds *)
Definition last_of (P : string -> N -> string -> Prop) (lines : list string) (n : N) (v : string) : Prop :=
  exists a l b, lines = (a ++ l :: b)%list /\ P l n v /\ forall l' w, In l' b -> ~ P l' n w.

Lemma declares_fun l n a m b : declares l n a -> declares l m b -> n = m /\ a = b.
Proof. intros (i & S & P) (j & S' & P'). rewrite S in S'. injection S' as <- <-. rewrite P in P'. injection P' as <-. auto. Qed.
Lemma assigns_fun l n a m b : assigns l n a -> assigns l m b -> a = b.
Proof. intros (i & ns & S & _) (j & ms & S' & _). rewrite S in S'. injection S' as <- _. reflexivity. Qed.

Lemma last_cons P l ls n v : last_of P (l :: ls) n v <-> last_of P ls n v \/ (P l n v /\ forall l' w, In l' ls -> ~ P l' n w).
Proof.
  split.
  - intros ([|x a] & l' & b & E & H & F); injection E as <- ->; [right; auto|]. left. exists a, l', b. auto.
  - intros [(a & l' & b & -> & H & F)|[H F]]; [exists (l :: a), l', b; auto|exists [], l, ls; auto].
Qed.

Lemma solids_pass_spec : forall lines d sd, NoDup (map fst d) -> solids_pass lines d = Ok sd ->
  NoDup (map fst sd) /\
  forall n v, dget N.eqb n sd = Some v <-> last_of declares lines n v \/ (dget N.eqb n d = Some v /\ forall l w, In l lines -> ~ declares l n w).
Proof.
  induction lines as [|l ls IH]; intros d sd Hd E; cbn [solids_pass] in E.
  - injection E as <-. split; [exact Hd|]. intros n v. split; [intros H; right; split; [exact H|intros ? ? []]|].
    intros [(a & l & b & X & _)|[H _]]; [destruct a; discriminate|exact H].
  - destruct (search solid_at l) as [[name items]|] eqn:S.
    + destruct (py_int _) as [n0|] eqn:P; [|discriminate]. cbn [bind] in E.
      assert (D : declares l n0 name) by (exists items; auto).
      destruct (IH _ _ (dset_NoDup n0 name d Hd) E) as [ND Q]. split; [exact ND|]. intros n v. rewrite Q, last_cons, dget_dset.
      destruct (N.eqb_spec n n0) as [->|N1].
      * split.
        -- intros [H|[H F]]; [auto|]. injection H as ->. left. right. auto.
        -- intros [[H|[H F]]|[H F]]; [auto| |exfalso; exact (F l name (or_introl eq_refl) D)]. destruct (declares_fun _ _ _ _ _ H D) as [_ ->]. auto.
      * split.
        -- intros [H|[H F]]; [auto|]. right. split; [exact H|]. intros l' w [<-|I]; [|apply F; exact I]. intros X. destruct (declares_fun _ _ _ _ _ X D). congruence.
        -- intros [[H|[H F]]|[H F]]; [auto| |]. ++ destruct (declares_fun _ _ _ _ _ H D). congruence. ++ right. split; [exact H|]. intros l' w I. apply F. right. exact I.
    + destruct (IH _ _ Hd E) as [ND Q]. split; [exact ND|]. intros n v. rewrite Q, last_cons.
      assert (X : forall w, ~ declares l n w) by (intros w (i & S' & _); congruence).
      split.
      * intros [H|[H F]]; [auto|]. right. split; [exact H|]. intros l' w [<-|I]; [apply X|apply F; exact I].
      * intros [[H|[H F]]|[H F]]; [auto|exfalso; exact (X v H)|]. right. split; [exact H|]. intros l' w I. apply F. right. exact I.
Qed.
Lemma fold_assign (sd : list (N * string)) name ns : forall (d : list (N * string)) q,
  dget N.eqb q (fold_left (fun d n => match dget N.eqb n sd with Some _ => dset N.eqb n name d | None => d end) ns d) =
  if existsb (N.eqb q) ns then match dget N.eqb q sd with Some _ => Some name | None => dget N.eqb q d end else dget N.eqb q d.
Proof.
  induction ns as [|n ns IH]; intros d q; cbn [fold_left existsb]; [reflexivity|]. rewrite IH.
  destruct (N.eqb_spec q n) as [->|N1]; cbn [orb].
  - destruct (existsb (N.eqb n) ns); destruct (dget N.eqb n sd) eqn:E; try reflexivity; rewrite dget_dset, N.eqb_refl; reflexivity.
  - assert (X : dget N.eqb q (match dget N.eqb n sd with Some _ => dset N.eqb n name d | None => d end) = dget N.eqb q d).
    { destruct (dget N.eqb n sd); [|reflexivity]. rewrite dget_dset. destruct (N.eqb_spec q n); [congruence|reflexivity]. }
    rewrite X. reflexivity.
Qed.
Lemma materials_pass_spec sd : forall lines d md, materials_pass sd lines d = Ok md ->
  forall n v, dget N.eqb n md = Some v <->
    (In n (map fst sd) /\ last_of assigns lines n v) \/
    (dget N.eqb n d = Some v /\ ~ (In n (map fst sd) /\ exists l w, In l lines /\ assigns l n w)).
Proof.
  induction lines as [|l ls IH]; intros d md E n v; cbn [materials_pass] in E.
  - injection E as <-. split; [intros H; right; split; [exact H|intros (_ & ? & ? & [] & _)]|].
    intros [(_ & a & l & b & X & _)|[H _]]; [destruct a; discriminate|exact H].
  - assert (Skip : (forall w, ~ assigns l n w) ->
      ((In n (map fst sd) /\ last_of assigns ls n v) \/ (dget N.eqb n d = Some v /\ ~ (In n (map fst sd) /\ exists l w, In l ls /\ assigns l n w))) <->
      ((In n (map fst sd) /\ last_of assigns (l :: ls) n v) \/ (dget N.eqb n d = Some v /\ ~ (In n (map fst sd) /\ exists l' w, In l' (l :: ls) /\ assigns l' n w)))).
    { intros X. rewrite last_cons. split.
      - intros [[H H']|[H F]]; [auto|]. right. split; [exact H|]. intros (I & l' & w & [<-|I'] & A); [exact (X w A)|]. apply F. eauto.
      - intros [[H [H'|[H' _]]]|[H F]]; [auto|exfalso; exact (X v H')|]. right. split; [exact H|]. intros (I & l' & w & I' & A). apply F. split; [exact I|]. exists l', w. cbn. auto. }
    destruct (search material_at l) as [[name nums]|] eqn:S.
    + destruct (all_ints (split "," nums)) as [ns|] eqn:P; [|discriminate]. cbn [bind] in E.
      rewrite (IH _ _ E n v), fold_assign. destruct (existsb (N.eqb n) ns) eqn:Ex.
      * apply existsb_exists in Ex as (x & I & Q). apply N.eqb_eq in Q. subst x.
        assert (D : assigns l n name) by (exists nums, ns; auto).
        destruct (dget N.eqb n sd) as [s|] eqn:G.
        -- assert (K : In n (map fst sd)) by (apply dget_key; eauto). rewrite last_cons. split.
           ++ intros [[H H']|[H F]]; [auto|]. injection H as ->. left. split; [exact K|]. right. split; [exact D|]. intros l' w I' A. apply F. eauto.
           ++ intros [[H [H'|[H' F]]]|[H F]]; [auto| |exfalso; apply F; split; [exact K|]; exists l, name; cbn; auto].
              rewrite (assigns_fun _ _ _ _ _ H' D). right. split; [reflexivity|]. intros (_ & l' & w & I' & A). exact (F l' w I' A).
        -- assert (K : ~ In n (map fst sd)) by (intros K; apply dget_key in K as [w W]; congruence). split.
           ++ intros [[H H']|[H F]]; [contradiction|]. right. split; [exact H|]. intros [H' _]. contradiction.
           ++ intros [[H H']|[H F]]; [contradiction|]. right. split; [exact H|]. intros [H' _]. contradiction.
      * apply Skip. intros w (nums' & ns' & S' & P' & I). rewrite S in S'. injection S' as <- <-. rewrite P in P'. injection P' as <-.
        assert (existsb (N.eqb n) ns = true) by (apply existsb_exists; exists n; split; [exact I|apply N.eqb_refl]). congruence.
    + rewrite (IH _ _ E n v). apply Skip. intros w (nums' & ns' & S' & _). congruence.
Qed.

Lemma assigns_dec l n : (exists w, assigns l n w) \/ forall w, ~ assigns l n w.
Proof.
  destruct (search material_at l) as [[name nums]|] eqn:S; [|right; intros w (? & ? & X & _); congruence].
  destruct (all_ints (split "," nums)) as [ns|] eqn:P.
  - destruct (in_dec N.eq_dec n ns) as [I|I]; [left; exists name, nums, ns; auto|].
    right. intros w (nums' & ns' & S' & P' & I'). rewrite S in S'. injection S' as <- <-. rewrite P in P'. injection P' as <-. auto.
  - right. intros w (nums' & ns' & S' & P' & _). rewrite S in S'. injection S' as <- <-. congruence.
Qed.
Lemma last_exists lines n : (exists v, last_of assigns lines n v) \/ forall l w, In l lines -> ~ assigns l n w.
Proof.
  induction lines as [|l ls IH]; [right; intros ? ? []|]. destruct IH as [[v IH]|IH].
  - left. exists v. apply last_cons. auto.
  - destruct (assigns_dec l n) as [[w H]|H]; [left; exists w; apply last_cons; auto|]. right. intros l' w [<-|I]; auto.
Qed.
Lemma last_same lines n : forall v w, last_of assigns lines n v -> last_of assigns lines n w -> v = w.
Proof.
  induction lines as [|l ls IH]; intros v w H H'; [destruct H as ([|? a] & ? & ? & X & _); discriminate|].
  apply last_cons in H. apply last_cons in H'.
  assert (Q : forall v w, last_of assigns ls n v -> (forall l' w, In l' ls -> ~ assigns l' n w) -> v = w).
  { intros x y (a & l' & b & -> & A & _) F. exfalso. apply (F l' x); [apply in_elt|exact A]. }
  destruct H as [H|[H F]], H' as [H'|[H' F']]; [apply IH; assumption|eapply Q; eassumption|symmetry; eapply Q; eassumption|].
  eapply assigns_fun; eassumption.
Qed.
Lemma nth_error_ext_eq {A} : forall (l l' : list A), List.length l = List.length l' -> (forall m, m < List.length l -> nth_error l m = nth_error l' m) -> l = l'.
Proof.
  induction l as [|a l IH]; intros [|b l'] L H; try discriminate; [reflexivity|]. f_equal.
  - specialize (H 0 ltac:(cbn; lia)). injection H as ->. reflexivity.
  - apply IH; [injection L as L; exact L|]. intros m Hm. exact (H (S m) ltac:(cbn; lia)).
Qed.
Lemma nth_error_firstn_lt {A} : forall (l : list A) n m, m < n -> nth_error (firstn n l) m = nth_error l m.
Proof. induction l as [|a l IH]; intros [|n] [|m] H; try reflexivity; try lia. cbn. apply IH. lia. Qed.
