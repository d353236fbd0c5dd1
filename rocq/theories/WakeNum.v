(** Laws of order and rounding used by the wake proofs, with rational and real instances. *)
From Coq Require Import List Arith ZArith Bool String Lia Ring Field QArith Qcanon Qround Reals Lra.
From Verif Require Import Num Vec FieldModel GridModel SolverModel SolverCons WakeModel.
Import ListNotations.

Class NumFlLaws (T : Type) {NT : Num T} {OT : NumOrd T} {FT : NumFl T} : Prop := {
  ol_irr : forall a : T, nltb a a = false;
  ol_trans : forall a b c : T, nltb a b = true -> nltb b c = true -> nltb a c = true;
  ol_total : forall a b : T, nltb a b = false -> nltb b a = false -> a = b;
  ol_add : forall a b c : T, nltb (nadd a c) (nadd b c) = nltb a b;
  ol_mul : forall a b c : T, nltb nzero c = true -> nltb (nmul a c) (nmul b c) = nltb a b;
  ol_01 : nltb nzero none_ = true;
  fl_succ : forall x : T, nfloor (nadd x none_) = (nfloor x + 1)%Z;
  fl_neg : forall x : T, nltb x nzero = true <-> (nfloor x < 0)%Z
}.

#[global] Instance NumFl_Qc : NumFl Qc := { nfloor := fun x => Qfloor (this x) }.
#[global] Instance NumFl_R : NumFl R := { nfloor := fun x => (up x - 1)%Z }.

Lemma Qc_ltb (a b : Qc) : nltb a b = true <-> (a < b)%Qc.
Proof.
  cbn. destruct (Qclt_le_dec a b) as [H|H]; split; intros; auto; try discriminate.
  exfalso. apply (Qcle_not_lt _ _ H). assumption.
Qed.
Lemma Qc_ltb_f (a b : Qc) : nltb a b = false <-> (b <= a)%Qc.
Proof.
  cbn. destruct (Qclt_le_dec a b) as [H|H]; split; intros; auto; try discriminate.
  exfalso. apply (Qcle_not_lt _ _ H0). assumption.
Qed.
Lemma R_ltb (a b : R) : nltb a b = true <-> (a < b)%R.
Proof. cbn. destruct (Rlt_dec a b); split; intros; auto; try discriminate; lra. Qed.
Lemma R_ltb_f (a b : R) : nltb a b = false <-> (b <= a)%R.
Proof. cbn. destruct (Rlt_dec a b); split; intros; auto; try discriminate; lra. Qed.

Lemma bool_iff (a b : bool) : (a = true <-> b = true) -> a = b.
Proof. destruct a, b; intros H; auto; [symmetry; apply H | apply H]; reflexivity. Qed.

Lemma Qcplus_lt_r (a b c : Qc) : (a < b)%Qc -> (a + c < b + c)%Qc.
Proof.
  intros H. apply Qc_ltb. destruct (nltb (a + c)%Qc (b + c)%Qc) eqn:E; [reflexivity|].
  apply Qc_ltb_f in E. apply (fun h => Qcplus_le_compat _ _ _ _ h (Qcle_refl (-c)%Qc)) in E.
  replace (b + c + - c)%Qc with b in E by ring. replace (a + c + - c)%Qc with a in E by ring.
  exfalso. apply (Qcle_not_lt _ _ E H).
Qed.

#[global] Instance NumFlLaws_Qc : NumFlLaws Qc.
Proof.
  constructor.
  - intros a. apply Qc_ltb_f. apply Qcle_refl.
  - intros a b c H1 H2. apply Qc_ltb in H1, H2. apply Qc_ltb. eapply Qclt_trans; eassumption.
  - intros a b H1 H2. apply Qc_ltb_f in H1, H2. apply Qcle_antisym; assumption.
  - intros a b c. apply bool_iff. rewrite !Qc_ltb. split; [|apply Qcplus_lt_r].
    intros H. apply (fun h => Qcplus_lt_r _ _ (-c)%Qc h) in H. cbn in H.
    replace (a + c + - c)%Qc with a in H by ring. replace (b + c + - c)%Qc with b in H by ring. exact H.
  - intros a b c Hc. apply Qc_ltb in Hc. apply bool_iff. rewrite !Qc_ltb. split; intros H.
    + apply Qcnot_le_lt. intros Hle. apply (Qclt_not_le _ _ H).
      apply Qcmult_le_compat_r; [exact Hle|]. apply Qclt_le_weak; exact Hc.
    + apply Qcmult_lt_compat_r; assumption.
  - reflexivity.
  - intros x. change (Qfloor (this (x + 1)%Qc) = (Qfloor (this x) + 1)%Z).
    rewrite <- (Qfloor_comp (this x + 1)%Q).
    2:{ unfold Qcplus, Q2Qc. cbn [this]. rewrite Qred_correct. cbn [this Q2Qc]. reflexivity. }
    replace 1%Z with (Qfloor 1%Q) at 2 by reflexivity.
    destruct x as [[p d] Hx]. cbn [this]. unfold Qfloor, Qplus. cbn [Qnum Qden].
    rewrite Pos.mul_1_r, !Z.mul_1_l, Z.mul_1_r, Z.div_1_r.
    replace (p + Z.pos d)%Z with (p + 1 * Z.pos d)%Z by ring.
    rewrite Z.div_add by lia. reflexivity.
  - intros x. rewrite Qc_ltb. change ((x < Q2Qc 0)%Qc <-> (Qfloor (this x) < 0)%Z).
    unfold Qclt. cbn [this Q2Qc]. destruct x as [[p d] Hx]. cbn [this]. unfold Qlt, Qfloor. cbn.
    rewrite Z.mul_1_r. split; intros H.
    + apply Z.div_lt_upper_bound; lia.
    + destruct (Z.le_gt_cases 0 p) as [Hp|Hp]; [|exact Hp].
      exfalso. pose proof (Z.div_pos p (Z.pos d) Hp eq_refl). lia.
Qed.

#[global] Instance NumFlLaws_R : NumFlLaws R.
Proof.
  constructor.
  - intros a. apply R_ltb_f. lra.
  - intros a b c H1 H2. apply R_ltb in H1, H2. apply R_ltb. lra.
  - intros a b H1 H2. apply R_ltb_f in H1, H2. lra.
  - intros a b c. apply bool_iff. rewrite !R_ltb. cbn. lra.
  - intros a b c Hc. apply R_ltb in Hc. apply bool_iff. rewrite !R_ltb. cbn. cbn in Hc. split; intros H.
    + apply Rmult_lt_reg_r with c; lra.
    + apply Rmult_lt_compat_r; lra.
  - apply R_ltb. cbn. lra.
  - intros x. cbn. enough (up (x + 1)%R = (up x + 1)%Z) by lia.
    symmetry. apply tech_up; rewrite plus_IZR; destruct (archimed x); lra.
  - intros x. rewrite R_ltb. cbn. destruct (archimed x) as [H1 H2]. split; intros H.
    + enough (up x < 1)%Z by lia. apply lt_IZR. enough (IZR (up x) <= 0 \/ IZR (up x) < 1)%R by lra.
      right. lra.
    + enough (IZR (up x) <= 0)%R by lra. apply IZR_le. lia.
Qed.

Section Laws.
  Context {T : Type} {NT : Num T} {LT : NumLaws T} {OT : NumOrd T} {FT : NumFl T} {FL : NumFlLaws T}.
  Add Field wnum : (@num_field T NT LT).
  Local Open Scope num_scope.

  Lemma fl_nat n (x : T) : nfloor (nofnat n + x) = (Z.of_nat n + nfloor x)%Z.
  Proof.
    induction n as [|n IH].
    - cbn [nofnat Z.of_nat]. rewrite Z.add_0_l. f_equal. ring.
    - cbn [nofnat]. replace (nofnat n + 1 + x) with (nofnat n + x + 1) by ring.
      rewrite fl_succ, IH. lia.
  Qed.
  Lemma fl_0 : nfloor (0 : T) = 0%Z.
  Proof.
    assert (H1 : ~ (nfloor (nzero : T) < 0)%Z). { rewrite <- fl_neg, ol_irr. discriminate. }
    assert (H2 : (nfloor (nopp none_ : T) < 0)%Z).
    { apply fl_neg. rewrite <- (ol_add _ _ (1 : T)). replace (- (1) + 1 : T) with (0 : T) by ring.
      replace (0 + 1 : T) with (1 : T) by ring. apply ol_01. }
    pose proof (fl_succ (- (1) : T)) as H3. replace (- (1) + 1 : T) with (0 : T) in H3 by ring. lia.
  Qed.
  Lemma fl_nofnat n : nfloor (nofnat n : T) = Z.of_nat n.
  Proof. replace (nofnat n : T) with (nofnat n + 0 : T) by ring. rewrite fl_nat, fl_0. lia. Qed.
  Lemma fl_neg_nofnat n : nfloor (- nofnat n : T) = (- Z.of_nat n)%Z.
  Proof.
    pose proof (fl_nat n (- nofnat n : T)) as H. replace (nofnat n + - nofnat n : T) with (0 : T) in H by ring.
    rewrite fl_0 in H. lia.
  Qed.
  Lemma ceil_nofnat n : nceil (nofnat n : T) = Z.of_nat n.
  Proof. unfold nceil. rewrite fl_neg_nofnat. lia. Qed.

  Lemma fl_nonneg (x : T) : nltb x 0 = false -> (0 <= nfloor x)%Z.
  Proof. intros H. destruct (Z.le_gt_cases 0 (nfloor x)) as [|G]; [assumption|]. apply fl_neg in G. congruence. Qed.
  Lemma nltb_nonneg (x : T) : (0 <= nfloor x)%Z -> nltb x 0 = false.
  Proof. intros H. destruct (nltb x 0) eqn:G; [|reflexivity]. apply fl_neg in G. lia. Qed.

  Lemma trunc_nat n (x : T) : nltb x 0 = false -> ntrunc (nofnat n + x) = (Z.of_nat n + nfloor x)%Z.
  Proof.
    intros H. unfold ntrunc. rewrite nltb_nonneg; [apply fl_nat|].
    rewrite fl_nat. pose proof (fl_nonneg _ H). lia.
  Qed.
  Lemma trunc_nonneg (x : T) : nltb x 0 = false -> ntrunc x = nfloor x.
  Proof. intros H. unfold ntrunc. rewrite H. reflexivity. Qed.

  Lemma pos_neq (x : T) : nltb 0 x = true -> x <> 0.
  Proof. intros H ->. rewrite ol_irr in H. discriminate. Qed.
  Lemma le_sub (a b : T) : nltb a b = false -> nltb (a - b) 0 = false.
  Proof. intros H. rewrite <- H. rewrite <- (ol_add (a - b) 0 b). f_equal; ring. Qed.
  Lemma mul_pos (a b : T) : nltb 0 a = true -> nltb 0 b = true -> nltb 0 (a * b) = true.
  Proof. intros Ha Hb. rewrite <- (ol_mul 0 a b Hb) in Ha. replace (0 * b) with (0 : T) in Ha by ring. exact Ha. Qed.
  Lemma div_nonneg (a b : T) : nltb a 0 = false -> nltb 0 b = true -> nltb (a / b) 0 = false.
  Proof.
    intros Ha Hb. rewrite <- Ha, <- (ol_mul (a / b) 0 b Hb). f_equal; field. apply pos_neq; exact Hb.
  Qed.
  Lemma ltb_asym (a b : T) : nltb a b = true -> nltb b a = false.
  Proof.
    intros H. destruct (nltb b a) eqn:G; [|reflexivity].
    pose proof (ol_trans _ _ _ H G) as K. rewrite ol_irr in K. discriminate.
  Qed.
  Lemma le_trans (a b c : T) : nltb b a = false -> nltb c b = false -> nltb c a = false.
  Proof.
    intros H1 H2. destruct (nltb c a) eqn:G; [|reflexivity].
    destruct (nltb b c) eqn:K.
    - pose proof (ol_trans _ _ _ K G). congruence.
    - rewrite (ol_total _ _ K H2) in H1. congruence.
  Qed.

  (** np.min and np.max bound every entry and are entries. *)
  Lemma fold_min_spec (r : list T) x :
    nltb x (fold_left nmin r x) = false /\
    (forall y, In y r -> nltb y (fold_left nmin r x) = false) /\
    (fold_left nmin r x = x \/ In (fold_left nmin r x) r).
  Proof.
    revert x. induction r as [|a r IH]; intros x; cbn [fold_left].
    - repeat split; [apply ol_irr|intros y []|left; reflexivity].
    - destruct (IH (nmin x a)) as (I1 & I2 & I3).
      assert (A : nltb a (nmin x a) = false /\ nltb x (nmin x a) = false /\ (nmin x a = x \/ nmin x a = a)).
      { unfold nmin. destruct (nltb a x) eqn:G.
        - split; [apply ol_irr|]. split; [apply ltb_asym; exact G|right; reflexivity].
        - split; [exact G|]. split; [apply ol_irr|left; reflexivity]. }
      destruct A as (A1 & A2 & A3). repeat split.
      + eapply le_trans; eassumption.
      + intros y [<-|Hy]; [eapply le_trans; eassumption|apply I2; exact Hy].
      + destruct I3 as [->|I3]; [|right; right; exact I3].
        destruct A3 as [->| ->]; [left; reflexivity|right; left; reflexivity].
  Qed.
  Lemma fold_max_spec (r : list T) x :
    nltb (fold_left nmax r x) x = false /\
    (forall y, In y r -> nltb (fold_left nmax r x) y = false) /\
    (fold_left nmax r x = x \/ In (fold_left nmax r x) r).
  Proof.
    revert x. induction r as [|a r IH]; intros x; cbn [fold_left].
    - repeat split; [apply ol_irr|intros y []|left; reflexivity].
    - destruct (IH (nmax x a)) as (I1 & I2 & I3).
      assert (A : nltb (nmax x a) a = false /\ nltb (nmax x a) x = false /\ (nmax x a = x \/ nmax x a = a)).
      { unfold nmax. destruct (nltb x a) eqn:G.
        - split; [apply ol_irr|]. split; [apply ltb_asym; exact G|right; reflexivity].
        - split; [exact G|]. split; [apply ol_irr|left; reflexivity]. }
      destruct A as (A1 & A2 & A3). repeat split.
      + eapply le_trans; eassumption.
      + intros y [<-|Hy]; [eapply le_trans; eassumption|apply I2; exact Hy].
      + destruct I3 as [->|I3]; [|right; right; exact I3].
        destruct A3 as [->| ->]; [left; reflexivity|right; left; reflexivity].
  Qed.
  Lemma np_min_le (v : list T) m : np_min v = Ok m -> In m v /\ forall y, In y v -> nltb y m = false.
  Proof.
    destruct v as [|x r]; [discriminate|]. cbn [np_min]. intros H. injection H as <-.
    destruct (fold_min_spec r x) as (H1 & H2 & H3). split.
    - destruct H3 as [->|H3]; [left; reflexivity|right; exact H3].
    - intros y [<-|Hy]; auto.
  Qed.
  Lemma np_max_le (v : list T) m : np_max v = Ok m -> In m v /\ forall y, In y v -> nltb m y = false.
  Proof.
    destruct v as [|x r]; [discriminate|]. cbn [np_max]. intros H. injection H as <-.
    destruct (fold_max_spec r x) as (H1 & H2 & H3). split.
    - destruct H3 as [->|H3]; [left; reflexivity|right; exact H3].
    - intros y [<-|Hy]; auto.
  Qed.
  Lemma np_min_ok (v : list T) : v <> [] -> exists m, np_min v = Ok m.
  Proof. destruct v; [congruence|]. intros _. eexists. reflexivity. Qed.
  Lemma np_max_ok (v : list T) : v <> [] -> exists m, np_max v = Ok m.
  Proof. destruct v; [congruence|]. intros _. eexists. reflexivity. Qed.

  (** argmin is the first smallest entry. *)
  Lemma argmin_go_spec (v : list T) : forall best bi i,
    (bi < i)%nat ->
    let r := argmin_go best bi i v in
    (r = bi /\ (forall j, (j < List.length v)%nat -> nltb (get v j) best = false)) \/
    (exists j, (j < List.length v)%nat /\ r = (i + j)%nat /\ nltb (get v j) best = true /\
      (forall l, (l < List.length v)%nat -> nltb (get v l) (get v j) = false) /\
      (forall l, (l < j)%nat -> nltb (get v j) (get v l) = true)).
  Proof.
    induction v as [|x v IH]; intros best bi i Hb; cbn [argmin_go].
    - left. split; [reflexivity|]. cbn. intros j Hj. lia.
    - destruct (nltb x best) eqn:G.
      + right. destruct (IH x i (S i) ltac:(lia)) as [(R & A)|(j & Hj & R & L & A & B)].
        * exists 0%nat. cbn [List.length]. split; [lia|]. split; [cbn zeta in R; rewrite R; lia|]. split; [exact G|].
          split; [|intros l Hl; lia]. intros [|l] Hl; [apply ol_irr|]. apply A. cbn in Hl. lia.
        * exists (S j). cbn [List.length]. split; [lia|]. split; [cbn zeta in R; rewrite R; lia|].
          split; [eapply ol_trans; eassumption|]. split.
          -- intros [|l] Hl; [|apply A; cbn in Hl; lia]. apply ltb_asym. exact L.
          -- intros [|l] Hl; [exact L|]. apply B. lia.
      + destruct (IH best bi (S i) ltac:(lia)) as [(R & A)|(j & Hj & R & L & A & B)].
        * left. split; [exact R|]. intros [|j] Hj; [exact G|]. apply A. cbn in Hj. lia.
        * right. exists (S j). cbn [List.length]. split; [lia|]. split; [cbn zeta in R; rewrite R; lia|].
          split; [exact L|]. split.
          -- intros [|l] Hl; [|apply A; cbn in Hl; lia]. apply ltb_asym.
             change (get (x :: v) (S j)) with (get v j). change (get (x :: v) 0) with x.
             destruct (nltb best x) eqn:K; [eapply ol_trans; eassumption|].
             rewrite (ol_total _ _ G K). exact L.
          -- intros [|l] Hl.
             ++ change (nltb (get v j) x = true). destruct (nltb best x) eqn:K; [eapply ol_trans; eassumption|].
                rewrite (ol_total _ _ G K). exact L.
             ++ apply B. lia.
  Qed.
  Lemma argmin_spec (v : list T) m : argmin v = Ok m ->
    (m < List.length v)%nat /\ (forall l, (l < List.length v)%nat -> nltb (get v l) (get v m) = false) /\
    (forall l, (l < m)%nat -> nltb (get v m) (get v l) = true).
  Proof.
    destruct v as [|x v]; [discriminate|]. cbn [argmin]. intros H. injection H as <-.
    destruct (argmin_go_spec v x 0 1 ltac:(lia)) as [(R & A)|(j & Hj & R & L & A & B)]; cbn zeta in R; rewrite R.
    - split; [cbn; lia|]. split; [|intros l Hl; lia].
      intros [|l] Hl; [apply ol_irr|]. apply A. cbn in Hl. lia.
    - split; [cbn; lia|]. change (1 + j)%nat with (S j). split.
      + intros [|l] Hl; [apply ltb_asym; exact L|]. apply A. cbn in Hl. lia.
      + intros [|l] Hl; [exact L|]. apply B. lia.
  Qed.
  Lemma argmin_ok (v : list T) : v <> [] -> exists m, argmin v = Ok m.
  Proof. destruct v; [congruence|]. intros _. eexists. reflexivity. Qed.
End Laws.
