(** Lemmas on the axis refinement, over the reals. *)
From Coq Require Import List Arith ZArith Bool String Lia Reals Lra Sorting.Sorted.
From Verif Require Import Num Vec FieldModel GridModel GridProofs GridProofs2 SolverModel SolverCons GridFileModel.
Import ListNotations.
Open Scope R_scope.

Definition incr (l : list R) : Prop := StronglySorted Rlt l.

Lemma nltb_R (a b : R) : nltb a b = true <-> a < b.
Proof. cbn. destruct (Rlt_dec a b); split; congruence || auto. Qed.
Lemma nltb_Rn (a b : R) : nltb a b = false <-> b <= a.
Proof. cbn. destruct (Rlt_dec a b); split; try congruence; intros; lra || reflexivity. Qed.

Lemma uinsert_spec x l : incr l -> incr (uinsert x l) /\ (forall y, In y (uinsert x l) <-> y = x \/ In y l) /\
  (List.length (uinsert x l) <= S (List.length l))%nat.
Proof.
  induction l as [|a l IH]; intros S; cbn [uinsert].
  - split; [constructor; constructor|]. split; [cbn; intuition|cbn; lia].
  - inversion S as [|? ? S' F]; subst. destruct (nltb x a) eqn:E1; [|destruct (nltb a x) eqn:E2].
    + apply nltb_R in E1. split; [|split; [cbn; intuition|cbn; lia]].
      constructor; [exact S|]. constructor; [exact E1|]. eapply Forall_impl; [|exact F]. cbn. intros b Hb. lra.
    + apply nltb_R in E2. destruct (IH S') as [I1 [I2 I3]]. split; [|split].
      * constructor; [exact I1|]. apply Forall_forall. intros y Hy. apply I2 in Hy. destruct Hy as [->|Hy]; [exact E2|].
        rewrite Forall_forall in F. apply F, Hy.
      * intros y. cbn. rewrite I2. intuition.
      * cbn. lia.
    + apply nltb_Rn in E1, E2. assert (x = a) by lra. subst. split; [exact S|]. split; [cbn; intuition|cbn; lia].
Qed.
Lemma unique_spec l : incr (unique l) /\ (forall y, In y (unique l) <-> In y l) /\ (List.length (unique l) <= List.length l)%nat.
Proof.
  induction l as [|a l [I1 [I2 I3]]]; cbn [unique fold_right]; [split; [constructor|split; [reflexivity|cbn; lia]]|].
  change (fold_right uinsert [] l) with (unique l). destruct (uinsert_spec a (unique l) I1) as [J1 [J2 J3]].
  split; [exact J1|]. split; [|cbn; lia]. intros y. rewrite J2, I2. cbn. intuition.
Qed.

Lemma incr_nth l : incr l -> forall i j, (i < j < List.length l)%nat -> nth i l 0 < nth j l 0.
Proof.
  induction 1 as [|a l S IH F]; intros i j H; cbn in H; [lia|]. destruct j as [|j]; [lia|]. destruct i as [|i].
  - cbn. rewrite Forall_forall in F. apply F, nth_In. lia.
  - cbn. apply IH. lia.
Qed.

Lemma In_tab {A} n (f : nat -> A) y : In y (tab n f) <-> exists i, (i < n)%nat /\ y = f i.
Proof.
  unfold tab. rewrite in_map_iff. split.
  - intros [i [<- Hi]]. apply in_seq in Hi. exists i. split; [lia|reflexivity].
  - intros [i [Hi ->]]. exists i. split; [reflexivity|]. apply in_seq. lia.
Qed.

Lemma linspace01_in n y : In y (linspace01 n) <->
  exists i, (i < n)%nat /\ y = (if (n =? 1)%nat then 0 else INR i / INR (n - 1)).
Proof.
  unfold linspace01. rewrite In_tab. split; intros [i [Hi E]]; exists i; (split; [exact Hi|]); rewrite E;
    destruct (n =? 1)%nat; try reflexivity; cbn [ndiv Num_R]; rewrite !nofnat_INR; reflexivity.
Qed.
Lemma linspace01_range n y : In y (linspace01 n) -> 0 <= y <= 1.
Proof.
  intros H. apply linspace01_in in H. destruct H as [i [Hi ->]]. destruct (Nat.eqb_spec n 1) as [->|N]; [lra|].
  assert (P : 0 < INR (n - 1)) by (apply lt_0_INR; lia). pose proof (pos_INR i) as P0.
  assert (Q : INR i <= INR (n - 1)) by (apply le_INR; lia). split.
  - apply Rmult_le_pos; [exact P0|]. left. apply Rinv_0_lt_compat, P.
  - apply (Rmult_le_reg_r (INR (n - 1))); [exact P|]. unfold Rdiv. rewrite Rmult_assoc, Rinv_l by lra. lra.
Qed.

Lemma refine_insert xmin xmax Nx pts : xmin < xmax ->
  let s := snaps_with_bounds xmin xmax pts in
  (List.length s <= Nx)%nat ->
  exists x0, refine_start xmin xmax Nx s MInsert = Ok x0 /\
    (forall i j, (i < j < List.length x0)%nat -> nth i x0 0 < nth j x0 0) /\
    (forall p, In p pts \/ p = xmin \/ p = xmax -> In ((p - xmin) / (xmax - xmin)) x0) /\
    (forall y, In y x0 -> (exists p, (In p pts \/ p = xmin \/ p = xmax) /\ y = (p - xmin) / (xmax - xmin)) \/ 
       exists i n, y = INR i / INR n /\ (i <= n < Nx)%nat) /\
    (List.length x0 <= Nx)%nat /\
    ((forall p, In p pts -> xmin <= p <= xmax) -> forall y, In y x0 -> 0 <= y <= 1).
Proof.
  intros Hx s Hs.
  assert (Ms : forall p, In p s <-> In p pts \/ p = xmin \/ p = xmax).
  { intros p. unfold s, snaps_with_bounds. rewrite (proj1 (proj2 (unique_spec _)) p).
    rewrite !in_app_iff, (proj1 (proj2 (unique_spec _)) p). cbn. intuition. }
  unfold refine_start. set (m := map _ s).
  assert (Lm : List.length m = List.length s) by apply map_length. rewrite Lm.
  destruct (Nat.ltb_spec Nx (List.length s)) as [H|_]; [lia|]. eexists. split; [reflexivity|].
  destruct (unique_spec (m ++ linspace01 (Nx - List.length s))) as [I1 [I2 I3]].
  assert (Mm : forall y, In y m <-> exists p, (In p pts \/ p = xmin \/ p = xmax) /\ y = (p - xmin) / (xmax - xmin)).
  { intros y. unfold m. rewrite in_map_iff. split; intros [p [A B]]; exists p; (split; [apply Ms, B || exact (eq_sym B)|]); try (apply Ms, A); symmetry; exact A. }
  split; [exact (incr_nth _ I1)|]. split; [|split; [|split]].
  - intros p Hp. apply I2, in_or_app. left. apply Mm. exists p. split; [exact Hp|reflexivity].
  - intros y Hy. apply I2, in_app_or in Hy. destruct Hy as [Hy|Hy]; [left; apply Mm, Hy|right].
    apply linspace01_in in Hy. destruct Hy as [i [Hi ->]]. destruct (Nat.eqb_spec (Nx - List.length s) 1) as [E|N].
    + exists 0%nat, 0%nat. split; [cbn; unfold Rdiv; rewrite Rmult_0_l; reflexivity|lia].
    + exists i, (Nx - List.length s - 1)%nat. split; [reflexivity|lia].
  - rewrite app_length in I3. unfold linspace01 in I3 at 2. rewrite tab_length, Lm in I3. lia.
  - intros Hp y Hy. apply I2, in_app_or in Hy. destruct Hy as [Hy|Hy]; [|apply linspace01_range in Hy; exact Hy].
    apply Mm in Hy. destruct Hy as [p [Hp' ->]].
    assert (R : xmin <= p <= xmax) by (destruct Hp' as [H|[->| ->]]; [apply Hp, H|lra|lra]).
    assert (P : 0 < xmax - xmin) by lra. split.
    + apply Rmult_le_pos; [lra|]. left. apply Rinv_0_lt_compat, P.
    + apply (Rmult_le_reg_r (xmax - xmin)); [exact P|]. unfold Rdiv. rewrite Rmult_assoc, Rinv_l by lra. lra.
Qed.

Lemma refine_too_many xmin xmax Nx snaps : (Nx < List.length snaps)%nat ->
  refine_start (T := R) xmin xmax Nx snaps MInsert = Err ValueError.
Proof. intros H. unfold refine_start. rewrite map_length. destruct (Nat.ltb_spec Nx (List.length snaps)); [reflexivity|lia]. Qed.

(** The 'neighbor' method for snaps more than a cell apart. *)
Lemma near_node n t : 0 <= t <= INR n -> exists i, (i <= n)%nat /\ Rabs (INR i - t) <= / 2.
Proof.
  induction n as [|n IH]; intros H.
  - exists 0%nat. split; [lia|]. cbn in H |- *. replace (0 - t) with 0 by lra. rewrite Rabs_R0. lra.
  - destruct (Rle_dec t (INR n)) as [L|L].
    + destruct IH as (i & Hi & A); [lra|]. exists i. split; [lia|exact A].
    + rewrite S_INR in H. destruct (Rle_dec (t - INR n) (/ 2)) as [M|M].
      * exists n. split; [lia|]. rewrite Rabs_left1; lra.
      * exists (S n). split; [lia|]. rewrite S_INR, Rabs_pos_eq; lra.
Qed.
Lemma nabs_Rabs x : @nabs R _ _ x = Rabs x.
Proof.
  unfold nabs. destruct (nltb x nzero) eqn:E.
  - apply nltb_R in E. cbn in E |- *. rewrite Rabs_left; [reflexivity|exact E].
  - apply nltb_Rn in E. cbn in E. rewrite Rabs_pos_eq; [reflexivity|lra].
Qed.
Lemma first_close_spec s tol : forall x k,
  match first_close x s tol k with
  | Some i => (k <= i < k + List.length x)%nat /\ Rabs (nth (i - k) x 0 - s) <= tol
  | None => forall j, (j < List.length x)%nat -> tol < Rabs (nth j x 0 - s)
  end.
Proof.
  induction x as [|y x IH]; intros k; cbn [first_close].
  - intros j Hj. cbn in Hj. lia.
  - destruct (nltb tol (nabs (nsub y s))) eqn:E; cbn [negb].
    + apply nltb_R in E. rewrite nabs_Rabs in E. specialize (IH (S k)). destruct (first_close x s tol (S k)) as [i|].
      * destruct IH as [H1 H2]. cbn [List.length]. split; [lia|]. replace (i - k)%nat with (S (i - S k)) by lia. exact H2.
      * intros [|j] Hj; [exact E|]. apply IH. cbn in Hj. lia.
    + apply nltb_Rn in E. rewrite nabs_Rabs in E. cbn [List.length]. split; [lia|].
      rewrite Nat.sub_diag. cbn [nth]. cbn [nsub Num_R] in E. lra.
Qed.
Lemma nth_tab n (f : nat -> R) i : (i < n)%nat -> nth i (tab n f) 0 = f i.
Proof. exact (get_tab n f i). Qed.
Lemma nth_lset (x : list R) i v j : nth j (lset x i v) 0 = if (j =? i)%nat then (if (j <? List.length x)%nat then v else 0) else nth j x 0.
Proof.
  unfold lset. destruct (Nat.ltb_spec j (List.length x)) as [H|H].
  - rewrite nth_tab by exact H. reflexivity.
  - rewrite nth_overflow by (rewrite tab_length; exact H). rewrite (nth_overflow x) by exact H. destruct (j =? i)%nat; reflexivity.
Qed.

Definition nb_step (h : R) (x : list R) (p : R) : list R :=
  match first_close x p (h / 2) 0 with Some i => lset x i p | None => x end.
Section Neighbor.
  Context (n : nat) (h : R) (Hh : 0 < h).
  (** [x] is the uniform axis with some nodes moved onto members of [done]. *)
  Definition nb_inv (done : list R) (x : list R) : Prop :=
    List.length x = S n /\ (forall p, In p done -> In p x) /\
    forall i, (i <= n)%nat -> nth i x 0 = INR i * h \/ (In (nth i x 0) done /\ Rabs (nth i x 0 - INR i * h) <= h / 2).
  Definition nb_incr (x : list R) : Prop := forall i, (S i <= n)%nat -> nth i x 0 < nth (S i) x 0.
  Lemma nb_near done x i : nb_inv done x -> (i <= n)%nat -> INR i * h - h / 2 <= nth i x 0 <= INR i * h + h / 2.
  Proof.
    intros (_ & _ & M) Hi. destruct (M i Hi) as [E|[_ B]]; [lra|].
    pose proof (Rle_abs (nth i x 0 - INR i * h)). pose proof (Rle_abs (- (nth i x 0 - INR i * h))) as Z. rewrite Rabs_Ropp in Z. lra.
  Qed.
  Lemma nb_one done x p : nb_inv done x -> 0 <= p <= INR n * h -> (forall p', In p' done -> h < Rabs (p' - p)) ->
    nb_incr x -> nb_inv (done ++ [p]) (nb_step h x p) /\ nb_incr (nb_step h x p).
  Proof.
    intros V Hp F C. pose proof (nb_near done x) as Nr. pose proof V as (L & I & M). unfold nb_step. pose proof (first_close_spec p (h / 2) x 0) as S0.
    destruct (first_close x p (h / 2) 0) as [i|].
    - destruct S0 as [Hi Hc]. rewrite Nat.sub_0_r in Hc. assert (Hin : (i <= n)%nat) by lia.
      assert (Eo : nth i x 0 = INR i * h).
      { destruct (M i Hin) as [E|[E _]]; [exact E|]. specialize (F _ E). lra. }
      split; [split; [unfold lset; rewrite tab_length; exact L|split]|].
      + intros p' Hp'. apply in_app_or in Hp'. destruct Hp' as [Hp'|[<-|[]]].
        * destruct (In_nth _ _ 0 (I p' Hp')) as (j & Hj & Ej). destruct (Nat.eq_dec j i) as [->|N].
          { exfalso. specialize (F _ Hp'). rewrite Ej in Hc. lra. }
          rewrite <- Ej. replace (nth j x 0) with (nth j (lset x i p) 0).
          { apply nth_In. unfold lset. rewrite tab_length. exact Hj. }
          rewrite nth_lset. destruct (Nat.eqb_spec j i); [contradiction|reflexivity].
        * replace p with (nth i (lset x i p) 0) at 1.
          { apply nth_In. unfold lset. rewrite tab_length. lia. }
          rewrite nth_lset, Nat.eqb_refl. destruct (Nat.ltb_spec i (List.length x)); [reflexivity|lia].
      + intros j Hj. rewrite nth_lset. destruct (Nat.eqb_spec j i) as [->|N].
        * destruct (Nat.ltb_spec i (List.length x)); [|lia]. right. split; [apply in_or_app; right; left; reflexivity|].
          rewrite <- Eo, Rabs_minus_sym. exact Hc.
        * destruct (M j Hj) as [E|[E B]]; [left; exact E|right; split; [apply in_or_app; left; exact E|exact B]].
      + intros j Hj. rewrite !nth_lset.
        assert (Pi : INR i * h - h / 2 <= p <= INR i * h + h / 2).
        { rewrite Eo in Hc. pose proof (Rle_abs (INR i * h - p)). pose proof (Rle_abs (- (INR i * h - p))) as Z. rewrite Rabs_Ropp in Z. lra. }
        destruct (Nat.eqb_spec j i) as [N1|N1], (Nat.eqb_spec (S j) i) as [N2|N2].
        * lia.
        * subst j. destruct (Nat.ltb_spec i (List.length x)); [|lia]. pose proof (Nr (S i) V Hj) as K. rewrite S_INR in K.
          destruct (M (S i) Hj) as [E|[E _]]; [rewrite E, S_INR; lra|]. specialize (F _ E).
          destruct (Rle_lt_dec (nth (S i) x 0) p) as [Q|Q]; [|exact Q]. exfalso. rewrite Rabs_left1 in F by lra. lra.
        * destruct (Nat.ltb_spec (S j) (List.length x)); [|lia]. assert (Hj' : (j <= n)%nat) by lia. pose proof (Nr j V Hj') as K.
          rewrite <- N2, S_INR in Pi. destruct (M j Hj') as [E|[E _]]; [rewrite E; lra|]. specialize (F _ E).
          destruct (Rle_lt_dec p (nth j x 0)) as [Q|Q]; [|exact Q]. exfalso. rewrite Rabs_pos_eq in F by lra. lra.
        * apply C. exact Hj.
    - exfalso. destruct (near_node n (p / h)) as (i & Hi & A).
      { split; [apply Rmult_le_pos; [lra|left; apply Rinv_0_lt_compat; exact Hh]|].
        apply (Rmult_le_reg_r h); [exact Hh|]. unfold Rdiv. rewrite Rmult_assoc, Rinv_l by lra. lra. }
      assert (D : Rabs (INR i * h - p) <= h / 2).
      { replace (INR i * h - p) with ((INR i - p / h) * h) by (field; lra). rewrite Rabs_mult, (Rabs_pos_eq h) by lra. nra. }
      specialize (S0 i ltac:(lia)). destruct (M i Hi) as [E|[E B]].
      + rewrite E in S0. lra.
      + specialize (F _ E). pose proof (Rabs_triang (nth i x 0 - INR i * h) (INR i * h - p)) as Tr.
        replace (nth i x 0 - INR i * h + (INR i * h - p)) with (nth i x 0 - p) in Tr by ring. lra.
  Qed.
  Lemma nb_all : forall l done x, nb_inv done x -> nb_incr x -> (forall p, In p l -> 0 <= p <= INR n * h) ->
    (forall i j, (i < j < List.length (done ++ l))%nat -> h < Rabs (nth i (done ++ l) 0 - nth j (done ++ l) 0)) ->
    nb_inv (done ++ l) (fold_left (nb_step h) l x) /\ nb_incr (fold_left (nb_step h) l x).
  Proof.
    induction l as [|p l IH]; intros done x I C B F; [rewrite app_nil_r; split; assumption|].
    cbn [fold_left]. replace (done ++ p :: l)%list with ((done ++ [p]) ++ l)%list in * by (rewrite <- app_assoc; reflexivity).
    assert (K : nb_inv (done ++ [p]) (nb_step h x p) /\ nb_incr (nb_step h x p)).
    2:{ apply IH; [apply K|apply K|intros p' Hp'; apply B; right; exact Hp'|exact F]. }
    apply nb_one; [exact I|apply B; left; reflexivity| |exact C].
    intros p' Hp'. destruct (In_nth _ _ 0 Hp') as (i & Hi & Ei).
    specialize (F i (List.length done) ltac:(rewrite !app_length; cbn; lia)).
    rewrite <- !app_assoc in F. rewrite app_nth1 in F by exact Hi. rewrite app_nth2 in F by lia. rewrite Nat.sub_diag in F. cbn in F.
    rewrite Ei in F. exact F.
  Qed.
End Neighbor.

Lemma refine_neighbor xmin xmax Nx snaps : xmin < xmax -> (2 <= Nx)%nat ->
  (forall p, In p snaps -> xmin <= p <= xmax) ->
  (forall i j, (i < j < List.length snaps)%nat -> (xmax - xmin) / INR (Nx - 1) < Rabs (nth i snaps 0 - nth j snaps 0)) ->
  exists x0, refine_start xmin xmax Nx snaps MNeighbor = Ok x0 /\ List.length x0 = Nx /\
    (forall p, In p snaps -> In ((p - xmin) / (xmax - xmin)) x0) /\
    (forall i, (i < Nx)%nat -> nth i x0 0 = INR i / INR (Nx - 1) \/
       exists p, In p snaps /\ nth i x0 0 = (p - xmin) / (xmax - xmin) /\ Rabs (nth i x0 0 - INR i / INR (Nx - 1)) <= / 2 / INR (Nx - 1)) /\
    (forall i, (S i < Nx)%nat -> nth i x0 0 < nth (S i) x0 0).
Proof.
  intros Hx HN HB HF. set (n := (Nx - 1)%nat) in *. assert (EN : Nx = S n) by lia.
  assert (Pn : 0 < INR n) by (apply lt_0_INR; lia). set (h := / INR n). assert (Hh : 0 < h) by (apply Rinv_0_lt_compat; exact Pn).
  assert (En : INR n * h = 1) by (unfold h; apply Rinv_r; lra).
  set (w := xmax - xmin). assert (Hw : 0 < w) by (unfold w; lra).
  set (s := map (fun p => (p - xmin) / w) snaps).
  assert (G : forall i, (i < Nx)%nat -> nth i (linspace01 Nx) 0 = INR i * h).
  { intros i Hi. unfold linspace01. rewrite nth_tab by exact Hi. destruct (Nat.eqb_spec Nx 1); [lia|]. rewrite !nofnat_INR. reflexivity. }
  assert (Ed : nsub (get (linspace01 Nx) 1) (get (linspace01 Nx) 0) = h).
  { unfold get. cbn [nzero Num_R]. rewrite !G by lia. cbn [nsub Num_R INR]. ring. }
  assert (E : refine_start xmin xmax Nx snaps MNeighbor = Ok (fold_left (nb_step h) s (linspace01 Nx))).
  { unfold refine_start. destruct (Nat.ltb_spec Nx 2); [lia|]. cbv zeta. rewrite Ed.
    replace (ndiv h two) with (h / 2) by (unfold two; cbn; field). reflexivity. }
  assert (Dist : forall a b, Rabs ((a - xmin) / w - (b - xmin) / w) = Rabs (a - b) / w).
  { intros a b. replace ((a - xmin) / w - (b - xmin) / w) with ((a - b) * / w) by (field; lra).
    rewrite Rabs_mult, (Rabs_pos_eq (/ w)); [reflexivity|left; apply Rinv_0_lt_compat; exact Hw]. }
  assert (J : nb_inv n h ([] ++ s) (fold_left (nb_step h) s (linspace01 Nx)) /\ nb_incr n (fold_left (nb_step h) s (linspace01 Nx))).
  { apply (nb_all n h Hh).
    - split; [unfold linspace01; rewrite tab_length; exact EN|]. split; [intros p []|]. intros i Hi. left. apply G. lia.
    - intros i Hi. rewrite !G by lia. rewrite S_INR. lra.
    - intros y Hy. apply in_map_iff in Hy. destruct Hy as (p & <- & Hp). specialize (HB p Hp). rewrite En. split.
      + apply Rmult_le_pos; [lra|left; apply Rinv_0_lt_compat; exact Hw].
      + apply (Rmult_le_reg_r w); [exact Hw|]. unfold Rdiv. rewrite Rmult_assoc, Rinv_l by lra. unfold w. lra.
    - cbn [app]. unfold s. rewrite map_length. intros i j Hij. specialize (HF i j Hij).
      rewrite !(nth_indep (map (fun p => (p - xmin) / w) snaps) 0 ((0 - xmin) / w)) by (rewrite map_length; lia).
      rewrite !(map_nth (fun p => (p - xmin) / w)). rewrite Dist. apply (Rmult_lt_reg_r w); [exact Hw|].
      unfold Rdiv at 1. rewrite Rmult_assoc, Rinv_l by lra. fold w in HF. unfold h. unfold Rdiv in HF. lra. }
  cbn [app] in J. set (x := fold_left (nb_step h) s (linspace01 Nx)) in *. destruct J as ((L & I & M) & C).
  exists x. split; [exact E|]. split; [lia|]. split; [|split].
  - intros p Hp. apply I. unfold s. apply in_map_iff. exists p. split; [reflexivity|exact Hp].
  - intros i Hi. destruct (M i ltac:(lia)) as [A|[A B]]; [left; exact A|right].
    unfold s in A. apply in_map_iff in A. destruct A as (p & Ep & Hp). exists p. split; [exact Hp|]. split; [symmetry; exact Ep|].
    replace (INR i / INR n) with (INR i * h) by reflexivity. replace (/ 2 / INR n) with (h / 2) by (unfold h; field; lra). exact B.
  - intros i Hi. apply C. lia.
Qed.
