(** Lemmas: the time step of a constructed solver, over the reals. *)
From Coq Require Import List Arith ZArith Bool String Lia Ring Field Reals Lra Psatz.
From Verif Require Import Num Vec Index Matrix FieldModel FieldSpec FieldProofs FieldProofs2
  GridModel GridProofs SolverModel SolverPlanes SolverBuild SolverMaterials SolverKern SolverCons
  SolverSpec SolverFlux SolverEnergy SolverOps SolverFrozen SolverLocal SolverRestart.
Import ListNotations.

Section Conf.
  Context {T : Type} {NT : Num T} {LT : NumLaws T} {OT : NumOrd T}.

  (** The settings of a made solver are those the constructor chose. *)
  Lemma made_conf (env : Env T) g g' ar s : made env g g' ar s ->
    exists s0, grid_obj env g /\ construct env g ar = Ok (s0, g') /\
      sieps s = sieps s0 /\ simu s = simu s0 /\ ssigma s = ssigma s0 /\ sdt s = sdt s0 /\
      scond s = scond s0 /\ sbl s = sbl s0 /\ sbh s = sbh s0 /\ spml s = spml s0 /\ sabc s = sabc s0.
  Proof.
    induction 1 as [s Hg Hc|s o s' Hm IH E].
    - exists s. repeat split; assumption.
    - pose proof (made_good env g g' ar s Hm) as G.
      destruct (do_op_conf _ s o s' G E) as (_ & _ & _ & A1 & A2 & A3 & A4 & A5 & A6 & A7 & A8 & A9 & _).
      destruct IH as (s0 & B1 & B2 & B3 & B4 & B5 & B6 & B7 & B8 & B9 & B10 & B11).
      exists s0. repeat split; try assumption; congruence.
  Qed.

  Add Field field_T_time : (@num_field T NT LT).
  Local Open Scope num_scope.
  (** After a step of a conductive solver the current is the ohmic one, and the next step differs
      from the one without current by that current only. *)
  Lemma ohmic env g g' ar (s s1 s2 u : Solver T) : made env g g' ar s -> scond s = true ->
    run s [OStep] = Ok s1 -> run s1 [OStep] = Ok s2 -> run s1 [OWriteJ [0]; OStep] = Ok u ->
    forall d i j k, in_box (gNx g) (gNy g) (gNz g) d i j k ->
      entry (sJ s1) d i j k = entry (ssigma s) d i j k * entry (sE s1) d i j k /\
      entry (sE s2) d i j k = entry (sE u) d i j k
        - sdt s * entry (sieps s) d i j k * entry (ssigma s) d i j k * entry (sE s1) d i j k.
  Proof.
    intros Hm Hc R1 R2 R3 d i j k (Hd & Hi & Hj & Hk).
    destruct (made_run_abs _ _ _ _ _ _ _ Hm R1) as (G & G1 & _ & A1 & _).
    destruct (made_run _ _ _ _ _ _ _ Hm R1) as [Hm1 EK].
    destruct (made_run_abs _ _ _ _ _ _ _ Hm1 R2) as (_ & G2 & _ & A2 & _).
    destruct (made_run_abs _ _ _ _ _ _ _ Hm1 R3) as (_ & G3 & _ & A3 & _).
    rewrite EK in *. destruct (made_sized _ _ _ _ _ Hm) as (Sie & _ & Ssg & _).
    set (K := kern_of g g' s) in *.
    pose proof (ix_lt (kNx K) (kNy K) (kNz K) d i j k Hd Hi Hj Hk) as Hlt.
    rewrite (entry_ix (sieps s) (kNx K) (kNy K) (kNz K)) by exact Sie.
    rewrite (entry_ix (ssigma s) (kNx K) (kNy K) (kNz K)) by exact Ssg.
    rewrite !(entry_ix _ (kNx K) (kNy K) (kNz K)) by (apply G1 || apply G2 || apply G3).
    set (r := ix (kNx K) (kNy K) (kNz K) d i j k) in *.
    change (get (farr (sieps s)) r) with (kieps K r). change (get (farr (ssigma s)) r) with (ksig K r).
    change (sdt s) with (kdt K). change (scond s) with (kcond K) in Hc.
    destruct (A1 r Hlt) as (P1 & _ & P3). destruct (A2 r Hlt) as (Q1 & _ & _). destruct (A3 r Hlt) as (U1 & _ & _).
    assert (J1 : tj (abs s1) r = ksig K r * te (abs s1) r).
    { rewrite P3, P1. cbn [krun fold_left kop kstep te th tj]. unfold kJ. rewrite Hc. reflexivity. }
    split; [exact J1|]. cbn [abs te] in Q1, U1. rewrite Q1, U1.
    cbn [krun fold_left kop kstep te th tj].
    assert (Z : fill K [0] r = 0).
    { unfold fill. destruct (Nat.eqb_spec (List.length [0]) (3 * kN K)) as [E|E]; [cbn in E; lia|reflexivity]. }
    unfold kE, kH, effE, effH. cbn [te th tj tfresh]. rewrite Z, J1. cbn [abs te]. ring.
  Qed.
End Conf.

Open Scope R_scope.

Lemma nltb_R (a b : R) : nltb a b = true <-> a < b.
Proof. cbn. destruct (Rlt_dec a b); split; intros; try assumption; try reflexivity; try discriminate; contradiction. Qed.

Lemma nmin_R (a b : R) : nmin a b <= a /\ nmin a b <= b /\ (nmin a b = a \/ nmin a b = b).
Proof.
  unfold nmin. destruct (nltb b a) eqn:E.
  - apply nltb_R in E. repeat split; [lra|lra|right; reflexivity].
  - assert (~ b < a) by (intros H; apply nltb_R in H; congruence). repeat split; [lra|lra|left; reflexivity].
Qed.

Lemma np_min_R (v : list R) m : np_min v = Ok m -> In m v /\ forall x, In x v -> m <= x.
Proof.
  destruct v as [|x r]; [discriminate|]. cbn [np_min]. intros H. injection H as <-.
  assert (A : forall r x, In (fold_left nmin r x) (x :: r) /\
                forall y, In y (x :: r) -> fold_left nmin r x <= y).
  { clear. induction r as [|y r IH]; intros x; cbn [fold_left].
    - split; [left; reflexivity|]. intros y [-> | []]. lra.
    - destruct (IH (nmin x y)) as [A B]. destruct (nmin_R x y) as [C [D F]]. split.
      + destruct A as [A|A].
        * rewrite <- A. destruct F as [-> | ->]; [left|right; left]; reflexivity.
        * right. right. exact A.
      + intros z [<- | [<- | Hz]].
        * apply Rle_trans with (nmin x y); [apply B; left; reflexivity|exact C].
        * apply Rle_trans with (nmin x y); [apply B; left; reflexivity|exact D].
        * apply B. right. exact Hz. }
  apply A.
Qed.

Lemma np_min_ok {T} {NT : Num T} {OT : NumOrd T} (v : list T) : v <> [] -> exists m, np_min v = Ok m.
Proof. destruct v as [|x r]; [congruence|]. cbn. eauto. Qed.

Lemma nmin_eq {T} {NT : Num T} {OT : NumOrd T} (a b : T) : nmin a b = a \/ nmin a b = b.
Proof. unfold nmin. destruct (nltb b a); auto. Qed.

Lemma inv_sq_le (m x : R) : 0 < m -> m <= x -> / (x * x) <= inv_sq m.
Proof.
  intros H1 H2. unfold inv_sq. cbn. unfold Rdiv. rewrite Rmult_1_l.
  apply Rinv_le_contravar; [nra|nra].
Qed.
Lemma inv_sq_pos (m : R) : 0 < m -> 0 < inv_sq m.
Proof.
  intros H. unfold inv_sq. cbn. unfold Rdiv. rewrite Rmult_1_l. apply Rinv_0_lt_compat. nra.
Qed.

Lemma cfl_bound (env : Env R) cfln dx dy dz dt :
  e_sqrt env = sqrt -> 0 < e_c env -> 0 <= cfln ->
  (forall d, In d dx -> 0 < d) -> (forall d, In d dy -> 0 < d) -> (forall d, In d dz -> 0 < d) ->
  cfl_dt env cfln dx dy dz = Ok dt ->
  0 <= dt /\ forall a b c, In a dx -> In b dy -> In c dz ->
    dt * dt * (e_c env * e_c env) * (/ (a * a) + / (b * b) + / (c * c)) <= cfln * cfln.
Proof.
  intros Hs Hc Hf Hx Hy Hz H. unfold cfl_dt in H.
  binv H mx H1. binv H my H2. binv H mz H3. rewrite Hs in H.
  destruct (np_min_R _ _ H1) as [X1 X2]. destruct (np_min_R _ _ H2) as [Y1 Y2].
  destruct (np_min_R _ _ H3) as [Z1 Z2].
  set (S := nadd (nadd (inv_sq mx) (inv_sq my)) (inv_sq mz)) in *.
  assert (Edt : dt = cfln / (e_c env * sqrt S)).
  { apply (f_equal (fun r => match r with Ok x => x | Err _ => dt end)) in H. symmetry. exact H. } clear H. subst dt.
  assert (PS : 0 < S).
  { unfold S. cbn [nadd Num_R].
    pose proof (inv_sq_pos mx (Hx _ X1)). pose proof (inv_sq_pos my (Hy _ Y1)).
    pose proof (inv_sq_pos mz (Hz _ Z1)). lra. }
  pose proof (sqrt_lt_R0 S PS) as Pr. pose proof (sqrt_sqrt S (Rlt_le _ _ PS)) as Sq.
  set (r := sqrt S) in *.
  set (q := e_c env * r) in *. assert (Pq : 0 < q) by (unfold q; nra).
  assert (Pi : 0 < / q) by (apply Rinv_0_lt_compat; exact Pq).
  split; [unfold Rdiv; apply Rmult_le_pos; lra|].
  intros a b c Ha Hb Hcc.
  pose proof (inv_sq_le mx a (Hx _ X1) (X2 _ Ha)) as La.
  pose proof (inv_sq_le my b (Hy _ Y1) (Y2 _ Hb)) as Lb.
  pose proof (inv_sq_le mz c (Hz _ Z1) (Z2 _ Hcc)) as Lc.
  set (A := / (a * a) + / (b * b) + / (c * c)).
  assert (LA : A <= S) by (unfold A, S; cbn [nadd Num_R]; lra).
  assert (PA : 0 <= cfln * cfln * (e_c env * e_c env) * (/ q * / q)).
  { apply Rmult_le_pos; [apply Rmult_le_pos; nra|nra]. }
  apply Rle_trans with (cfln / q * (cfln / q) * (e_c env * e_c env) * S).
  - unfold Rdiv.
    replace (cfln * / q * (cfln * / q) * (e_c env * e_c env) * A)
      with (cfln * cfln * (e_c env * e_c env) * (/ q * / q) * A) by ring.
    replace (cfln * / q * (cfln * / q) * (e_c env * e_c env) * S)
      with (cfln * cfln * (e_c env * e_c env) * (/ q * / q) * S) by ring.
    apply Rmult_le_compat_l; assumption.
  - right. rewrite <- Sq. unfold q. field. split; lra.
Qed.

Lemma cfl_pos (env : Env R) cfln dx dy dz dt :
  e_sqrt env = sqrt -> 0 < e_c env -> 0 < cfln ->
  (forall d, In d dx -> 0 < d) -> (forall d, In d dy -> 0 < d) -> (forall d, In d dz -> 0 < d) ->
  cfl_dt env cfln dx dy dz = Ok dt -> 0 < dt.
Proof.
  intros Hs Hc Hf Hx Hy Hz H. unfold cfl_dt in H.
  binv H mx H1. binv H my H2. binv H mz H3. injection H as <-.
  destruct (np_min_R _ _ H1) as [X1 X2]. destruct (np_min_R _ _ H2) as [Y1 Y2].
  destruct (np_min_R _ _ H3) as [Z1 Z2]. rewrite Hs.
  assert (PS : 0 < nadd (nadd (inv_sq mx) (inv_sq my)) (inv_sq mz)).
  { cbn [nadd Num_R].
    pose proof (inv_sq_pos mx (Hx _ X1)). pose proof (inv_sq_pos my (Hy _ Y1)).
    pose proof (inv_sq_pos mz (Hz _ Z1)). lra. }
  pose proof (sqrt_lt_R0 _ PS) as Pr. cbn [ndiv nmul Num_R].
  apply Rdiv_lt_0_compat; [assumption|]. apply Rmult_lt_0_compat; assumption.
Qed.

Lemma diff_pos (x : list R) : increasing x -> forall d, In d (diff x) -> 0 < d.
Proof.
  intros H d Hd. destruct (In_nth _ _ 0 Hd) as [i [Hi <-]].
  unfold diff in *. rewrite tab_length in Hi.
  change (nth i (tab (Datatypes.length x - 1) (fun n => nsub (get x (n + 1)) (get x n))) 0)
    with (get (tab (Datatypes.length x - 1) (fun n => nsub (get x (n + 1)) (get x n))) i).
  rewrite get_tab by exact Hi. cbn [nsub Num_R].
  assert (A : get x i < get x (i + 1)) by (apply H; lia). lra.
Qed.

Lemma relax_R cond dt0 (ie sg : Field R) dt : relax_dt cond dt0 ie sg = Ok dt ->
  dt <= dt0 /\ (cond = false -> dt = dt0) /\
  (cond = true -> forall n, (n < List.length (farr sg))%nat -> get (farr sg) n <> 0 -> get (farr ie) n <> 0 ->
     dt <= / get (farr ie) n * / get (farr sg) n) /\
  (0 < dt0 -> (forall n, 0 <= get (farr ie) n) -> (forall n, 0 <= get (farr sg) n) -> 0 < dt).
Proof.
  unfold relax_dt. destruct cond; intros H.
  2:{ injection H as <-. repeat split; [lra|discriminate|auto]. }
  binv H t Ht. destruct (np_min_R _ _ Ht) as [A B].
  assert (Edt : dt = if nltb t dt0 then t else dt0) by congruence. clear H.
  assert (L : dt <= t /\ dt <= dt0).
  { subst dt. destruct (nltb t dt0) eqn:E; [apply nltb_R in E; split; lra|].
    assert (~ t < dt0) by (intros H; apply nltb_R in H; congruence). lra. }
  split; [apply L|]. split; [discriminate|]. split.
  - intros _ n Hn Hs He. apply Rle_trans with t; [apply L|].
    apply B. unfold taus. apply in_flat_map. exists n. split; [apply in_seq; unfold toarray; lia|].
    unfold toarray. cbn zeta. rewrite (proj2 (neqb_neq _ _) Hs), (proj2 (neqb_neq _ _) He). cbn [negb andb].
    left. cbn. unfold Rdiv. ring.
  - intros P0 Pe Ps. subst dt. destruct (nltb t dt0) eqn:E; [|exact P0].
    unfold taus in A. apply in_flat_map in A. destruct A as [n [_ A]]. unfold toarray in A. cbn zeta in A.
    destruct (neqb (get (farr sg) n) nzero) eqn:E1; [destruct A|].
    destruct (neqb (get (farr ie) n) nzero) eqn:E2; [destruct A|].
    cbn [negb andb] in A. destruct A as [A|[]]. rewrite <- A.
    assert (S1 : get (farr sg) n <> 0) by (apply neqb_neq; exact E1).
    assert (S2 : get (farr ie) n <> 0) by (apply neqb_neq; exact E2).
    specialize (Pe n). specialize (Ps n). cbn. apply Rdiv_lt_0_compat; [apply Rdiv_lt_0_compat; lra|lra].
Qed.

(** Both bounds for a made solver. *)
Lemma step_bounds env g g' ar (s : Solver R) : made env g g' ar s ->
  e_sqrt env = sqrt -> 0 < e_c env -> 0 < ar_cfln ar ->
  increasing (gx g) -> increasing (gy g) -> increasing (gz g) ->
  (ar_dt ar = None -> 0 <= sdt s -> forall a b c, In a (diff (gx g)) -> In b (diff (gy g)) -> In c (diff (gz g)) ->
     sdt s * sdt s * (e_c env * e_c env) * (/ (a * a) + / (b * b) + / (c * c)) <= ar_cfln ar * ar_cfln ar) /\
  (forall dt, ar_dt ar = Some dt -> sdt s <= dt) /\
  (scond s = true -> forall d i j k, in_box (gNx g) (gNy g) (gNz g) d i j k ->
     0 < entry (ssigma s) d i j k -> 0 < entry (sieps s) d i j k ->
     sdt s * entry (ssigma s) d i j k * entry (sieps s) d i j k <= 1) /\
  ((forall dt, ar_dt ar = Some dt -> 0 < dt) ->
   (forall r, 0 <= get (farr (sieps s)) r) -> (forall r, 0 <= get (farr (ssigma s)) r) -> 0 < sdt s).
Proof.
  intros Hm Hs Hc Hf Ix Iy Iz. destruct (made_conf _ _ _ _ _ Hm) as (s0 & Hg & Hco & A1 & A2 & A3 & A4 & A5 & _).
  pose proof (grid_obj_ok env g Hg) as Gk.
  destruct (construct_spec env g ar s0 g' Gk Hco) as
    (bo & M & _ & _ & _ & _ & _ & [dt0 [Hd0 Hd]] & _ & _ & _ & _ & _ & _ & _ & _ & _ & C1 & _ & _ & Sie & _ & Ssg & _).
  rewrite A1, A3, A4, A5. rewrite C1.
  destruct (relax_R _ _ _ _ _ Hd) as (R1 & R2 & R3 & R4).
  pose proof (diff_pos _ Ix) as Px. pose proof (diff_pos _ Iy) as Py. pose proof (diff_pos _ Iz) as Pz.
  split; [|split; [|split]].
  - intros En P0 a b c Ha Hb Hcc. rewrite En in Hd0.
    destruct (cfl_bound env _ _ _ _ _ Hs Hc (Rlt_le _ _ Hf) Px Py Pz Hd0) as [D0 D]. specialize (D a b c Ha Hb Hcc).
    eapply Rle_trans; [|exact D].
    assert (0 < / (a * a)) by (specialize (Px a Ha); apply Rinv_0_lt_compat; nra).
    assert (0 < / (b * b)) by (specialize (Py b Hb); apply Rinv_0_lt_compat; nra).
    assert (0 < / (c * c)) by (specialize (Pz c Hcc); apply Rinv_0_lt_compat; nra).
    apply Rmult_le_compat_r; [lra|]. apply Rmult_le_compat_r; [nra|]. nra.
  - intros dt En. rewrite En in Hd0. injection Hd0 as <-. exact R1.
  - intros Et d i j k (Hdd & Hi & Hj & Hk) Ps Pe.
    rewrite (entry_ix _ (gNx g) (gNy g) (gNz g)) in Ps |- * by exact Ssg.
    rewrite (entry_ix (sieps s0) (gNx g) (gNy g) (gNz g)) in Pe |- * by exact Sie.
    pose proof (ix_lt (gNx g) (gNy g) (gNz g) d i j k Hdd Hi Hj Hk) as Hlt.
    set (r := ix (gNx g) (gNy g) (gNz g) d i j k) in *.
    assert (Hl : (r < List.length (farr (ssigma s0)))%nat).
    { destruct Ssg as [W [X [Y Z]]]. unfold wf in W. rewrite W. unfold fN. rewrite X, Y, Z. lia. }
    specialize (R3 Et r Hl ltac:(lra) ltac:(lra)).
    apply Rle_trans with (/ get (farr (sieps s0)) r * / get (farr (ssigma s0)) r *
                          get (farr (ssigma s0)) r * get (farr (sieps s0)) r).
    + apply Rmult_le_compat_r; [lra|]. apply Rmult_le_compat_r; [lra|]. exact R3.
    + right. field. split; lra.
  - intros Hdt Pe Ps. apply R4; [|exact Pe|exact Ps].
    destruct (ar_dt ar) as [dt|] eqn:En.
    + injection Hd0 as <-. apply Hdt. reflexivity.
    + exact (cfl_pos env _ _ _ _ _ Hs Hc Hf Px Py Pz Hd0).
Qed.
