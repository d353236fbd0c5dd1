(** Lemmas: the coefficients of a constructed solver. *)
From Coq Require Import List Arith ZArith Bool String Lia Ring Field QArith Qcanon Reals.
From Verif Require Import Num Vec Index Matrix FieldModel FieldSpec FieldProofs FieldProofs2
  GridModel GridProofs SolverModel SolverPlanes SolverBuild SolverMaterials SolverKern.
Import ListNotations.

#[global] Instance NumOrd_Qc : NumOrd Qc :=
  { nltb := fun a b => if Qclt_le_dec a b then true else false }.
#[global] Instance NumOrd_R : NumOrd R :=
  { nltb := fun a b => if Rlt_dec a b then true else false }.

Section Cons.
  Context {T : Type} {NT : Num T} {LT : NumLaws T} {OT : NumOrd T}.
  Add Field field_T_cons : (@num_field T NT LT).
  Local Open Scope num_scope.

  (** Grid objects a program can hold: built from axes, or already used by a solver. *)
  Inductive grid_obj (env : Env T) : Grid T -> Prop :=
  | go_axes : forall x y z g, compute_grid x y z = Ok g -> grid_obj env g
  | go_used : forall g ar s g', grid_obj env g -> construct env g ar = Ok (s, g') ->
                grid_obj env g'.

  Definition kern_of (g g' : Grid T) (s : Solver T) : Kern T :=
    let Nx := gNx g in let Ny := gNy g in let Nz := gNz g in
    {| kNx := Nx; kNy := Ny; kNz := Nz; kdt := sdt s; kcond := scond s;
       kL := get (farr (gL g)); kiA := get (farr (giA g)); kimu := get (farr (simu s));
       ktL := get (farr (gtL g')); kitA := get (farr (gitA g')); kieps := get (farr (sieps s));
       ksig := get (farr (ssigma s));
       krow := on_ix (rowv (sbl s) (sbh s) Nx Ny Nz) Nx Ny Nz;
       kcol := on_ix (colv (sbl s) (sbh s) Nx Ny Nz) Nx Ny Nz |}.

  Lemma mv_mul3 n A B C D (x : nat -> T) r :
    mv n (mul3 n A B C D) x r = mv n A (mv n B (mv n C (mv n D x))) r.
  Proof. unfold mul3. rewrite !mv_mmul. reflexivity. Qed.

  Lemma mv_ext_l n (A B : mat T) x r :
    (forall c, (c < n)%nat -> A r c = B r c) -> mv n A x r = mv n B x r.
  Proof. intros H. apply mv_ext; [exact H|reflexivity]. Qed.

  Lemma construct_good env g ar s g' : grid_ok g -> construct env g ar = Ok (s, g') ->
    good (kern_of g g' s) s.
  Proof.
    intros Hg Hc. pose proof Hg as [HX [HY [HZ [SL [SA [StL StA]]]]]].
    destruct (construct_spec env g ar s g' Hg Hc) as
      (bo & M & Hbo & Hbc & HM & SM & Hms & _ & E1 & E2 & E3 & E4 & E5 & E6 & E7 & E8 & E9 & E10 & E11
       & E12 & Sie & Sim & Ssg & E13 & EmH & EmE & Eop & Eg).
    destruct (apply_bc_spec g (sbl s) (sbh s) Hg) as
      [bo' [Fr [Fc [Hbo' [S1 [S2 [Sr [Sc [Amask [HC _]]]]]]]]]].
    rewrite Hbo in Hbo'. injection Hbo' as <-.
    set (K := kern_of g g' s).
    assert (HN : kN K = (gNx g * gNy g * gNz g)%nat) by reflexivity.
    assert (Hrow : forall r, (r < 3 * kN K)%nat -> get (farr Fr) r = krow K r).
    { intros r Hr. destruct (ix_surj _ _ _ _ Hr) as [d [i [j [k [Hd [Hi [Hj [Hk ->]]]]]]]].
      unfold K. cbn [krow kern_of kNx kNy kNz]. rewrite on_ix_ix by assumption.
      cbn [kNx kNy kNz]. rewrite <- entry_ix by exact Sr. apply Amask; assumption. }
    assert (Hcol : forall r, (r < 3 * kN K)%nat -> get (farr Fc) r = kcol K r).
    { intros r Hr. destruct (ix_surj _ _ _ _ Hr) as [d [i [j [k [Hd [Hi [Hj [Hk ->]]]]]]]].
      unfold K. cbn [kcol kern_of kNx kNy kNz]. rewrite on_ix_ix by assumption.
      cbn [kNx kNy kNz]. rewrite <- entry_ix by exact Sc. apply Amask; assumption. }
    constructor; unfold K; cbn [kern_of kNx kNy kNz kdt kcond kieps ksig]; try assumption; try reflexivity.
    - rewrite E4. apply sized_zeros.
    - rewrite E5. apply sized_zeros.
    - rewrite E6. apply sized_zeros.
    - fold K. intros x r Hr. rewrite EmH. unfold prodH. rewrite HN in Hr |- *.
      rewrite mv_mul3. unfold diags. rewrite !mv_mdiag by exact Hr.
      rewrite (mv_ext _ (bo_C bo) (fun r c => get (farr Fr) r * (curl (gNx g) (gNy g) (gNx g * gNy g * gNz g) r c * get (farr Fc) c))
                 (mv _ (mdiag (get (toarray (gL g)))) x) (fun c => get (farr (gL g)) c * x c)).
      2:{ intros c Hc'. apply HC; assumption. }
      2:{ intros c Hc'. apply mv_mdiag. exact Hc'. }
      unfold mv at 1.
      rewrite (sum_ext _ _ (fun c => get (farr Fr) r * (curl (gNx g) (gNy g) (gNx g * gNy g * gNz g) r c * (kcol K c * kL K c * x c)))).
      2:{ intros c Hc'. rewrite Hcol by exact Hc'. unfold K. cbn [kL kern_of]. ring. }
      rewrite sum_scale. fold (mv (3 * (gNx g * gNy g * gNz g)) (curl (gNx g) (gNy g) (gNx g * gNy g * gNz g)) (fun c => kcol K c * kL K c * x c) r).
      destruct (comp_decode _ _ Hr) as [Hd [Hm Er]].
      rewrite Er at 4. rewrite mv_curl by assumption.
      rewrite Hrow by exact Hr. rewrite E9. unfold K, kcurl, toarray. cbn [kern_of kL kiA kimu krow kcol kNx kNy kNz].
      change (kN (kern_of g g' s)) with (gNx g * gNy g * gNz g)%nat. ring.
    - fold K. intros x r Hr. rewrite EmE. unfold prodE. rewrite HN in Hr |- *.
      rewrite mv_mul3. unfold diags. rewrite !mv_mdiag by exact Hr.
      rewrite (mv_ext _ (mtrans (bo_C bo)) (fun c r => get (farr Fr) r * (curl (gNx g) (gNy g) (gNx g * gNy g * gNz g) r c * get (farr Fc) c))
                 (mv _ (mdiag (get (toarray (bo_tL bo)))) x) (fun c => get (farr (bo_tL bo)) c * x c)).
      2:{ intros c Hc'. unfold mtrans. apply HC; assumption. }
      2:{ intros c Hc'. apply mv_mdiag. exact Hc'. }
      unfold mv at 1.
      rewrite (sum_ext _ _ (fun c => get (farr Fc) r * (mtrans (curl (gNx g) (gNy g) (gNx g * gNy g * gNz g)) r c * (krow K c * ktL K c * x c)))).
      2:{ intros c Hc'. rewrite Hrow by exact Hc'. unfold K. cbn [ktL kern_of]. rewrite Eg. unfold mtrans. cbn [gtL with_dual]. ring. }
      rewrite sum_scale. fold (mv (3 * (gNx g * gNy g * gNz g)) (mtrans (curl (gNx g) (gNy g) (gNx g * gNy g * gNz g))) (fun c => krow K c * ktL K c * x c) r).
      destruct (comp_decode _ _ Hr) as [Hd [Hm Er]].
      rewrite Er at 4. rewrite mv_curlT by assumption.
      rewrite Hcol by exact Hr. rewrite E8. unfold K, kcurlT, toarray. cbn [kern_of ktL kitA kieps krow kcol kNx kNy kNz]. rewrite Eg. cbn [gitA gtL with_dual].
      change (kN (kern_of g (with_dual g (bo_tL bo) (bo_itA bo)) s)) with (gNx g * gNy g * gNz g)%nat. ring.
    - intros _ H. congruence.
  Qed.
End Cons.

Section Made.
  Context {T : Type} {NT : Num T} {LT : NumLaws T} {OT : NumOrd T}.
  Local Open Scope num_scope.

  Lemma grid_obj_ok (env : Env T) g : grid_obj env g -> grid_ok g.
  Proof.
    induction 1 as [x y z g H|g ar s g' Hg IH H]; [exact (compute_grid_ok _ _ _ _ H)|].
    destruct (construct_spec env g ar s g' IH H) as
      (bo & M & Hbo & _ & _ & _ & _ & _ & _ & _ & _ & _ & _ & _ & _ & _ & _ & _ & _ & _ & _ & _ & _ & _ & _ & _ & _ & Eg).
    destruct (apply_bc_spec g (sbl s) (sbh s) IH) as
      [bo' [Fr [Fc [Hbo' [S1 [S2 _]]]]]].
    rewrite Hbo in Hbo'. injection Hbo' as <-.
    destruct IH as [HX [HY [HZ [SL [SA [StL StA]]]]]]. rewrite Eg.
    unfold grid_ok. cbn [with_dual gx gy gz gL giA gtL gitA]. unfold gNx, gNy, gNz in *.
    cbn [with_dual gx gy gz]. auto 10.
  Qed.

  (** [s] was built on [g] (which the constructor left as [g']) and has then been through
      some history of operations. *)
  Inductive made (env : Env T) (g g' : Grid T) (ar : Args T) : Solver T -> Prop :=
  | made_new : forall s, grid_obj env g -> construct env g ar = Ok (s, g') -> made env g g' ar s
  | made_op : forall s o s', made env g g' ar s -> do_op s o = Ok s' -> made env g g' ar s'.

  Lemma do_op_conf K (s : Solver T) o s' : good K s -> do_op s o = Ok s' ->
    sNx s' = sNx s /\ sNy s' = sNy s /\ sNz s' = sNz s /\ sieps s' = sieps s /\ simu s' = simu s /\
    ssigma s' = ssigma s /\ sdt s' = sdt s /\ scond s' = scond s /\ sbl s' = sbl s /\ sbh s' = sbh s /\
    sabc s' = sabc s /\ spml s' = spml s /\ smH s' = smH s /\ smE s' = smE s.
  Proof.
    intros G E. destruct o as [|l|l|l| |f]; cbn [do_op] in E.
    - unfold one_step in E. binv E s1 Ea1. binv E H EH. binv E F EE. binv E J EJ. injection E as <-.
      cbn [with_fields sNx sNy sNz sieps simu ssigma sdt scond sbl sbh sabc spml smH smE].
      unfold first_step in Ea1. destruct (sstep0 s); [|injection Ea1 as <-; repeat split; reflexivity].
      unfold set_ghosts in Ea1. binv Ea1 s2 Ea2. binv Ea2 H2 Ea3. binv Ea2 Ea4 Ea5. injection Ea2 as <-.
      unfold attrcleanup in Ea1. cbn [with_fields sops] in Ea1.
      destruct (sops s); [|discriminate]. injection Ea1 as <-. cbn. repeat split; reflexivity.
    - binv E F HF. injection E as <-. repeat split; reflexivity.
    - binv E F HF. injection E as <-. repeat split; reflexivity.
    - binv E F HF. injection E as <-. repeat split; reflexivity.
    - unfold reset_fields in E. binv E F1 H1. binv E F2 H2. binv E F3 H3. injection E as <-. repeat split; reflexivity.
    - unfold load_state in E. binv E F1 H1. binv E F2 H2. binv E F3 H3. injection E as <-. repeat split; reflexivity.
  Qed.

  Lemma kern_of_op K g g' (s : Solver T) o s' : good K s -> do_op s o = Ok s' ->
    kern_of g g' s' = kern_of g g' s.
  Proof.
    intros G E. destruct (do_op_conf K s o s' G E) as
      (_ & _ & _ & Ea1 & Ea2 & Ea3 & Ea4 & Ea5 & Ea6 & Ea7 & _). unfold kern_of. congruence.
  Qed.

  Lemma made_good env g g' ar s : made env g g' ar s -> good (kern_of g g' s) s.
  Proof.
    induction 1 as [s Hg Hc|s o s' Hm IH E].
    - eapply construct_good; [apply (grid_obj_ok env); exact Hg|exact Hc].
    - rewrite (kern_of_op _ g g' s o s' IH E).
      pose proof (do_op_inv _ s o s' IH E) as Ho.
      destruct (do_op_good _ s o IH Ho) as [s2 [Ea2 [G _]]]. rewrite E in Ea2. injection Ea2 as <-. exact G.
  Qed.

  Lemma made_grid env g g' ar s : made env g g' ar s -> grid_obj env g.
  Proof. induction 1; assumption. Qed.

  Lemma made_run env g g' ar h : forall s s', made env g g' ar s -> run s h = Ok s' ->
    made env g g' ar s' /\ kern_of g g' s' = kern_of g g' s.
  Proof.
    induction h as [|o h IH]; intros s s' Hm E.
    - injection E as <-. auto.
    - unfold run in E. cbn [seq_upd] in E. binv E s1 Ea1.
      pose proof (made_op env g g' ar s o s1 Hm Ea1) as Hm1.
      destruct (IH s1 s' Hm1 E) as [A B]. split; [exact A|]. rewrite B.
      apply (kern_of_op (kern_of g g' s) g g' s o s1); [apply (made_good env g g' ar); exact Hm|exact Ea1].
  Qed.

  (** Everything about a run of a made solver, in one lemma. *)
  Lemma made_run_abs env g g' ar s h s' : made env g g' ar s -> run s h = Ok s' ->
    let K := kern_of g g' s in
    good K s /\ good K s' /\ Forall (op_ok K) h /\ st_eq K (abs s') (krun K (abs s) h).
  Proof.
    intros Hm E K. pose proof (made_good env g g' ar s Hm) as G. split; [exact G|].
    destruct (run_inv K h s s' G E) as [A [B C]]. auto.
  Qed.

  Lemma construct_new env g ar (s : Solver T) g' : grid_obj env g -> construct env g ar = Ok (s, g') ->
    sE s = field_zeros (gNx g) (gNy g) (gNz g) /\ sH s = field_zeros (gNx g) (gNy g) (gNz g) /\
    sJ s = field_zeros (gNx g) (gNy g) (gNz g) /\ sstep0 s = true.
  Proof.
    intros Hg Hc. destruct (construct_spec env g ar s g' (grid_obj_ok env g Hg) Hc) as
      (bo & M & _ & _ & _ & _ & _ & _ & _ & _ & _ & Ea1 & Ea2 & Ea3 & _ & _ & _ & _ & _ & _ & _ & _ & _ & Ea4 & _).
    auto.
  Qed.
End Made.
