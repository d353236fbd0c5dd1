(** Lemmas: update_tensors. *)
From Coq Require Import List Arith ZArith Bool String Lia Ring Field.
From Verif Require Import Num Vec Index Matrix FieldModel FieldSpec FieldProofs FieldProofs2
  GridModel GridProofs SolverModel SolverPlanes SolverBuild SolverMaterials SolverKern SolverCons SolverSpec
  SolverFlux SolverEnergy SolverOps SolverFrozen SolverLocal SolverRestart SolverTime.
Import ListNotations.
Open Scope nat_scope.

Section Tensors.
  Context {T : Type} {NT : Num T} {LT : NumLaws T} {OT : NumOrd T}.

  (** Operators and diagonals kept by a solver that has not stepped. *)
  Definition kept_ops (g : Grid T) (bo : BcOut (T := T)) (s : Solver T) : Prop :=
    siDeps s = toarray (sieps s) /\ siDmu s = toarray (simu s) /\
    (sstep0 s = true -> sops s = Some {| opL := gL g; opiA := giA g; optL := bo_tL bo; opitA := bo_itA bo; opC := bo_C bo |}) /\
    (sstep0 s = false -> sops s = None).

  Lemma do_op_ops g bo (s : Solver T) o s' : kept_ops g bo s -> do_op s o = Ok s' -> kept_ops g bo s'.
  Proof.
    intros (A & B & C & D) E. destruct o as [|l|l|l| |f]; cbn [do_op] in E.
    - unfold one_step in E. binv E s1 Ea1. binv E H EH. binv E F EE. binv E J EJ. injection E as <-.
      unfold kept_ops. cbn [with_fields siDeps sieps siDmu simu sstep0 sops].
      unfold first_step in Ea1. destruct (sstep0 s) eqn:E0.
      + unfold set_ghosts in Ea1. binv Ea1 s2 Ea2. binv Ea2 H2 Ea3. binv Ea2 Ea4 Ea5. injection Ea2 as <-.
        unfold attrcleanup in Ea1. cbn [with_fields sops] in Ea1.
        destruct (sops s); [|discriminate]. injection Ea1 as <-. cbn. repeat split; auto; discriminate.
      + injection Ea1 as <-. rewrite E0. auto.
    - binv E F HF. injection E as <-. repeat split; assumption.
    - binv E F HF. injection E as <-. repeat split; assumption.
    - binv E F HF. injection E as <-. repeat split; assumption.
    - unfold reset_fields in E. binv E F1 H1. binv E F2 H2. binv E F3 H3. injection E as <-. repeat split; assumption.
    - unfold load_state in E. binv E F1 H1. binv E F2 H2. binv E F3 H3. injection E as <-. repeat split; assumption.
  Qed.

  Lemma made_ops env g g' ar (s : Solver T) : made env g g' ar s -> exists bo,
    apply_bc g (sbl s) (sbh s) = Ok bo /\ g' = with_dual g (bo_tL bo) (bo_itA bo) /\ kept_ops g bo s /\
    smH s = prodH (3 * (gNx g * gNy g * gNz g)) (giA g) (toarray (simu s)) (bo_C bo) (gL g) /\
    smE s = prodE (3 * (gNx g * gNy g * gNz g)) (toarray (sieps s)) (bo_itA bo) (bo_C bo) (bo_tL bo).
  Proof.
    induction 1 as [s Hg Hc|s o s' Hm IH E].
    - unfold construct in Hc. destruct (mpi_bc (ar_mpi ar) (ar_bl ar) (ar_bh ar)) as [bl bh].
      binv Hc bo Hb. binv Hc M HM. binv Hc ms Hms. binv Hc dt0 Hd0. binv Hc dt Hd. injection Hc as <- <-.
      exists bo. cbn. repeat split; auto; discriminate.
    - destruct IH as (bo & A & B & C & D & F).
      destruct (do_op_conf _ s o s' (made_good _ _ _ _ _ Hm) E) as
        (_ & _ & _ & E1 & E2 & _ & _ & _ & E3 & E4 & _ & _ & E5 & E6).
      exists bo. rewrite E1, E2, E3, E4, E5, E6. split; [exact A|]. split; [exact B|].
      split; [eapply do_op_ops; eassumption|]. auto.
  Qed.

  (** The tensor argument covers every material that changes. *)
  Definition covers_change (tt : tensor) (s : Solver T) (ie im : Field T) : Prop :=
    match tt with
    | TAll => True
    | TIeps => im = simu s
    | TImu => ie = sieps s
    | TSigma | TOther => ie = sieps s /\ im = simu s
    end.

  Lemma update_products env g g' ar (s : Solver T) tt ie im sg : made env g g' ar s -> sstep0 s = true ->
    covers_change tt s ie im -> exists bo t, apply_bc g (sbl s) (sbh s) = Ok bo /\ g' = with_dual g (bo_tL bo) (bo_itA bo) /\
      update_tensors (set_materials s ie im sg) tt = Ok t /\
      smH t = prodH (3 * (gNx g * gNy g * gNz g)) (giA g) (toarray im) (bo_C bo) (gL g) /\
      smE t = prodE (3 * (gNx g * gNy g * gNz g)) (toarray ie) (bo_itA bo) (bo_C bo) (bo_tL bo) /\
      sNx t = sNx s /\ sNy t = sNy s /\ sNz t = sNz s /\ sE t = sE s /\ sH t = sH s /\ sJ t = sJ s /\
      sieps t = ie /\ simu t = im /\ ssigma t = sg /\ sdt t = sdt s /\ scond t = scond s /\ sstep0 t = false.
  Proof.
    intros Hm H0 Hcov. destruct (made_ops _ _ _ _ _ Hm) as (bo & Hb & Hg' & (A & B & C & _) & _ & _).
    pose proof (made_good _ _ _ _ _ Hm) as G. set (K := kern_of g g' s) in *.
    assert (HN : sN s = gNx g * gNy g * gNz g).
    { unfold sN. rewrite (gd_x _ _ G), (gd_y _ _ G), (gd_z _ _ G). reflexivity. }
    exists bo. eexists. split; [exact Hb|]. split; [exact Hg'|].
    unfold update_tensors. cbn [set_materials sops]. rewrite (C H0). split; [reflexivity|].
    cbn [smH smE opL opiA optL opitA opC set_materials sNx sNy sNz siDeps siDmu sieps simu].
    change (sN (set_materials s ie im sg)) with (sN s). rewrite HN.
    assert (Ei : match tt with TIeps | TAll => toarray ie | _ => siDeps s end = toarray ie)
      by (destruct tt; cbn in Hcov; auto; try (destruct Hcov); congruence).
    assert (Em : match tt with TImu | TAll => toarray im | _ => siDmu s end = toarray im)
      by (destruct tt; cbn in Hcov; auto; try (destruct Hcov); congruence).
    rewrite Ei, Em. repeat split; reflexivity.
  Qed.

  (** Against a solver that was built with the new materials. *)
  Lemma update_equiv env g g' ar t g2' ar2 (s : Solver T) tt : made env g g' ar t -> sstep0 t = true ->
    made env g g2' ar2 s -> sbl s = sbl t -> sbh s = sbh t -> sdt s = sdt t -> scond s = scond t ->
    covers_change tt t (sieps s) (simu s) ->
    exists t2, update_tensors (set_materials t (sieps s) (simu s) (ssigma s)) tt = Ok t2 /\ same_fields t t2 /\
    forall h t3, same_fields t2 s ->
      (sstep0 s = false \/ ghosts_zero (gNx g) (gNy g) (gNz g) (entry (sE s)) (entry (sH s)) /\
                           clean_start (gNx g) (gNy g) (gNz g) h) ->
      run t2 h = Ok t3 -> exists s3, run s h = Ok s3 /\ same_fields t3 s3.
  Proof.
    intros Mt H0 Ms Bl Bh Ed Ec Hcov.
    destruct (update_products _ _ _ _ _ tt (sieps s) (simu s) (ssigma s) Mt H0 Hcov) as
      (bo & t2 & Hb & Hg' & Eu & EH & EE & Dx & Dy & Dz & Fe & Fh & Fj & Fi & Fm & Fs & Fd & Fc & Ff).
    destruct (made_ops _ _ _ _ _ Ms) as (bo2 & Hb2 & Hg2 & _ & SH & SE).
    rewrite Bl, Bh, Hb in Hb2. injection Hb2 as <-. rewrite <- Hg' in Hg2. subst g2'.
    exists t2. split; [exact Eu|]. split; [repeat split; congruence|].
    intros h t3 HS HF R.
    pose proof (made_good _ _ _ _ _ Mt) as Gt. pose proof (made_good _ _ _ _ _ Ms) as Gs.
    set (K := kern_of g g' s) in *.
    assert (G2 : good K t2).
    { constructor; try apply Gs.
      - rewrite Dx. apply Gt. - rewrite Dy. apply Gt. - rewrite Dz. apply Gt.
      - rewrite Fe. apply Gt. - rewrite Fh. apply Gt. - rewrite Fj. apply Gt.
      - rewrite Fi. apply Gs. - rewrite Fs. apply Gs.
      - rewrite Fd, <- Ed. reflexivity. - rewrite Fc, <- Ec. reflexivity.
      - rewrite Fi. apply Gs. - rewrite Fs. apply Gs.
      - rewrite EH, <- SH. apply Gs. - rewrite EE, <- SE. apply Gs.
      - congruence. }
    destruct (run_inv K h t2 t3 G2 R) as [O [G3 A]].
    destruct (run_good K h s Gs O) as [s3 [Rs [Gs3 As]]].
    exists s3. split; [exact Rs|]. apply (same_fields_abs K); [exact G3|exact Gs3|].
    assert (X : st_same K (krun K (abs t2) h) (krun K (abs s) h)).
    { apply krun_same; [apply same_fields_abs; assumption|]. cbn [abs tfresh].
      destruct HF as [HF|[F2 F3]]; [left; congruence|]. right. split; [exact Ff|]. split; [|exact F3].
      intros d i j k Hin. destruct (F2 d i j k Hin) as [P Q]. cbn [abs te th].
      rewrite !(entry_ix _ (kNx K) (kNy K) (kNz K)) in P by apply Gs.
      rewrite !(entry_ix _ (kNx K) (kNy K) (kNz K)) in Q by apply Gs. auto. }
    intros n Hn. destruct A as [A _], As as [As _]. destruct (A n Hn) as (-> & -> & ->).
    destruct (As n Hn) as (-> & -> & ->). apply X. exact Hn.
  Qed.

  Lemma update_late env g g' ar (s : Solver T) ie im sg tt : made env g g' ar s -> sstep0 s = false ->
    update_tensors (set_materials s ie im sg) tt = Err AttributeError.
  Proof.
    intros Hm H0. destruct (made_ops _ _ _ _ _ Hm) as (bo & _ & _ & (_ & _ & _ & D) & _).
    unfold update_tensors. cbn [set_materials sops]. rewrite (D H0). reflexivity.
  Qed.

  Lemma step_J (s s' : Solver T) : scond s = false -> one_step s = Ok s' -> sJ s' = sJ s /\ scond s' = false.
  Proof.
    intros Hc E. unfold one_step in E. binv E s1 Ea1. binv E H EH. binv E F EE. binv E J EJ. injection E as <-.
    assert (X : scond s1 = scond s /\ sJ s1 = sJ s).
    { unfold first_step in Ea1. destruct (sstep0 s); [|injection Ea1 as <-; auto].
      unfold set_ghosts in Ea1. binv Ea1 s2 Ea2. binv Ea2 H2 Ea3. binv Ea2 Ea4 Ea5. injection Ea2 as <-.
      unfold attrcleanup in Ea1. cbn [with_fields sops] in Ea1.
      destruct (sops s); [|discriminate]. injection Ea1 as <-. auto. }
    destruct X as [X1 X2]. unfold updJ in EJ. rewrite X1, Hc in EJ. injection EJ as <-. cbn. split; congruence.
  Qed.
End Tensors.
