(** Properties C37, C40-C43: inversion of a step, impressed currents, reset and restart. *)
From Coq Require Import List Arith ZArith Bool String Lia QArith Qcanon.
From Verif Require Import Num Vec FieldModel FieldSpec GridModel GridProofs SolverModel SolverPlanes SolverKern SolverCons
  SolverSpec SolverFlux SolverEnergy SolverOps SolverFrozen SolverLocal SolverRestart SolverMaxwell SolverNames
  SolverKit SolverProps.
Import ListNotations.
Open Scope nat_scope.

(** C37.  The state before the step, computed from the state after it (undoE, undoH: the two
    updates run backwards with the same matrices). *)
Theorem C37_undo : forall (T : Type) (NT : Num T) (LT : NumLaws T) (OT : NumOrd T) env g g' ar (s s' : Solver T),
  made env g g' ar s -> sstep0 s = false -> one_step s = Ok s' ->
  let E := undoE s (sdt s) (toarray (sE s')) (toarray (sH s')) (toarray (sJ s)) in
  toarray (sE s) = E /\ toarray (sH s) = undoH s (sdt s) E (toarray (sH s')).
Proof. exact (fun T NT LT OT => @undo_step T NT LT OT). Qed.
Print Assumptions C37_undo.
(** Hence every pair (E', H') is reached from exactly one pair (E, H). *)
Theorem C37_step_bijective : forall (T : Type) (NT : Num T) (LT : NumLaws T) (OT : NumOrd T) env g g' ar (s : Solver T),
  made env g g' ar s -> sstep0 s = false ->
  let N := 3 * (gNx g * gNy g * gNz g) in
  forall e' h', List.length e' = N -> List.length h' = N ->
  exists e h, List.length e = List.length e' /\ List.length h = List.length h' /\
    (exists s', run s [OWriteE e; OWriteH h; OStep] = Ok s' /\ toarray (sE s') = e' /\ toarray (sH s') = h') /\
    forall e2 h2 s', List.length e2 = List.length e' -> List.length h2 = List.length h' ->
      run s [OWriteE e2; OWriteH h2; OStep] = Ok s' -> toarray (sE s') = e' -> toarray (sH s') = h' ->
      e2 = e /\ h2 = h.
Proof. exact (fun T NT LT OT => @step_bijective T NT LT OT). Qed.
Print Assumptions C37_step_bijective.

(** C40 *)
Theorem C40_impressed_current : forall (T : Type) (NT : Num T) (LT : NumLaws T) (OT : NumOrd T) env g g' ar (s : Solver T) l s1 s2,
  made env g g' ar s ->
  run s [OWriteJ l; OStep] = Ok s1 -> run s [OWriteJ [nzero]; OStep] = Ok s2 ->
  (forall d i j k, in_box (gNx g) (gNy g) (gNz g) d i j k ->
    entry (sE s1) d i j k =
      entry (sE s2) d i j k - sdt s * entry (sieps s) d i j k * written (gNx g) (gNy g) (gNz g) l d i j k /\
    entry (sH s1) d i j k = entry (sH s2) d i j k /\
    entry (sJ s1) d i j k = if scond s then entry (ssigma s) d i j k * entry (sE s1) d i j k
                            else written (gNx g) (gNy g) (gNz g) l d i j k)%num.
Proof. exact (fun T NT LT OT => @impressed T NT LT OT). Qed.
Print Assumptions C40_impressed_current.
(** A conductive run. *)
Definition condA : Args Qc := argsQ (bcs "pec") (bcs "pec") (MList (Fin (q 1 1)) (Fin (q 1 1)) (Some (q 1 2))) [].
Example C40_case : exists g' s0 s1 s2, made envQ gridQ g' condA s0 /\ scond s0 = true /\
  run s0 [OWriteJ (ramp 3); OStep] = Ok s1 /\ run s0 [OWriteJ [q 0 1]; OStep] = Ok s2 /\
  entry (sE s1) 0 1 1 1 = q (-9) 4 /\ entry (sJ s1) 0 1 1 1 = q (-9) 8.
Proof.
  assert (H : simulate2 envQ gridQ condA (fun s _ => scond s) [([OWriteJ (ramp 3); OStep],
    [(0, (0, 1, 1, 1), q (-9) 4); (2, (0, 1, 1, 1), q (-9) 8)]); ([OWriteJ [q 0 1]; OStep], [])] = true) by (vm_compute; reflexivity).
  destruct (simulated2 _ _ _ _ _ gridQ_obj H) as (s0 & g' & Hc & Hm & Hk & F).
  inversion F as [|? ? [s1 [R1 O1]] F']; subst. inversion F' as [|? ? [s2 [R2 _]] _]; subst. cbn [fst snd] in *.
  exists g', s0, s1, s2. inversion O1 as [|? ? P1 O2]; subst. inversion O2 as [|? ? P2 _]; subst. auto 10.
Qed.

(** C41.  Full claim: after reset_fields a used solver behaves as a new one on every later
    history.  False: a new solver zeroes the ghost entries before its first step, a used one does not. *)
Definition perA : Args Qc := argsQ (bcs "periodic") (bcs "periodic") vac [].
Lemma perA_runs : exists g' s0 u t s1, construct envQ gridQ perA = Ok (s0, g') /\ made envQ gridQ g' perA s0 /\
  run s0 [OWriteE (ramp 3); OStep] = Ok u /\
  run s0 [OStep; OReset; OWriteE (ramp 3); OStep] = Ok t /\
  run s0 [OStep; OWriteE (ramp 3)] = Ok s1 /\
  entry (sH u) 1 2 1 1 = q 3 4 /\ entry (sH t) 1 2 1 1 = q 7 4.
Proof.
  assert (H : simulate envQ gridQ perA [([OWriteE (ramp 3); OStep], [(1, (1, 2, 1, 1), q 3 4)]);
    ([OStep; OReset; OWriteE (ramp 3); OStep], [(1, (1, 2, 1, 1), q 7 4)]); ([OStep; OWriteE (ramp 3)], [])] = true)
    by (vm_compute; reflexivity).
  destruct (simulated _ _ _ _ gridQ_obj H) as (s0 & g' & Hc & Hm & F).
  inversion F as [|? ? [u [R1 O1]] F1]; subst. inversion F1 as [|? ? [t [R2 O2]] F2]; subst.
  inversion F2 as [|? ? [s1 [R3 _]] _]; subst. cbn [fst snd] in *. inversion O1; subst. inversion O2; subst.
  exists g', s0, u, t, s1. auto 10.
Qed.
Theorem C41_reset_refuted : exists (g' : Grid Qc) s0 s h u t, construct envQ gridQ perA = Ok (s0, g') /\
  run s0 [OStep] = Ok s /\ run s0 h = Ok u /\ run s (OReset :: h) = Ok t /\
  entry (sH u) 1 2 1 1 = q 3 4 /\ entry (sH t) 1 2 1 1 = q 7 4.
Proof.
  destruct perA_runs as (g' & s0 & u & t & s1 & Hc & Hm & R1 & R2 & _ & O1 & O2).
  destruct (C74_run_total _ _ _ _ _ _ _ _ s0 [OStep] Hm) as [s [R _]]; [repeat constructor|].
  exists g', s0, s, [OWriteE (ramp 3); OStep], u, t. repeat (split; [assumption|]). split; [|auto].
  rewrite <- (run_app [OStep] (OReset :: [OWriteE (ramp 3); OStep]) s0 s R). exact R2.
Qed.
Print Assumptions C41_reset_refuted.

(** What holds, for all boundaries: equal fields if the later history does not write ghost
    entries before its first step (or the solver had not stepped yet). *)
Theorem C41_reset_partial : forall (T : Type) (NT : Num T) (LT : NumLaws T) (OT : NumOrd T) env g g' ar (s s0 : Solver T) h t0,
  made env g g' ar s -> construct env g ar = Ok (s0, g') ->
  (sstep0 s = true \/ clean_start (gNx g) (gNy g) (gNz g) h) ->
  run s0 h = Ok t0 -> exists t, run s (OReset :: h) = Ok t /\ same_fields t t0.
Proof. exact (fun T NT LT OT => @reset_fresh T NT LT OT). Qed.
Print Assumptions C41_reset_partial.
(** In an electric box: every later history, on all entries of the physical domain. *)
Theorem C41_reset_box_partial : forall (T : Type) (NT : Num T) (LT : NumLaws T) (OT : NumOrd T) env g g' ar (s s0 : Solver T) h t0,
  made env g g' ar s -> construct env g ar = Ok (s0, g') ->
  (forall a, a < 3 -> electric (bc_at (sbl s) a) /\ electric (bc_at (sbh s) a)) ->
  run s0 h = Ok t0 -> exists t, run s (OReset :: h) = Ok t /\ same_inside (gNx g) (gNy g) (gNz g) t0 t.
Proof. exact (fun T NT LT OT => @box_reset T NT LT OT). Qed.
Print Assumptions C41_reset_box_partial.
(** A history of sources only (currents) is a clean start. *)
Example C41_case : clean_start 3 3 3 [OWriteJ (ramp 3); OStep; OWriteE (ramp 5); OStep].
Proof. exact I. Qed.

(** C42 *)
Theorem C42_resume : forall (T : Type) (NT : Num T) (LT : NumLaws T) (OT : NumOrd T) env g g' ar (s t : Solver T) h s',
  made env g g' ar s -> made env g g' ar t -> sstep0 s = sstep0 t -> run s h = Ok s' ->
  exists t1 t', load_state t (save_state s) = Ok t1 /\ same_fields s t1 /\ run t1 h = Ok t' /\ same_fields s' t'.
Proof. intros. eapply resume; eauto. Qed.
Print Assumptions C42_resume.
Example C42_case : exists g' s0 s t, made envQ gridQ g' boxA s /\ made envQ gridQ g' boxA t /\
  run s0 startA = Ok s /\ run s0 [OStep] = Ok t /\ sstep0 s = sstep0 t /\ entry (sE s) 0 0 1 1 = q 65 24.
Proof.
  destruct boxA_case as (g' & s0 & s & Hc & R & Hs & Hf & _ & _ & _ & _ & _ & O).
  assert (Hm : made envQ gridQ g' boxA s0) by (constructor; [exact gridQ_obj|exact Hc]).
  destruct (C74_run_total _ _ _ _ _ _ _ _ s0 [OStep] Hm) as [t [Rt Mt]]; [repeat constructor|].
  exists g', s0, s, t. repeat (split; [assumption|]). split; [|exact O].
  destruct (made_run_abs _ _ _ _ _ _ _ Hm Rt) as (_ & _ & _ & _ & Ef). cbn in Ef. congruence.
Qed.

(** C43.  Full claim: the same when the state is loaded into a newly built solver.  False: the new
    solver zeroes the loaded ghost entries before its first step. *)
Theorem C43_fresh_resume_refuted : exists (g' : Grid Qc) s0 s s' t1 t', construct envQ gridQ perA = Ok (s0, g') /\
  run s0 [OStep; OWriteE (ramp 3)] = Ok s /\ run s [OStep] = Ok s' /\
  load_state s0 (save_state s) = Ok t1 /\ run t1 [OStep] = Ok t' /\
  entry (sH s') 1 2 1 1 = q 7 4 /\ entry (sH t') 1 2 1 1 = q 3 4.
Proof.
  assert (H : simulate envQ gridQ perA [
    ([OWriteE (ramp 3); OStep], [(1, (1, 2, 1, 1), q 3 4)]);
    ([OWriteE (ramp 3)], []);
    ([OStep; OWriteE (ramp 3)], all_obs 1 (q 0 1) ++ all_obs 2 (q 0 1));
    ([OStep; OWriteE (ramp 3)] ++ [OStep], [(1, (1, 2, 1, 1), q 7 4)])] = true)
    by (vm_compute; reflexivity).
  destruct (simulated _ _ _ _ gridQ_obj H) as (s0 & g' & Hc & Hm & F).
  inversion F as [|? ? [u [R1 O1]] F1]; subst. inversion F1 as [|? ? [v [R2 _]] F2]; subst.
  inversion F2 as [|? ? [s [R3 O3]] F3]; subst. inversion F3 as [|? ? [s' [R4 O4]] _]; subst.
  cbn [fst snd] in *. inversion O1 as [|? ? P1 _]; subst. inversion O4 as [|? ? P4 _]; subst.
  assert (O3s : Forall (holds s) (all_obs 1 (q 0 1) ++ all_obs 2 (q 0 1))) by exact O3. clear O3.
  apply Forall_app in O3s. destruct O3s as [O3 O3'].
  destruct (made_run _ _ _ _ _ _ _ Hm R3) as [Ms _]. destruct (made_run _ _ _ _ _ _ _ Hm R2) as [Mv _].
  destruct (load_saved _ _ _ _ s s0 Ms Hm) as (t1 & Hl & Mt & Sf & Ef).
  change (run s0 ([OStep; OWriteE (ramp 3)] ++ [OStep]) = Ok s') in R4. rewrite (run_app _ _ _ _ R3) in R4.
  assert (R1' : run v [OStep] = Ok u).
  { rewrite <- R1. symmetry. change [OWriteE (ramp 3); OStep] with ([OWriteE (ramp 3)] ++ [OStep]). apply run_app. exact R2. }
  assert (Sv : same_fields v s).
  { destruct (made_run_abs _ _ _ _ _ _ _ Hm R3) as (G & Gs & _ & A & _).
    destruct (made_run_abs _ _ _ _ _ _ _ Hm R2) as (_ & Gv & _ & B & _).
    destruct (construct_new _ _ _ _ _ gridQ_obj Hc) as (Z1 & Z2 & Z3 & _).
    set (K := kern_of gridQ g' s0) in *.
    assert (D : kNx K = 3 /\ kNy K = 3 /\ kNz K = 3) by exact dimsQ. destruct D as (Dx & Dy & Dz).
    assert (DN : 3 * (kNx K * kNy K * kNz K) = 3 * kN K) by reflexivity.
    split; [|split].
    - apply (field_eq (kNx K) (kNy K) (kNz K)); [apply Gv|apply Gs|]. intros n Hn. rewrite DN in Hn.
      destruct (A n Hn) as (X & _ & _). destruct (B n Hn) as (Y & _ & _). cbn [abs te] in X, Y. rewrite X, Y. reflexivity.
    - apply (field_eq (kNx K) (kNy K) (kNz K)); [apply Gv|apply Gs|]. intros n Hn. rewrite DN in Hn.
      destruct (B n Hn) as (_ & Y & _). cbn [abs th] in Y. rewrite Y. cbn [krun fold_left kop th abs]. rewrite Z2.
      destruct (ix_surj _ _ _ _ Hn) as (d & i & j & k & Hd & Hi & Hj & Hk & ->).
      rewrite <- (entry_ix (sH s)) by apply Gs. rewrite Dx, Dy, Dz in *.
      change (sH s) with (sel 1 s). rewrite (all_obs_hold 1 _ s O3 d i j k) by (repeat split; lia).
      destruct dimsQ as (-> & -> & ->). rewrite <- (entry_ix (field_zeros 3 3 3)) by apply sized_zeros.
      apply entry_zeros. repeat split; lia.
    - apply (field_eq (kNx K) (kNy K) (kNz K)); [apply Gv|apply Gs|]. intros n Hn. rewrite DN in Hn.
      destruct (B n Hn) as (_ & _ & Y). cbn [abs tj] in Y. rewrite Y. cbn [krun fold_left kop tj abs]. rewrite Z3.
      destruct (ix_surj _ _ _ _ Hn) as (d & i & j & k & Hd & Hi & Hj & Hk & ->).
      rewrite <- (entry_ix (sJ s)) by apply Gs. rewrite Dx, Dy, Dz in *.
      change (sJ s) with (sel 2 s). rewrite (all_obs_hold 2 _ s O3' d i j k) by (repeat split; lia).
      destruct dimsQ as (-> & -> & ->). rewrite <- (entry_ix (field_zeros 3 3 3)) by apply sized_zeros.
      apply entry_zeros. repeat split; lia. }
  assert (Fv : sstep0 v = sstep0 t1).
  { destruct (made_run_abs _ _ _ _ _ _ _ Hm R2) as (_ & _ & _ & _ & E). cbn in E. congruence. }
  assert (Svt : same_fields v t1).
  { destruct Sv as (a & b & c), Sf as (a' & b' & c'). repeat split; congruence. }
  destruct (same_run _ _ _ _ v t1 [OStep] u Mv Mt Svt (or_introl Fv) R1') as (t' & R5 & (_ & Eh & _)).
  exists g', s0, s, s', t1, t'. cbn [holds sel] in P1, P4. rewrite Eh in P1.
  repeat (split; [assumption|]). assumption.
Qed.
Print Assumptions C43_fresh_resume_refuted.

(** What holds: if the saved ghost entries are zero and the continuation does not write them
    before its first step, for all boundaries. *)
Theorem C43_fresh_resume_partial : forall (T : Type) (NT : Num T) (LT : NumLaws T) (OT : NumOrd T) env g g' ar (s t : Solver T) h s',
  made env g g' ar s -> construct env g ar = Ok (t, g') ->
  sstep0 s = false -> ghosts_zero (gNx g) (gNy g) (gNz g) (entry (sE s)) (entry (sH s)) ->
  clean_start (gNx g) (gNy g) (gNz g) h -> run s h = Ok s' ->
  exists t1 t', load_state t (save_state s) = Ok t1 /\ same_fields s t1 /\ run t1 h = Ok t' /\ same_fields s' t'.
Proof.
  intros T NT LT OT env g g' ar s t h s' Hm Hc. intros.
  assert (Mt : made env g g' ar t) by (constructor; [eapply made_grid; exact Hm|exact Hc]).
  eapply resume; eauto.
Qed.
Print Assumptions C43_fresh_resume_partial.
(** In an electric box: always, on all entries of the physical domain. *)
Theorem C43_fresh_resume_box_partial : forall (T : Type) (NT : Num T) (LT : NumLaws T) (OT : NumOrd T) env g g' ar (s t : Solver T) h s',
  made env g g' ar s -> made env g g' ar t ->
  (forall a, a < 3 -> electric (bc_at (sbl s) a) /\ electric (bc_at (sbh s) a)) ->
  run s h = Ok s' ->
  exists t1 t', load_state t (save_state s) = Ok t1 /\ run t1 h = Ok t' /\ same_inside (gNx g) (gNy g) (gNz g) s' t'.
Proof. exact (fun T NT LT OT => @box_resume T NT LT OT). Qed.
Print Assumptions C43_fresh_resume_box_partial.
