(** Properties C38, C39, C44, C45: absorbing walls, update_tensors and emsolve. *)
From Coq Require Import List Arith ZArith Bool String Lia QArith Qcanon.
From Verif Require Import Num Vec FieldModel FieldSpec GridModel GridProofs SolverModel SolverPlanes SolverKern SolverCons
  SolverBuild SolverSpec SolverOps SolverFrozen SolverRestart SolverTensors SolverKit RoutinesModel RoutinesProofs RoutinesRun.
Import ListNotations.
Open Scope nat_scope.

(** ** C38.  Full claim: after each emsolve step every absorbing wall holds the values saved
    before the step, for any combination of faces. *)
Definition abc_wall (b : bc3) (a : nat) : Prop := lower (bc_at b a) = "abc"%string.
(** Position the wall copy reads: layer 1 instead of layer 0 when [w] holds. *)
Definition from_layer (w : Prop) (i x : nat) : Prop := w /\ x = Nat.max 1 i \/ ~ w /\ x = i.

Lemma is_abc_wall {T} {NT : Num T} (s : Solver T) hi a :
  is_abc s (hi, a) = true <-> abc_wall (if hi then sbh s else sbl s) a.
Proof. unfold is_abc, named, abc_wall. cbn [fst snd]. apply String.eqb_eq. Qed.
Lemma from_shifted {T} {NT : Num T} (s : Solver T) a i x :
  from_layer (abc_wall (sbl s) a) i x -> x = shifted (is_abc s (false, a)) i.
Proof.
  pose proof (is_abc_wall s false a) as X. cbn [negb] in X. unfold shifted.
  intros [[H ->]|[H ->]]; destruct (is_abc s (false, a)); try reflexivity.
  - apply X in H. discriminate.
  - exfalso. apply H, X. reflexivity.
Qed.

(** What holds when no axis is absorbing on both sides: an absorbing low wall takes layer 1 of
    the field after the step and an absorbing high wall keeps what the step gave it.  Missing: the
    values are those after the step, not saved ones, and no face may oppose another. *)
Theorem C38_walls_partial : forall (T : Type) (NT : Num T) (LT : NumLaws T) (OT : NumOrd T) env g g' ar (s : Solver T),
  made env g g' ar s ->
  (forall a, a < 3 -> abc_wall (sbl s) a -> ~ abc_wall (sbh s) a /\ 2 <= dim a (gNx g) (gNy g) (gNz g)) ->
  (exists a, a < 3 /\ (abc_wall (sbl s) a \/ abc_wall (sbh s) a)) ->
  exists s1 s2, one_step s = Ok s1 /\ emsolve s (em_plain 1) = Ok s2 /\ sJ s2 = sJ s1 /\
    forall d i j k x y z, in_box (gNx g) (gNy g) (gNz g) d i j k ->
      from_layer (abc_wall (sbl s) 0) i x -> from_layer (abc_wall (sbl s) 1) j y -> from_layer (abc_wall (sbl s) 2) k z ->
      entry (sE s2) d i j k = entry (sE s1) d x y z /\ entry (sH s2) d i j k = entry (sH s1) d x y z.
Proof.
  intros T NT LT OT env g g' ar s Hm Hl (b & Hb & He).
  destruct (emsolve_walls env g g' ar s Hm) as (s1 & s2 & E1 & E2 & M2 & EJ & V).
  - intros a Ha H. apply (Hl a Ha). apply (is_abc_wall s false a). exact H.
  - intros a Ha H. destruct (is_abc s (true, a)) eqn:Eh; [|reflexivity].
    exfalso. apply (Hl a Ha); [apply (is_abc_wall s false a); exact H|apply (is_abc_wall s true a); exact Eh].
  - rewrite (made_sabc _ _ _ _ _ Hm). apply existsb_exists.
    destruct He as [He|He]; [exists (false, b)|exists (true, b)];
      (split; [unfold abc_faces; destruct b as [|[|[|b]]]; [| | |lia]; cbn; auto 10|]).
    + apply (is_abc_wall s false b). exact He.
    + apply (is_abc_wall s true b). exact He.
  - exists s1, s2. repeat (split; [assumption|]). intros d i j k x y z (Hd & Hi & Hj & Hk) X Y Z.
    destruct (step_abc _ _ _ _ _ _ Hm E1) as (_ & _ & _ & F1).
    rewrite (from_shifted _ _ _ _ X), (from_shifted _ _ _ _ Y), (from_shifted _ _ _ _ Z), <- !F1.
    apply V; assumption.
Qed.
Print Assumptions C38_walls_partial.

(** An axis absorbing on both sides: the first step of every emsolve call fails. *)
Theorem C38_opposite_walls_fail : forall (T : Type) (NT : Num T) (LT : NumLaws T) (OT : NumOrd T) env g g' ar (s : Solver T) Nt a,
  made env g g' ar s -> a < 3 -> abc_wall (sbl s) a -> abc_wall (sbh s) a ->
  (forall b, b < 3 -> abc_wall (sbl s) b -> 2 <= dim b (gNx g) (gNy g) (gNz g)) ->
  emsolve s (em_plain (S Nt)) = Err KeyError.
Proof.
  intros T NT LT OT env g g' ar s Nt a Hm Ha Hl Hh W. apply (emsolve_both env g g' ar); [exact Hm| |].
  - intros b Hb H. apply W; [exact Hb|]. apply (is_abc_wall s false b). exact H.
  - exists a. split; [exact Ha|]. split; [apply (is_abc_wall s false a); exact Hl|apply (is_abc_wall s true a); exact Hh].
Qed.
Print Assumptions C38_opposite_walls_fail.

Lemma dims3 : gNx gridQ = 3 /\ gNy gridQ = 3 /\ gNz gridQ = 3.
Proof. vm_compute. repeat split. Qed.
Lemma made_sides env g g' ar (s : Solver Qc) : made env g g' ar s -> ar_mpi ar = None -> sbl s = ar_bl ar /\ sbh s = ar_bh ar.
Proof.
  intros Hm H. destruct (made_values _ _ _ _ _ Hm) as (M & bo & _ & _ & A & _). rewrite H in A.
  injection A as -> ->. auto.
Qed.

Definition abcA : Args Qc := argsQ {| bcx := "ABC"; bcy := "pec"; bcz := "abc" |} (bcs "pec") vac [].
Definition abcB : Args Qc := argsQ (bcs "abc") (bcs "abc") vac [].
Definition fillE : list (op Qc) := [OWriteE (ramp 3); OWriteH (ramp 5)].

(** A two-sided case: saved and live walls never get compared, the run fails. *)
Theorem C38_opposite_walls_refuted : exists g' s, made envQ gridQ g' abcB s /\ abc_wall (sbl s) 0 /\ abc_wall (sbh s) 0 /\
  emsolve s (em_plain 1) = Err KeyError.
Proof.
  assert (H : simulate envQ gridQ abcB [(fillE, [])] = true) by (vm_compute; reflexivity).
  destruct (simulated _ _ _ _ gridQ_obj H) as (s0 & g' & Hc & Hm & _).
  destruct (made_sides _ _ _ _ _ Hm eq_refl) as [El Eh].
  assert (W : forall a, a < 3 -> abc_wall (sbl s0) a /\ abc_wall (sbh s0) a).
  { intros a Ha. rewrite El, Eh. destruct a as [|[|[|a]]]; [| | |lia]; split; reflexivity. }
  exists g', s0. split; [exact Hm|]. split; [apply W; lia|]. split; [apply W; lia|].
  apply (C38_opposite_walls_fail Qc _ _ _ envQ gridQ g' abcB s0 0 0 Hm); [lia|apply W; lia|apply W; lia|].
  destruct dims3 as (-> & -> & ->). intros b Hb _. destruct b as [|[|b]]; cbn; lia.
Qed.
Print Assumptions C38_opposite_walls_refuted.

(** One low wall on x and one on z (the hypotheses of [C38_walls_partial] hold): the wall
    does not hold the layer saved before the step. *)
Theorem C38_saved_layer_refuted : exists g' s s2, made envQ gridQ g' abcA s /\
  (forall a, a < 3 -> abc_wall (sbl s) a -> ~ abc_wall (sbh s) a /\ 2 <= dim a 3 3 3) /\
  abc_wall (sbl s) 0 /\ emsolve s (em_plain 1) = Ok s2 /\
  entry (sE s) 1 1 1 1 = q 1 1 /\ entry (sE s2) 1 0 1 1 = q 37 48.
Proof.
  assert (H : simulate envQ gridQ abcA [(fillE, [(0, (1, 1, 1, 1), q 1 1)]);
     (fillE ++ [OStep], [(0, (1, 1, 1, 1), q 37 48)])] = true) by (vm_compute; reflexivity).
  destruct (simulated _ _ _ _ gridQ_obj H) as (s0 & g' & Hc & Hm & F).
  inversion F as [|? ? [s [R O]] F']; subst. inversion F' as [|? ? [s1 [R1 O1]] _]; subst. cbn [fst snd] in *.
  inversion O as [|? ? P _]; subst. inversion O1 as [|? ? P1 _]; subst.
  destruct (made_run _ _ _ _ _ _ _ Hm R) as [Hm' _].
  assert (R1' : run s0 (fillE ++ [OStep]) = Ok s1) by exact R1. clear R1. rename R1' into R1.
  rewrite (run_app _ _ _ _ R) in R1. rewrite <- run_one in R1.
  destruct (made_sides _ _ _ _ _ Hm' eq_refl) as [El Eh].
  assert (W : forall a, a < 3 -> abc_wall (sbl s) a -> ~ abc_wall (sbh s) a /\ 2 <= dim a 3 3 3).
  { intros a Ha _. rewrite Eh. split; [destruct a as [|[|[|a]]]; [| | |lia]; cbv; discriminate|].
    destruct a as [|[|a]]; cbn; lia. }
  assert (W0 : abc_wall (sbl s) 0) by (rewrite El; reflexivity).
  destruct (C38_walls_partial Qc _ _ _ envQ gridQ g' abcA s Hm') as (t1 & s2 & E1 & E2 & _ & V).
  - destruct dims3 as (-> & -> & ->). exact W.
  - exists 0. split; [lia|left; exact W0].
  - rewrite R1 in E1. injection E1 as <-. exists g', s, s2. repeat (split; [assumption|]).
    cbn [holds sel] in P1. rewrite <- P1. apply (V 1 0 1 1 1 1 1).
    + destruct dims3 as (-> & -> & ->). repeat split; lia.
    + left. split; [exact W0|reflexivity].
    + right. split; [|reflexivity]. rewrite El. cbv. discriminate.
    + left. split; [rewrite El; reflexivity|reflexivity].
Qed.
Print Assumptions C38_saved_layer_refuted.

(** ** C44.  The schedule of emsolve; sources and callbacks write fields as a function of time. *)
Theorem C44_schedule : forall (T : Type) (NT : Num T) (LT : NumLaws T) (OT : NumOrd T) env g g' ar (s : Solver T)
    (src cb : T -> list (op T)) Nt,
  made env g g' ar s -> (forall a, a < 3 -> ~ abc_wall (sbl s) a /\ ~ abc_wall (sbh s) a) ->
  emsolve s {| em_Nt := Nt; em_src := fun t s => run s (src t); em_cb := fun t s => run s (cb t); em_save := None |} =
  run s (flat_map (fun n => let t := nmul (nofnat n) (sdt s) in src t ++ [OStep] ++ cb t) (seq 0 Nt)).
Proof.
  intros T NT LT OT env g g' ar s src cb Nt Hm Hn. rewrite (emsolve_schedule env g g' ar); [reflexivity|exact Hm|].
  rewrite (made_sabc _ _ _ _ _ Hm). apply Bool.not_true_iff_false. intros H. apply existsb_exists in H.
  destruct H as ([hi a] & Hin & Hw). apply is_abc_wall in Hw.
  assert (Ha : a < 3).
  { unfold abc_faces in Hin. cbn in Hin.
    repeat (destruct Hin as [Hin|Hin]; [injection Hin; intros; subst; lia|]). contradiction. }
  destruct (Hn a Ha) as [X Y]. destruct hi; contradiction.
Qed.
Print Assumptions C44_schedule.

(** The same with absorbing walls: the wall update comes between the step and the callback. *)
Theorem C44_schedule_walls : forall (T : Type) (NT : Num T) (LT : NumLaws T) (OT : NumOrd T) env g g' ar (s : Solver T)
    (src cb : T -> list (op T)) Nt,
  made env g g' ar s -> (forall a, a < 3 -> abc_wall (sbl s) a -> 2 <= dim a (gNx g) (gNy g) (gNz g)) ->
  emsolve s {| em_Nt := Nt; em_src := fun t s => run s (src t); em_cb := fun t s => run s (cb t); em_save := None |} =
  seq_upd (fun r n =>
    let t := nmul (nofnat n) (sdt s) in
    do s1 <- run r (src t ++ [OStep]);
    do s2 <- (if sabc r then do D <- get_abc s1; update_abc s1 D else Ok s1);
    run s2 (cb t)) s (seq 0 Nt).
Proof.
  intros T NT LT OT env g g' ar s src cb Nt Hm W. rewrite (emsolve_body env g g' ar); [reflexivity|exact Hm|].
  intros b Hb H. apply W; [exact Hb|]. apply (is_abc_wall s false b). exact H.
Qed.
Print Assumptions C44_schedule_walls.

(** Without source and callback, a then b steps are a+b steps; also with absorbing walls. *)
Theorem C44_split : forall (T : Type) (NT : Num T) (LT : NumLaws T) (OT : NumOrd T) env g g' ar (s : Solver T) a b,
  made env g g' ar s -> (forall c, c < 3 -> abc_wall (sbl s) c -> 2 <= dim c (gNx g) (gNy g) (gNz g)) ->
  emsolve s (em_plain (a + b)) = (do s1 <- emsolve s (em_plain a); emsolve s1 (em_plain b)).
Proof.
  intros T NT LT OT env g g' ar s a b Hm W. apply (emsolve_add env g g' ar); [exact Hm|].
  intros c Hc H. apply W; [exact Hc|]. apply (is_abc_wall s false c). exact H.
Qed.
Print Assumptions C44_split.

(** A source writing J and a callback clearing H, two steps: times 0 and dt. *)
Definition boxC : Args Qc := argsQ (bcs "pec") (bcs "pec") vac [].
Example C44_case : exists g' s s', made envQ gridQ g' boxC s /\
  (forall a, a < 3 -> ~ abc_wall (sbl s) a /\ ~ abc_wall (sbh s) a) /\
  (let src t := [OWriteJ [Qcplus t (q 1 1)]] in let cb t := [OWriteH [t]] in
   emsolve s {| em_Nt := 2; em_src := fun t s => run s (src t); em_cb := fun t s => run s (cb t); em_save := None |} = Ok s') /\
  run s [OWriteJ [q 1 1]; OStep; OWriteH [q 0 1]; OWriteJ [q 5 4]; OStep; OWriteH [q 1 4]] = Ok s'.
Proof.
  assert (H : simulate2 envQ gridQ boxC (fun s _ => neqb (sdt s) (q 1 4))
    [([OWriteJ [q 1 1]; OStep; OWriteH [q 0 1]; OWriteJ [q 5 4]; OStep; OWriteH [q 1 4]], [])] = true) by (vm_compute; reflexivity).
  destruct (simulated2 _ _ _ _ _ gridQ_obj H) as (s0 & g' & Hc & Hm & Hk & F).
  inversion F as [|? ? [s [R O]] _]; subst. cbn [fst snd] in *. apply neqb_eq in Hk.
  destruct (made_sides _ _ _ _ _ Hm eq_refl) as [El Eh].
  assert (W : forall a, a < 3 -> ~ abc_wall (sbl s0) a /\ ~ abc_wall (sbh s0) a).
  { intros a Ha. rewrite El, Eh. destruct a as [|[|[|a]]]; [| | |lia]; split; cbv; discriminate. }
  exists g', s0, s. split; [exact Hm|]. split; [exact W|]. split; [|exact R].
  cbv zeta. rewrite (C44_schedule Qc _ _ _ envQ gridQ g' boxC s0 (fun t => [OWriteJ [Qcplus t (q 1 1)]]) (fun t => [OWriteH [t]]) 2 Hm W).
  rewrite <- R. rewrite Hk. cbn [seq flat_map app].
  replace (nmul (nofnat 0) (q 1 4)) with (q 0 1) by (apply Qc_this; reflexivity).
  replace (nmul (nofnat 1) (q 1 4)) with (q 1 4) by (apply Qc_this; reflexivity).
  replace (q 0 1 + q 1 1)%Qc with (q 1 1) by (apply Qc_this; reflexivity).
  replace (q 1 4 + q 1 1)%Qc with (q 5 4) by (apply Qc_this; reflexivity). reflexivity.
Qed.
(** [C44_schedule_walls] and [C44_split] apply to the walls of abcA. *)
Example C44_walls_case : exists g' s s1, made envQ gridQ g' abcA s /\ abc_wall (sbl s) 0 /\
  (forall c, c < 3 -> abc_wall (sbl s) c -> 2 <= dim c (gNx gridQ) (gNy gridQ) (gNz gridQ)) /\ emsolve s (em_plain 1) = Ok s1.
Proof.
  destruct C38_saved_layer_refuted as (g' & s & s2 & Hm & W & W0 & E & _). exists g', s, s2.
  repeat (split; [assumption|]). split; [|exact E]. intros c Hc Hw. destruct dims3 as (-> & -> & ->). apply (W c Hc Hw).
Qed.

(** ** C45.  Full claim: emsolve(save=True) completes and writes every requested dataset.
    False: it raises TypeError whenever some field is requested. *)
Theorem C45_save_fails : forall (T : Type) (NT : Num T) (s : Solver T) Nt src cb f fs c cs,
  emsolve s {| em_Nt := Nt; em_src := src; em_cb := cb; em_save := Some (f :: fs, c :: cs) |} = Err TypeError.
Proof.
  intros. eapply emsolve_save; [reflexivity|]. unfold out_names. cbn [flat_map].
  destruct (String.length f =? 1); discriminate.
Qed.
Print Assumptions C45_save_fails.
(** The default arguments fields=["E"], components=["Abs"] on a fresh solver that runs without save. *)
Theorem C45_save_refuted : exists g' s s', made envQ gridQ g' boxC s /\
  emsolve s (em_plain 1) = Ok s' /\
  emsolve s {| em_Nt := 1; em_src := fun _ s => Ok s; em_cb := fun _ s => Ok s; em_save := Some (["E"], ["Abs"]) |}%string
  = Err TypeError.
Proof.
  assert (H : simulate envQ gridQ boxC [([OStep], [])] = true) by (vm_compute; reflexivity).
  destruct (simulated _ _ _ _ gridQ_obj H) as (s0 & g' & Hc & Hm & F).
  inversion F as [|? ? [s [R O]] _]; subst. cbn [fst snd] in *.
  destruct (made_sides _ _ _ _ _ Hm eq_refl) as [El Eh].
  exists g', s0, s. split; [exact Hm|]. split; [|apply C45_save_fails].
  assert (W : forall a, a < 3 -> ~ abc_wall (sbl s0) a /\ ~ abc_wall (sbh s0) a).
  { intros a Ha. rewrite El, Eh. destruct a as [|[|[|a]]]; [| | |lia]; split; cbv; discriminate. }
  rewrite <- R. exact (C44_schedule Qc _ _ _ envQ gridQ g' boxC s0 (fun _ => []) (fun _ => []) 1 Hm W).
Qed.
Print Assumptions C45_save_refuted.

(** ** C39.  Full claim: after changing ieps, imu or sigma and calling update_tensors at any
    time, the solver steps as one built from those materials with the same dt. *)

(** Holds before the first step, when the tensor argument names what changed and both solvers
    agree on being conductive.  Missing: later calls and new conductivity, both refuted below. *)
Theorem C39_update_partial : forall (T : Type) (NT : Num T) (LT : NumLaws T) (OT : NumOrd T) env g g' ar t g2' ar2 (s : Solver T) tt,
  made env g g' ar t -> sstep0 t = true ->
  made env g g2' ar2 s -> sbl s = sbl t -> sbh s = sbh t -> sdt s = sdt t -> scond s = scond t ->
  match tt with
  | TAll => True
  | TIeps => simu s = simu t
  | TImu => sieps s = sieps t
  | TSigma | TOther => sieps s = sieps t /\ simu s = simu t
  end ->
  exists t2, update_tensors (set_materials t (sieps s) (simu s) (ssigma s)) tt = Ok t2 /\ same_fields t t2 /\
  forall h t3, same_fields t2 s ->
    (sstep0 s = false \/ ghosts_zero (gNx g) (gNy g) (gNz g) (entry (sE s)) (entry (sH s)) /\
                         clean_start (gNx g) (gNy g) (gNz g) h) ->
    run t2 h = Ok t3 -> exists s3, run s h = Ok s3 /\ same_fields t3 s3.
Proof. exact (fun T NT LT OT => @update_equiv T NT LT OT). Qed.
Print Assumptions C39_update_partial.

(** After the first step the operators are gone: every call fails. *)
Theorem C39_update_late_fails : forall (T : Type) (NT : Num T) (LT : NumLaws T) (OT : NumOrd T) env g g' ar (s : Solver T) ie im sg tt,
  made env g g' ar s -> sstep0 s = false ->
  update_tensors (set_materials s ie im sg) tt = Err AttributeError.
Proof. exact (fun T NT LT OT => @update_late T NT LT OT). Qed.
Print Assumptions C39_update_late_fails.
Theorem C39_update_late_refuted : exists g' s0 s, made envQ gridQ g' boxC s0 /\ run s0 [OStep] = Ok s /\
  forall tt, update_tensors (set_materials s (sieps s) (simu s) (ssigma s)) tt = Err AttributeError.
Proof.
  assert (H : simulate2 envQ gridQ boxC (fun _ _ => true) [([OStep], [])] = true) by (vm_compute; reflexivity).
  destruct (simulated3 _ _ _ _ _ gridQ_obj H) as (s0 & g' & Hc & Hm & Hk & F).
  inversion F as [|? ? [s K] _]; subst. cbn [fst snd] in K. destruct K as (R & _ & Hm1 & Hf & _).
  exists g', s0, s. split; [exact Hm|]. split; [exact R|]. intros tt. exact (C39_update_late_fails Qc _ _ _ _ _ _ _ _ _ _ _ tt Hm1 Hf).
Qed.
Print Assumptions C39_update_late_refuted.

(** A dielectric background given to a vacuum solver by update_tensors. *)
Definition dielC : Args Qc := argsQ (bcs "pec") (bcs "pec") (MList (Fin (q 3 1)) (Fin (q 1 1)) None) [].
Definition condC : Args Qc := argsQ (bcs "pec") (bcs "pec") (MList (Fin (q 1 1)) (Fin (q 1 1)) (Some (q 1 2))) [].
Lemma fresh_ghosts (s : Solver Qc) : sE s = field_zeros 3 3 3 -> sH s = field_zeros 3 3 3 ->
  ghosts_zero 3 3 3 (entry (sE s)) (entry (sH s)).
Proof.
  intros -> -> d i j k (Hd & Hi & Hj & Hk).
  assert (X : entry (field_zeros 3 3 3 : Field Qc) d i j k = nzero).
  { rewrite (entry_ix _ 3 3 3) by apply sized_zeros.
    unfold field_zeros. cbn [farr]. pose proof (ix_lt 3 3 3 d i j k Hd Hi Hj Hk).
    rewrite get_tab; [reflexivity|lia]. }
  split; intros _; exact X.
Qed.
Lemma built (ar : Args Qc) (c : bool) h : ar_mpi ar = None ->
  simulate2 envQ gridQ ar (fun s _ => neqb (sdt s) (q 1 4) && Bool.eqb (scond s) c) h = true ->
  exists s g', made envQ gridQ g' ar s /\ sstep0 s = true /\ sdt s = q 1 4 /\ scond s = c /\ sbl s = ar_bl ar /\ sbh s = ar_bh ar /\
    sE s = field_zeros 3 3 3 /\ sH s = field_zeros 3 3 3 /\ sJ s = field_zeros 3 3 3 /\
    Forall (fun p => exists s', run s (fst p) = Ok s' /\ Forall (holds s') (snd p)) h.
Proof.
  intros Hmp H. destruct (simulated2 _ _ _ _ _ gridQ_obj H) as (s & g' & Hc & Hm & Hk & F).
  apply andb_true_iff in Hk. destruct Hk as [K1 K2]. apply neqb_eq in K1. apply Bool.eqb_prop in K2.
  destruct (made_sides _ _ _ _ _ Hm Hmp) as [El Eh].
  destruct (construct_new _ _ _ _ _ gridQ_obj Hc) as (A & B & C & D). destruct dims3 as (X & Y & Z).
  rewrite X, Y, Z in A, B, C. exists s, g'. auto 12.
Qed.
Lemma diel_mats :
  match build_materials envQ (gNx gridQ) (gNy gridQ) (gNz gridQ) (ar_bg dielC) false (ar_solids dielC),
        build_materials envQ (gNx gridQ) (gNy gridQ) (gNz gridQ) (ar_bg boxC) false (ar_solids boxC) with
  | Ok M, Ok M' => mt_imu M = mt_imu M' /\ mt_ieps M <> mt_ieps M'
  | _, _ => False
  end.
Proof. vm_compute. split; [reflexivity|]. intros H. discriminate H. Qed.
Lemma no_pml bo : apply_bc gridQ (bcs "pec") (bcs "pec") = Ok bo -> bo_pml bo = false.
Proof.
  generalize gridQ. intros g Hb. unfold apply_bc in Hb.
  binv Hb x0 e0. binv Hb x1 e1. binv Hb x2 e2. binv Hb x3 e3.
  apply (f_equal (fun r => match r with Ok b => bo_pml b | _ => false end)) in Hb. rewrite <- Hb. reflexivity.
Qed.
Lemma pec_mats g' ar (s : Solver Qc) : made envQ gridQ g' ar s -> sbl s = bcs "pec" -> sbh s = bcs "pec" ->
  exists M, build_materials envQ (gNx gridQ) (gNy gridQ) (gNz gridQ) (ar_bg ar) false (ar_solids ar) = Ok M /\
    simu s = mt_imu M /\ sieps s = mt_ieps M.
Proof.
  intros Hm El Eh. destruct (made_values _ _ _ _ _ Hm) as (M & bo & Hb & HM & _ & E1 & _ & Ep & _ & Q).
  rewrite El, Eh in Hb. pose proof (no_pml bo Hb) as Hp. rewrite Hp in HM, Ep. exists M. split; [exact HM|].
  split; [exact E1|apply (Q Ep)].
Qed.
Lemma mats_differ g' t g2' s : made envQ gridQ g' boxC t -> sbl t = bcs "pec" -> sbh t = bcs "pec" ->
  made envQ gridQ g2' dielC s -> sbl s = bcs "pec" -> sbh s = bcs "pec" -> simu s = simu t /\ sieps s <> sieps t.
Proof.
  intros Mt Tl Th Ms Sl Sh. destruct (pec_mats _ _ _ Mt Tl Th) as (M' & HM' & -> & ->).
  destruct (pec_mats _ _ _ Ms Sl Sh) as (M & HM & -> & ->).
  pose proof diel_mats as X. rewrite HM, HM' in X. exact X.
Qed.
Example C39_case : exists g' t g2' s t2, made envQ gridQ g' boxC t /\ sstep0 t = true /\ made envQ gridQ g2' dielC s /\
  sbl s = sbl t /\ sbh s = sbh t /\ sdt s = sdt t /\ scond s = scond t /\ simu s = simu t /\ sieps s <> sieps t /\
  update_tensors (set_materials t (sieps s) (simu s) (ssigma s)) TIeps = Ok t2 /\ same_fields t2 s /\
  ghosts_zero 3 3 3 (entry (sE s)) (entry (sH s)) /\ clean_start 3 3 3 [OWriteJ (ramp 3); OStep; OStep].
Proof.
  destruct (built boxC false [] eq_refl) as (t & g' & Mt & T0 & Td & Tc & Tl & Th & Te & Thh & Tj & _); [vm_compute; reflexivity|].
  destruct (built dielC false [] eq_refl) as (s & g2' & Ms & S0 & Sd & Sc & Sl & Sh & Se & Shh & Sj & _); [vm_compute; reflexivity|].
  change (sbl s = bcs "pec") in Sl. change (sbl t = bcs "pec") in Tl.
  change (sbh s = bcs "pec") in Sh. change (sbh t = bcs "pec") in Th.
  destruct (mats_differ g' t g2' s Mt Tl Th Ms Sl Sh) as [Emu Eie].
  destruct (C39_update_partial Qc _ _ _ envQ gridQ g' boxC t g2' dielC s TIeps Mt T0 Ms) as (t2 & U & (F1 & F2 & F3) & _);
    [rewrite Sl, Tl; reflexivity|rewrite Sh, Th; reflexivity|rewrite Sd, Td; reflexivity|rewrite Sc, Tc; reflexivity|exact Emu|].
  exists g', t, g2', s, t2. split; [exact Mt|]. split; [exact T0|]. split; [exact Ms|].
  split; [rewrite Sl, Tl; reflexivity|]. split; [rewrite Sh, Th; reflexivity|]. split; [rewrite Sd, Td; reflexivity|].
  split; [rewrite Sc, Tc; reflexivity|]. split; [exact Emu|]. split; [exact Eie|]. split; [exact U|].
  split; [unfold same_fields; rewrite <- F1, <- F2, <- F3, Te, Thh, Tj, Se, Shh, Sj; auto|]. split; [apply fresh_ghosts; assumption|]. exact I.
Qed.

(** Conductivity given to a non-conductive solver: update_tensors accepts it, but the solver
    never computes the current of the conductor, unlike a solver built with it. *)
Theorem C39_conductivity_refuted : exists g' t g2' s t2 s3 h,
  made envQ gridQ g' boxC t /\ sstep0 t = true /\ made envQ gridQ g2' condC s /\
  sbl s = sbl t /\ sbh s = sbh t /\ sdt s = sdt t /\
  update_tensors (set_materials t (sieps s) (simu s) (ssigma s)) TAll = Ok t2 /\ same_fields t2 s /\
  run s h = Ok s3 /\ forall t3, run t2 h = Ok t3 -> entry (sJ t3) 0 1 1 1 = q 0 1 /\ entry (sJ s3) 0 1 1 1 = q 119 32.
Proof.
  destruct (built boxC false [] eq_refl) as (t & g' & Mt & T0 & Td & Tc & Tl & Th & Te & Thh & Tj & _); [vm_compute; reflexivity|].
  destruct (built condC true [([OWriteE (ramp 3); OStep], [(2, (0, 1, 1, 1), q 119 32)])] eq_refl)
    as (s & g2' & Ms & S0 & Sd & Sc & Sl & Sh & Se & Shh & Sj & F); [vm_compute; reflexivity|].
  inversion F as [|? ? [s3 [R O]] _]; subst. cbn [fst snd] in *. inversion O as [|? ? P _]; subst. cbn [holds sel] in P.
  destruct (update_products _ _ _ _ _ TAll (sieps s) (simu s) (ssigma s) Mt T0 I) as
      (bo & t2 & Hb & Hg' & Eu & EH & EE & Dx & Dy & Dz & Fe & Fh & Fj & Fi & Fm & Fs & Fd & Fc & Ff).
  change (sbl s = bcs "pec") in Sl. change (sbl t = bcs "pec") in Tl.
  change (sbh s = bcs "pec") in Sh. change (sbh t = bcs "pec") in Th.
  exists g', t, g2', s, t2, s3, [OWriteE (ramp 3); OStep].
  split; [exact Mt|]. split; [exact T0|]. split; [exact Ms|].
  split; [rewrite Sl, Tl; reflexivity|]. split; [rewrite Sh, Th; reflexivity|]. split; [rewrite Sd, Td; reflexivity|].
  split; [exact Eu|]. split; [unfold same_fields; rewrite Fe, Fh, Fj, Te, Thh, Tj, Se, Shh, Sj; auto|]. split; [exact R|].
  intros t3 R3. split; [|exact P]. unfold run in R3. cbn [seq_upd do_op] in R3. binv R3 t4 E4. binv E4 F4 G4. injection E4 as <-.
  binv R3 t5 E5. injection R3 as <-.
  destruct (step_J (with_fields t2 F4 (sH t2) (sJ t2)) t5) as [-> _]; [cbn [with_fields scond]; rewrite Fc; exact Tc|exact E5|].
  cbn [with_fields sJ]. rewrite Fj, Tj.
  rewrite (entry_ix _ 3 3 3) by apply sized_zeros. unfold field_zeros. cbn [farr]. rewrite get_tab; [reflexivity|cbv; lia].
Qed.
Print Assumptions C39_conductivity_refuted.
