(** Properties C14, C15, C75: axis refinement, saving and reloading a grid. *)
From Coq Require Import List Arith ZArith Bool String Lia QArith Qcanon Reals.
From Verif Require Import Num Vec FieldModel FieldSpec GridModel GridProofs SolverModel SolverPlanes SolverKern SolverCons
  SolverMaterials SolverBuild SolverSpec SolverOps SolverKit GridFileModel GridFileProofs GridRefineProofs.
Import ListNotations.
Open Scope nat_scope.

(** ** C14.  Snaps are what _compute_snap_points stores: the coordinates of the geometry and the
    bounds.  Missing from the full claim: it fails when there are more snaps than requested nodes. *)
Theorem C14_insert_partial : forall (xmin xmax : R) (Nx : nat) (pts : list R), (xmin < xmax)%R ->
  let snaps := snaps_with_bounds xmin xmax pts in
  List.length snaps <= Nx ->
  exists x0, refine_start xmin xmax Nx snaps MInsert = Ok x0 /\
    (forall i j, i < j < List.length x0 -> (nth i x0 0 < nth j x0 0)%R) /\
    (forall p, In p pts \/ p = xmin \/ p = xmax -> In ((p - xmin) / (xmax - xmin))%R x0) /\
    (forall y, In y x0 -> (exists p, (In p pts \/ p = xmin \/ p = xmax) /\ y = ((p - xmin) / (xmax - xmin))%R) \/
       exists i n, y = (INR i / INR n)%R /\ i <= n < Nx) /\
    List.length x0 <= Nx /\
    ((forall p, In p pts -> (xmin <= p <= xmax)%R) -> forall y, In y x0 -> (0 <= y <= 1)%R).
Proof. exact refine_insert. Qed.
Print Assumptions C14_insert_partial.

Theorem C14_too_many_snaps : forall (xmin xmax : R) (Nx : nat) (snaps : list R), Nx < List.length snaps ->
  refine_start xmin xmax Nx snaps MInsert = Err ValueError.
Proof. exact refine_too_many. Qed.
Print Assumptions C14_too_many_snaps.

(** Two cells asked for, an object with two faces inside the domain. *)
Theorem C14_insert_refuted : exists (xmin xmax : Qc) Nx pts, (xmin < xmax)%Qc /\ 2 <= Nx /\
  (forall p, In p pts -> (xmin <= p <= xmax)%Qc) /\
  refine_start xmin xmax Nx (snaps_with_bounds xmin xmax pts) MInsert = Err ValueError.
Proof.
  exists (q 0 1), (q 4 1), 3, [q 1 1; q 3 1]. split; [reflexivity|]. split; [lia|]. split.
  - intros p [<-|[<-|[]]]; split; discriminate.
  - vm_compute. reflexivity.
Qed.
Print Assumptions C14_insert_refuted.

Definition Qc_list (l : list Qc) : list Q := map this l.
Example C14_case : match refine_start (q 1 1) (q 5 1) 8 (snaps_with_bounds (q 1 1) (q 5 1) [q 4 1; q 2 1; q 4 1]) MInsert with
  | Ok x0 => Qc_list x0 = [0; 1#4; 1#3; 2#3; 3#4; 1]%Q
  | Err _ => False end.
Proof. vm_compute. reflexivity. Qed.
Example C14_case_R : exists x0, refine_start 0%R 4%R 9 (snaps_with_bounds 0%R 4%R [1%R; 3%R]) MInsert = Ok x0 /\ In (1 / 4)%R x0.
Proof.
  destruct (C14_insert_partial 0%R 4%R 9 [1%R; 3%R]) as (x0 & E & _ & H & _).
  - apply IZR_lt; reflexivity.
  - eapply Nat.le_trans; [apply unique_spec|]. rewrite !app_length. cbn [List.length].
    pose proof (proj2 (proj2 (unique_spec [1%R; 3%R]))) as L. cbn [List.length] in L. lia.
  - exists x0. split; [exact E|]. replace (1 / 4)%R with ((1 - 0) / (4 - 0))%R by (rewrite !Rminus_0_r; reflexivity).
    apply H. left. left. reflexivity.
Qed.

(** ** C75.  The other documented methods. *)
(** 'neighbor' moves one node onto several snaps: node 1 of [0, 1/2, 1] goes to 3/4 and then to 1,
    which leaves an empty cell and loses the snap. *)
Theorem C75_neighbor_refuted : exists (xmin xmax : Qc) Nx p x0, (xmin < p)%Qc /\ (p < xmax)%Qc /\ 2 <= Nx /\
  refine_start xmin xmax Nx (snaps_with_bounds xmin xmax [p]) MNeighbor = Ok x0 /\
  (exists i, S i < List.length x0 /\ get x0 i = get x0 (S i)) /\
  ~ In (ndiv (nsub p xmin) (nsub xmax xmin)) x0.
Proof.
  exists (q 0 1), (q 4 1), 3, (q 3 1), [q 0 1; q 1 1; q 1 1]. split; [reflexivity|]. split; [reflexivity|]. split; [lia|].
  split; [|split].
  - assert (H : match refine_start (q 0 1) (q 4 1) 3 (snaps_with_bounds (q 0 1) (q 4 1) [q 3 1]) MNeighbor with
                | Ok l => Qc_list l = [0; 1; 1]%Q | Err _ => False end) by (vm_compute; reflexivity).
    destruct (refine_start (q 0 1) (q 4 1) 3 (snaps_with_bounds (q 0 1) (q 4 1) [q 3 1]) MNeighbor) as [l|]; [|destruct H].
    f_equal. destruct l as [|a [|b [|c [|]]]]; try discriminate. cbn in H. injection H as Ha Hb Hc.
    repeat f_equal; apply Qc_this; assumption.
  - exists 1. split; [cbn; lia|]. reflexivity.
  - intros [H|[H|[H|[]]]]; apply (f_equal this) in H; vm_compute in H; discriminate.
Qed.
Print Assumptions C75_neighbor_refuted.
(** Snaps more than one cell apart (bounds included): all of them become nodes, each node moves by at most half a
    cell, the number of nodes is kept and the axis stays strictly increasing.  Missing: closer snaps, where this fails. *)
Theorem C75_neighbor_partial : forall (xmin xmax : R) (Nx : nat) (snaps : list R), (xmin < xmax)%R -> 2 <= Nx ->
  (forall p, In p snaps -> (xmin <= p <= xmax)%R) ->
  (forall i j, i < j < List.length snaps -> ((xmax - xmin) / INR (Nx - 1) < Rabs (nth i snaps 0 - nth j snaps 0))%R) ->
  exists x0, refine_start xmin xmax Nx snaps MNeighbor = Ok x0 /\ List.length x0 = Nx /\
    (forall p, In p snaps -> In ((p - xmin) / (xmax - xmin))%R x0) /\
    (forall i, i < Nx -> nth i x0 0%R = (INR i / INR (Nx - 1))%R \/
       exists p, In p snaps /\ nth i x0 0%R = ((p - xmin) / (xmax - xmin))%R /\
                 (Rabs (nth i x0 0 - INR i / INR (Nx - 1)) <= / 2 / INR (Nx - 1))%R) /\
    (forall i, S i < Nx -> (nth i x0 0 < nth (S i) x0 0)%R).
Proof. exact refine_neighbor. Qed.
Print Assumptions C75_neighbor_partial.
Example C75_neighbor_case : match refine_start (q 0 1) (q 8 1) 9 (snaps_with_bounds (q 0 1) (q 8 1) [q 11 4; q 9 2]) MNeighbor with
  | Ok x0 => Qc_list x0 = [0; 1#8; 1#4; 11#32; 9#16; 5#8; 3#4; 7#8; 1]%Q
  | Err _ => False end.
Proof. vm_compute. reflexivity. Qed.
(** 'subdivision' fails for every input. *)
Theorem C75_subdivision_fails : forall (T : Type) (NT : Num T) (OT : NumOrd T) (xmin xmax : T) Nx snaps,
  refine_start xmin xmax Nx snaps MSubdivision = Err UnboundLocalError.
Proof. intros. reflexivity. Qed.
Print Assumptions C75_subdivision_fails.

(** ** C15.  Full claim: for every grid, the solver built on the reloaded grid has the same
    materials.  It holds when, in every cell, the solids that cover it are listed in alphabetical
    order (in particular when solids do not overlap); then the two solvers are equal. *)
Theorem C15_reload_partial : forall (T : Type) (NT : Num T) (LT : NumLaws T) (OT : NumOrd T)
    env (s : StlGrid T) sol f g ar r,
  (exists so, sg_solids s = Some so) -> solids_of s = Ok sol -> grid_of s = Ok g -> save_h5 s = Ok f ->
  (forall p q a b i j k, p < q -> nth_error sol p = Some a -> nth_error sol q = Some b ->
     i < gNx g -> j < gNy g -> k < gNz g ->
     cell_mask (gNy g) (gNz g) (so_mask a) i j k = true -> cell_mask (gNy g) (gNz g) (so_mask b) i j k = true ->
     String.ltb (so_key a) (so_key b) = true) ->
  construct env g (with_solids ar sol) = Ok r ->
  exists s' sol', load_h5 f = Ok s' /\ grid_of s' = Ok g /\ solids_of s' = Ok sol' /\
    construct env g (with_solids ar sol') = Ok r.
Proof. exact (fun T NT LT OT => @reload_construct T NT LT OT). Qed.
Print Assumptions C15_reload_partial.

(** Saving works when the grid has solids, each with a mask, and all STL attributes are dictionaries. *)
Theorem C15_save_total : forall (T : Type) (NT : Num T) (s : StlGrid T) so,
  sg_solids s = Some so -> sg_dicts s = true -> NoDup (map fst so) -> NoDup (map fst (sg_mats s)) ->
  (forall p, In p so -> exists m, dget (sg_masks s) (fst p) = Ok m) ->
  exists f, save_h5 s = Ok f.
Proof. exact (fun T _ => @save_ok T). Qed.
Print Assumptions C15_save_total.
(** A grid without solids cannot be saved. *)
Theorem C15_no_solids_fails : forall (T : Type) (NT : Num T) (s : StlGrid T), sg_solids s = None -> save_h5 s = Err AttributeError.
Proof. intros T NT s H. unfold save_h5. rewrite H. reflexivity. Qed.
Print Assumptions C15_no_solids_fails.

Definition mask1 (l : list nat) : list bool := tab 27 (fun n => existsb (Nat.eqb n) l).
Definition pipe : StlGrid Qc :=
  {| sg_x := axQ; sg_y := ayQ; sg_z := azQ;
     sg_solids := Some [("wall", "w.stl"); ("bore", "b.stl"); ("tip", "t.stl")]%string;
     sg_mats := [("wall", MList (Fin (q 2 1)) (Fin (q 1 1)) None); ("tip", MName "vacuum"); ("bore", MList (Fin (q 4 1)) (Fin (q 1 1)) None)]%string;
     sg_masks := [("wall", mask1 [12; 13; 14]); ("bore", mask1 [13; 16]); ("tip", mask1 [0; 16])]%string;
     sg_dicts := true |}.

(** The bore is cut out of the wall by listing it later; after reloading the wall fills it. *)
Theorem C15_reload_refuted : exists (s : StlGrid Qc) sol f s' sol' g r g1 r' g1',
  solids_of s = Ok sol /\ grid_of s = Ok g /\ grid_obj envQ g /\ save_h5 s = Ok f /\ load_h5 f = Ok s' /\
  solids_of s' = Ok sol' /\ grid_of s' = Ok g /\
  construct envQ g (with_solids (argsQ (bcs "pec") (bcs "pec") vac []) sol) = Ok (r, g1) /\
  construct envQ g (with_solids (argsQ (bcs "pec") (bcs "pec") vac []) sol') = Ok (r', g1') /\
  entry (sieps r) 0 1 1 1 <> entry (sieps r') 0 1 1 1.
Proof.
  assert (G : grid_of pipe = Ok gridQ).
  { unfold grid_of, pipe, gridQ. cbn [sg_x sg_y sg_z].
    assert (H : match compute_grid axQ ayQ azQ with Ok _ => true | Err _ => false end = true) by (vm_compute; reflexivity).
    destruct (compute_grid axQ ayQ azQ); [reflexivity|discriminate]. }
  assert (Hs : exists sol, solids_of pipe = Ok sol) by (eexists; reflexivity). destruct Hs as [sol Hs].
  assert (Hf : exists f, save_h5 pipe = Ok f) by (eexists; reflexivity). destruct Hf as [f Hf].
  destruct (load_save pipe _ sol f eq_refl Hs Hf) as (s' & sol' & L & G' & S' & _).
  assert (X : forall so, simulate envQ gridQ (with_solids (argsQ (bcs "pec") (bcs "pec") vac []) so) [] = true ->
     exists r g1 M, construct envQ gridQ (with_solids (argsQ (bcs "pec") (bcs "pec") vac []) so) = Ok (r, g1) /\
       sieps r = mt_ieps M /\ build_materials envQ 3 3 3 vac false so = Ok M).
  { intros so H. destruct (simulated _ _ _ _ gridQ_obj H) as (r & g1 & Hc & Hm & _). exists r, g1.
    pose proof (grid_obj_ok _ _ gridQ_obj) as Ok1.
    destruct (construct_spec envQ gridQ _ _ _ Ok1 Hc) as (bo & M & B1 & B2 & B3 & _ & B4 & _). exists M. split; [exact Hc|].
    assert (P : bo_pml bo = false).
    { assert (Eb : (sbl r, sbh r) = (bcs "pec", bcs "pec")) by (rewrite B2; reflexivity).
      injection Eb as E1 E2. rewrite E1, E2 in B1.
      assert (Y : match apply_bc gridQ (bcs "pec") (bcs "pec") with Ok b => bo_pml b | Err _ => false end = false) by (vm_compute; reflexivity).
      rewrite B1 in Y. exact Y. }
    rewrite P in B3, B4. split; [|exact B3]. injection B4 as B4 _. symmetry. exact B4. }
  assert (S1 : simulate envQ gridQ (with_solids (argsQ (bcs "pec") (bcs "pec") vac []) sol) [] = true).
  { assert (H : match solids_of pipe with Ok so => simulate envQ gridQ (with_solids (argsQ (bcs "pec") (bcs "pec") vac []) so) [] | Err _ => false end = true)
      by (vm_compute; reflexivity). rewrite Hs in H. exact H. }
  assert (S2 : simulate envQ gridQ (with_solids (argsQ (bcs "pec") (bcs "pec") vac []) sol') [] = true).
  { assert (H : match save_h5 pipe with Ok f => match load_h5 f with Ok s => match solids_of s with Ok so =>
        simulate envQ gridQ (with_solids (argsQ (bcs "pec") (bcs "pec") vac []) so) [] | _ => false end | _ => false end | _ => false end = true)
      by (vm_compute; reflexivity). rewrite Hf, L, S' in H. exact H. }
  destruct (X _ S1) as (r & g1 & M & C1 & E1 & B1). destruct (X _ S2) as (r' & g1' & M' & C2 & E2 & B2).
  exists pipe, sol, f, s', sol', gridQ, r, g1, r', g1'.
  split; [exact Hs|]. split; [exact G|]. split; [exact gridQ_obj|]. split; [exact Hf|]. split; [exact L|].
  split; [exact S'|]. split; [rewrite G'; exact G|]. split; [exact C1|]. split; [exact C2|].
  rewrite E1, E2.
  assert (V : match solids_of pipe with Ok so => match build_materials envQ 3 3 3 vac false so with
        Ok M => Some (this (entry (mt_ieps M) 0 1 1 1)) | _ => None end | _ => None end = Some (1#4)%Q) by (vm_compute; reflexivity).
  assert (V' : match save_h5 pipe with Ok f => match load_h5 f with Ok s => match solids_of s with Ok so =>
        match build_materials envQ 3 3 3 vac false so with Ok M => Some (this (entry (mt_ieps M) 0 1 1 1)) | _ => None end
        | _ => None end | _ => None end | _ => None end = Some (1#2)%Q) by (vm_compute; reflexivity).
  rewrite Hs, B1 in V. rewrite Hf, L, S', B2 in V'. intros H. rewrite H in V. rewrite V in V'. discriminate V'.
Qed.
Print Assumptions C15_reload_refuted.

(** The same grid with keys in order meets the hypotheses of the positive theorem. *)
Definition pipe2 : StlGrid Qc :=
  {| sg_x := axQ; sg_y := ayQ; sg_z := azQ;
     sg_solids := Some [("tip", "t.stl"); ("a_wall", "w.stl"); ("bore", "b.stl")]%string;
     sg_mats := [("a_wall", MList (Fin (q 2 1)) (Fin (q 1 1)) None); ("tip", MName "vacuum"); ("bore", MList (Fin (q 4 1)) (Fin (q 1 1)) None)]%string;
     sg_masks := [("a_wall", mask1 [12; 13; 14]); ("bore", mask1 [13; 16]); ("tip", mask1 [0])]%string;
     sg_dicts := true |}.
Definition ordered (sol : list (solid Qc)) : bool :=
  forallb (fun q => forallb (fun p => forallb (fun c =>
    match nth_error sol p, nth_error sol q with
    | Some a, Some b => implb (nth c (so_mask a) false && nth c (so_mask b) false) (String.ltb (so_key a) (so_key b))
    | _, _ => true end) (seq 0 27)) (seq 0 q)) (seq 0 (List.length sol)).
Example C15_case : exists sol f s' sol' r, solids_of pipe2 = Ok sol /\ save_h5 pipe2 = Ok f /\ load_h5 f = Ok s' /\
  solids_of s' = Ok sol' /\ map so_key sol = ["tip"; "a_wall"; "bore"]%string /\ map so_key sol' = ["a_wall"; "bore"; "tip"]%string /\
  construct envQ gridQ (with_solids (argsQ (bcs "pec") (bcs "pec") vac []) sol) = Ok r /\
  construct envQ gridQ (with_solids (argsQ (bcs "pec") (bcs "pec") vac []) sol') = Ok r.
Proof.
  assert (G : grid_of pipe2 = Ok gridQ).
  { unfold grid_of, pipe2, gridQ. cbn [sg_x sg_y sg_z].
    assert (H : match compute_grid axQ ayQ azQ with Ok _ => true | Err _ => false end = true) by (vm_compute; reflexivity).
    destruct (compute_grid axQ ayQ azQ); [reflexivity|discriminate]. }
  assert (Hs : exists sol, solids_of pipe2 = Ok sol) by (eexists; reflexivity). destruct Hs as [sol Hs].
  assert (Hf : exists f, save_h5 pipe2 = Ok f) by (eexists; reflexivity). destruct Hf as [f Hf].
  assert (S1 : simulate envQ gridQ (with_solids (argsQ (bcs "pec") (bcs "pec") vac []) sol) [] = true).
  { assert (H : match solids_of pipe2 with Ok so => simulate envQ gridQ (with_solids (argsQ (bcs "pec") (bcs "pec") vac []) so) [] | Err _ => false end = true)
      by (vm_compute; reflexivity). rewrite Hs in H. exact H. }
  destruct (simulated _ _ _ _ gridQ_obj S1) as (r & g1 & Hc & _).
  assert (O : ordered sol = true).
  { assert (H : match solids_of pipe2 with Ok so => ordered so | _ => false end = true) by (vm_compute; reflexivity).
    rewrite Hs in H. exact H. }
  destruct (C15_reload_partial Qc _ _ _ envQ pipe2 sol f gridQ (argsQ (bcs "pec") (bcs "pec") vac []) (r, g1)) as (s' & sol' & L & _ & S' & C').
  - eexists. reflexivity.
  - exact Hs.
  - exact G.
  - exact Hf.
  - intros p q0 a b i j k Hpq Ha Hb Hi Hj Hk Ma Mb.
    change (gNx gridQ) with 3 in Hi. change (gNy gridQ) with 3 in Hj, Ma, Mb. change (gNz gridQ) with 3 in Hk, Ma, Mb.
    unfold ordered in O. rewrite forallb_forall in O.
    assert (Q1 : In q0 (seq 0 (List.length sol))). { apply in_seq. assert (q0 < List.length sol) by (apply nth_error_Some; rewrite Hb; discriminate). lia. }
    specialize (O _ Q1). rewrite forallb_forall in O. assert (Q2 : In p (seq 0 q0)) by (apply in_seq; lia).
    specialize (O _ Q2). rewrite forallb_forall in O. assert (Q3 : In ((i * 3 + j) * 3 + k) (seq 0 27)) by (apply in_seq; lia).
    specialize (O _ Q3). cbv beta in O. rewrite Ha, Hb in O. unfold cell_mask in Ma, Mb. rewrite Ma, Mb in O. exact O.
  - exact Hc.
  - exists sol, f, s', sol', (r, g1). split; [exact Hs|]. split; [exact Hf|]. split; [exact L|]. split; [exact S'|].
    split; [|split; [|split; [exact Hc|exact C']]].
    + assert (H : match solids_of pipe2 with Ok so => map so_key so | _ => [] end = ["tip"; "a_wall"; "bore"]%string) by (vm_compute; reflexivity).
      rewrite Hs in H. exact H.
    + assert (H : match save_h5 pipe2 with Ok f => match load_h5 f with Ok s => match solids_of s with Ok so => map so_key so | _ => [] end | _ => [] end | _ => [] end
         = ["a_wall"; "bore"; "tip"]%string) by (vm_compute; reflexivity).
      rewrite Hf, L, S' in H. exact H.
Qed.
