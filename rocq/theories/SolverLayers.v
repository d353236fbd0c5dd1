(** Lemmas: solids and conductors of solvers with absorbing layers. *)
From Coq Require Import List Arith ZArith Bool String Lia.
From Verif Require Import Num Vec Index Matrix FieldModel FieldSpec FieldProofs FieldProofs2
  GridModel GridProofs SolverModel SolverPlanes SolverBuild SolverMaterials SolverKern SolverCons SolverSpec
  SolverFlux SolverEnergy SolverOps SolverFrozen SolverLocal SolverRestart SolverNames SolverTime SolverPmlSpec SolverPml SolverConstruct.
Import ListNotations.

Section LayersSpec.
  Context {T : Type} {NT : Num T} {OT : NumOrd T}.
  (** geomspace(.., n) has n entries, there is a layer, and along every axis that has an absorbing wall
      there are at least 2n+2 cells.  Axes without such walls may have any number of cells. *)
  Definition layers_room (env : Env T) (n : nat) (bl bh : bc3) (Nx Ny Nz : nat) : Prop :=
    (forall a b m, List.length (e_geom env a b m) = m) /\ 1 <= n /\
    forall f, snd f < 3 -> lower (wall_name bl bh f) = "pml"%string -> 2 * n + 2 <= dim (snd f) Nx Ny Nz.
  Definition decides3 (Ny Nz : nat) (bg : material T) (so : list (solid T)) (p : nat * nat * nat) (m : material T) : Prop :=
    let '(i, j, k) := p in decides Ny Nz bg so i j k m.
End LayersSpec.

Section Layers.
  Context {T : Type} {NT : Num T} {LT : NumLaws T} {OT : NumOrd T}.

  Lemma fill_wide (env : Env T) n bl bh Nx Ny Nz ie sg : layers_room env n bl bh Nx Ny Nz ->
    (forall a, a < 3 -> 1 <= dim a Nx Ny Nz) -> sized ie Nx Ny Nz -> sized sg Nx Ny Nz ->
    exists ie' sg', fill_pml env n bl bh ie sg = Ok (ie', sg') /\ sized ie' Nx Ny Nz /\ sized sg' Nx Ny Nz /\
      forall c i j k, c < 3 -> i < Nx -> j < Ny -> k < Nz ->
        (outside n bl bh Nx Ny Nz i j k ->
           entry ie' c i j k = entry ie c i j k /\ entry sg' c i j k = entry sg c i j k) /\
        (forall f, decided_by n bl bh Nx Ny Nz f i j k ->
           entry ie' c i j k = entry3 ie c (ref_cell n Nx Ny Nz f) /\
           entry sg' c i j k = graded (entry3 sg c (ref_cell n Nx Ny Nz f)) (profile env n f (depth Nx Ny Nz f i j k))).
  Proof.
    intros (Gl & Np & Rm) Hs. assert (Rm' : forall f, snd f < 3 -> named (wall_name bl bh f) "pml" = true -> 2 * n + 2 <= dim (snd f) Nx Ny Nz).
    { intros f Hf Hn. apply Rm; [exact Hf|]. apply String.eqb_eq. exact Hn. }
    apply fill_gen; try assumption.
    - intros f Hf Hn. pose proof (Rm' f Hf Hn). lia.
    - intros f f' Hf Hf' Hn Hn'. pose proof (Rm' f Hf Hn) as R1. pose proof (Rm' f' Hf' Hn') as R2. clear Rm Rm' Gl.
      pose proof (Hs 0 ltac:(lia)) as Cx. pose proof (Hs 1 ltac:(lia)) as Cy. pose proof (Hs 2 ltac:(lia)) as Cz. cbn [dim] in Cx, Cy, Cz. clear Hs Hn Hn'.
      destruct f as [h a], f' as [h' a']. cbn [snd] in *. unfold ref_cell, depth. cbn [fst snd].
      assert (HX := half_room n Nx). assert (HY := half_room n Ny). assert (HZ := half_room n Nz).
      destruct a as [|[|[|a]]]; [| | |lia]; destruct a' as [|[|[|a']]]; try lia;
        destruct h, h'; cbn [set_coord dim coord] in *; try lia.
  Qed.

  Lemma grid_cells env (g : Grid T) : grid_obj env g -> forall a, a < 3 -> 1 <= dim a (gNx g) (gNy g) (gNz g).
  Proof.
    intros H. destruct (grid_obj_ok env g H) as (HX & HY & HZ & _). intros [|[|[|a]]] Ha; cbn [dim]; lia.
  Qed.

  (** Materials of a solver against the maps written by the materials and solids. *)
  Lemma made_filled env g g' ar (s : Solver T) : made env g g' ar s ->
    layers_room env (ar_npml ar) (sbl s) (sbh s) (gNx g) (gNy g) (gNz g) ->
    exists M p, build_materials env (gNx g) (gNy g) (gNz g) (ar_bg ar) p (ar_solids ar) = Ok M /\
    forall c i j k, c < 3 -> i < gNx g -> j < gNy g -> k < gNz g ->
      (outside (ar_npml ar) (sbl s) (sbh s) (gNx g) (gNy g) (gNz g) i j k ->
         entry (sieps s) c i j k = entry (mt_ieps M) c i j k /\ entry (ssigma s) c i j k = entry (mt_sigma M) c i j k) /\
      (forall f, decided_by (ar_npml ar) (sbl s) (sbh s) (gNx g) (gNy g) (gNz g) f i j k ->
         entry (sieps s) c i j k = entry3 (mt_ieps M) c (ref_cell (ar_npml ar) (gNx g) (gNy g) (gNz g) f) /\
         entry (ssigma s) c i j k = graded (entry3 (mt_sigma M) c (ref_cell (ar_npml ar) (gNx g) (gNy g) (gNz g) f))
                                           (profile env (ar_npml ar) f (depth (gNx g) (gNy g) (gNz g) f i j k))).
  Proof.
    intros Hm Rm.
    destruct (made_conf _ _ _ _ _ Hm) as (s0 & Hg & Hco & A1 & _ & A3 & _ & _ & A6 & A7 & A8 & _).
    destruct (construct_spec env g ar s0 g' (grid_obj_ok env g Hg) Hco) as
      (bo & M & Hbo & Hbc & HM & (S1 & _ & S3) & Hms & _ & _ & _ & _ & _ & _ & _ & _ & _ & _ & _ & _ & Ep & _).
    exists M, (bo_pml bo). split; [exact HM|]. intros c i j k Hc Hi Hj Hk. rewrite A1, A3. rewrite A6, A7 in Rm |- *.
    destruct (bo_pml bo) eqn:Eq.
    - destruct (fill_wide env (ar_npml ar) (sbl s0) (sbh s0) _ _ _ _ _ Rm (grid_cells env g Hg) S1 S3) as (ie & sg & E & _ & _ & A).
      rewrite Hms in E. injection E as -> ->. exact (A c i j k Hc Hi Hj Hk).
    - injection Hms as <- <-. split; [auto|].
      intros f (l1 & l2 & El & Hcv & _). exfalso.
      destruct (apply_bc_spec g (sbl s0) (sbh s0) (grid_obj_ok env g Hg)) as (bo' & Fr & Fc & Hbo' & _ & _ & _ & _ & _ & _ & _ & Ep').
      rewrite Hbo in Hbo'. injection Hbo' as <-. rewrite Eq in Ep'.
      refine (outside_none (sbl s0) (sbh s0) (ar_npml ar) (gNx g) (gNy g) (gNz g) i j k _ f _ Hcv); [symmetry; exact Ep'|].
      rewrite El. apply in_or_app. right. left. reflexivity.
  Qed.

  Lemma made_layers_wide env g g' ar (s : Solver T) g2' ar2 s2 : made env g g' ar s -> made env g g2' ar2 s2 ->
    ar_bg ar2 = ar_bg ar -> ar_solids ar2 = ar_solids ar -> spml s2 = false ->
    layers_room env (ar_npml ar) (sbl s) (sbh s) (gNx g) (gNy g) (gNz g) ->
    forall c i j k, c < 3 -> i < gNx g -> j < gNy g -> k < gNz g ->
      (outside (ar_npml ar) (sbl s) (sbh s) (gNx g) (gNy g) (gNz g) i j k ->
         entry (sieps s) c i j k = entry (sieps s2) c i j k /\ entry (ssigma s) c i j k = entry (ssigma s2) c i j k) /\
      (forall f, decided_by (ar_npml ar) (sbl s) (sbh s) (gNx g) (gNy g) (gNz g) f i j k ->
         entry (sieps s) c i j k = entry3 (sieps s2) c (ref_cell (ar_npml ar) (gNx g) (gNy g) (gNz g) f) /\
         entry (ssigma s) c i j k = graded (entry3 (ssigma s2) c (ref_cell (ar_npml ar) (gNx g) (gNy g) (gNz g) f))
                                           (profile env (ar_npml ar) f (depth (gNx g) (gNy g) (gNz g) f i j k))).
  Proof.
    intros Hm Hm2 Eb Es Hp2 Rm. destruct (made_filled _ _ _ _ _ Hm Rm) as (M & p & HM & A).
    destruct (made_values _ _ _ _ _ Hm2) as (M2 & bo2 & _ & HM2 & _ & _ & _ & _ & _ & V2).
    destruct (V2 Hp2) as [B1 B3]. rewrite Eb, Es in HM2.
    destruct (build_maps _ _ _ _ _ _ _ _ _ _ HM HM2) as (C1 & _ & C3). rewrite B1, B3, <- C1, <- C3. exact A.
  Qed.

  (** Reference cells are cells of the grid. *)
  Lemma ref_in env n bl bh (g : Grid T) f : grid_obj env g -> layers_room env n bl bh (gNx g) (gNy g) (gNz g) ->
    snd f < 3 -> lower (wall_name bl bh f) = "pml"%string ->
    let '(i, j, k) := ref_cell n (gNx g) (gNy g) (gNz g) f in i < gNx g /\ j < gNy g /\ k < gNz g.
  Proof.
    intros Hg (_ & Np & Rm) Hf Hn. pose proof (Rm f Hf Hn) as R1. pose proof (grid_cells env g Hg) as Hs.
    pose proof (Hs 0 ltac:(lia)) as Cx. pose proof (Hs 1 ltac:(lia)) as Cy. pose proof (Hs 2 ltac:(lia)) as Cz. cbn [dim] in Cx, Cy, Cz.
    clear Rm Hs. generalize dependent (gNx g). generalize dependent (gNy g). generalize dependent (gNz g). intros Nz Cz Ny Cy Nx R1 Cx.
    pose proof (Nat.div_lt Nx 2 ltac:(lia) ltac:(lia)). pose proof (Nat.div_lt Ny 2 ltac:(lia) ltac:(lia)). pose proof (Nat.div_lt Nz 2 ltac:(lia) ltac:(lia)).
    destruct f as [h a]. cbn [snd] in *. unfold ref_cell. cbn [fst snd].
    destruct a as [|[|[|a]]]; [| | |lia]; destruct h; cbn [set_coord dim] in *; lia.
  Qed.

  Lemma decided_face n bl bh Nx Ny Nz f i j k : decided_by n bl bh Nx Ny Nz f i j k ->
    snd f < 3 /\ lower (wall_name bl bh f) = "pml"%string.
  Proof.
    intros (l1 & l2 & El & [Hn _] & _). split; [|exact Hn].
    assert (Hin : In f pml_faces) by (rewrite El; apply in_or_app; right; left; reflexivity).
    cbn in Hin. repeat (destruct Hin as [<-|Hin]; [cbn; lia|]). destruct Hin.
  Qed.

  Lemma cell_eps_outside env g g' ar (s : Solver T) i j k m e : made env g g' ar s ->
    layers_room env (ar_npml ar) (sbl s) (sbh s) (gNx g) (gNy g) (gNz g) ->
    i < gNx g -> j < gNy g -> k < gNz g ->
    outside (ar_npml ar) (sbl s) (sbh s) (gNx g) (gNy g) (gNz g) i j k ->
    decides (gNy g) (gNz g) (ar_bg ar) (ar_solids ar) i j k m -> find_material m = Ok e ->
    forall c, c < 3 -> is_inverse (entry (sieps s) c i j k) (me_eps e) (e_eps0 env).
  Proof.
    intros Hm Rm Hi Hj Hk Ho Hd Hf c Hc. destruct (made_filled _ _ _ _ _ Hm Rm) as (M & p & HM & A).
    destruct (build_values _ _ _ _ _ _ _ _ HM i j k Hi Hj Hk) as (e' & He' & V).
    rewrite (cell_material_decides _ _ _ _ _ _ _ _ Hd), Hf in He'. injection He' as <-.
    destruct (A c i j k Hc Hi Hj Hk) as [A1 _]. destruct (A1 Ho) as [-> _]. apply over_ext_inverse, V, Hc.
  Qed.

  Lemma cell_eps_layer env g g' ar (s : Solver T) f i j k m e : made env g g' ar s ->
    layers_room env (ar_npml ar) (sbl s) (sbh s) (gNx g) (gNy g) (gNz g) ->
    i < gNx g -> j < gNy g -> k < gNz g ->
    decided_by (ar_npml ar) (sbl s) (sbh s) (gNx g) (gNy g) (gNz g) f i j k ->
    decides3 (gNy g) (gNz g) (ar_bg ar) (ar_solids ar) (ref_cell (ar_npml ar) (gNx g) (gNy g) (gNz g) f) m -> find_material m = Ok e ->
    forall c, c < 3 -> is_inverse (entry (sieps s) c i j k) (me_eps e) (e_eps0 env).
  Proof.
    intros Hm Rm Hi Hj Hk Hdc Hd Hf c Hc. destruct (made_filled _ _ _ _ _ Hm Rm) as (M & p & HM & A).
    destruct (decided_face _ _ _ _ _ _ _ _ _ _ Hdc) as [Hs Hn].
    pose proof (ref_in env _ _ _ g f (made_grid _ _ _ _ _ Hm) Rm Hs Hn) as Ri.
    destruct (A c i j k Hc Hi Hj Hk) as [_ A2]. destruct (A2 f Hdc) as [-> _]. clear A A2 Hdc.
    destruct (ref_cell _ _ _ _ f) as [[ri rj] rk]. destruct Ri as (Ri & Rj & Rk). cbn [decides3 entry3] in *.
    destruct (build_values _ _ _ _ _ _ _ _ HM ri rj rk Ri Rj Rk) as (e' & He' & V).
    rewrite (cell_material_decides _ _ _ _ _ _ _ _ Hd), Hf in He'. injection He' as <-. apply over_ext_inverse, V, Hc.
  Qed.

  Lemma cell_sigma_outside env g g' ar (s : Solver T) i j k m e ebg : made env g g' ar s ->
    layers_room env (ar_npml ar) (sbl s) (sbh s) (gNx g) (gNy g) (gNz g) ->
    i < gNx g -> j < gNy g -> k < gNz g ->
    outside (ar_npml ar) (sbl s) (sbh s) (gNx g) (gNy g) (gNz g) i j k ->
    decides (gNy g) (gNz g) (ar_bg ar) (ar_solids ar) i j k m -> find_material m = Ok e ->
    find_material (ar_bg ar) = Ok ebg ->
    ((exists b, me_sigma ebg = Some b /\ nltb nzero b = true) \/
     forall so e', In so (ar_solids ar) -> marked (gNy g) (gNz g) so i j k ->
       find_material (so_mat so) = Ok e' -> me_sigma e' <> None) ->
    forall c, c < 3 -> entry (ssigma s) c i j k = match me_sigma e with Some x => x | None => nzero end.
  Proof.
    intros Hm Rm Hi Hj Hk Ho Hd Hf Hb Hcond c Hc. destruct (made_filled _ _ _ _ _ Hm Rm) as (M & p & HM & A).
    destruct (build_sigma _ _ _ _ _ _ _ _ _ HM Hb i j k Hi Hj Hk) as (e' & He' & V).
    { destruct Hcond as [Hq|Hq]; [left; exact Hq|right]. intros so e0 Hin Hmk. apply Hq; [exact Hin|]. apply marked_mask, Hmk. }
    rewrite (cell_material_decides _ _ _ _ _ _ _ _ Hd), Hf in He'. injection He' as <-.
    destruct (A c i j k Hc Hi Hj Hk) as [A1 _]. destruct (A1 Ho) as [_ ->]. apply V, Hc.
  Qed.

  Lemma frozen_zero env g g' ar (s : Solver T) h s' i j k e d : made env g g' ar s -> me_eps e = Inf ->
    is_inverse (entry (sieps s) d i j k) (me_eps e) (e_eps0 env) ->
    run s h = Ok s' -> in_box (gNx g) (gNy g) (gNz g) d i j k -> Forall keeps_E h ->
    (sstep0 s = false \/ ~ ghost_edge (gNx g) (gNy g) (gNz g) d i j k \/ entry (sE s) d i j k = nzero) ->
    entry (sE s') d i j k = entry (sE s) d i j k.
  Proof. intros Hm E Z Hr Hin Hh Hf. rewrite E in Z. eapply dead_E; try eassumption. Qed.

  Lemma pec_name m : lower m = "pec"%string ->
    find_material (MName m : material T) = Ok {| me_eps := Inf; me_mu := Fin none_; me_sigma := None |}.
  Proof. intros Hl. cbn [find_material]. rewrite Hl. reflexivity. Qed.
End Layers.
