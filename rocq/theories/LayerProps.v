(** Properties C26, C31, C32, C35 with absorbing walls, and C133: solids that reach into the absorbing layers. *)
From Coq Require Import List Arith ZArith Bool String Lia QArith Qcanon.
From Verif Require Import Num Vec FieldModel FieldSpec GridModel GridProofs SolverModel SolverPlanes SolverKern SolverCons
  SolverSpec SolverFlux SolverEnergy SolverOps SolverFrozen SolverLocal SolverRestart SolverMaxwell SolverNames
  SolverKit SolverProps SolverProps2 SolverPmlSpec SolverLayers.
Import ListNotations.
Open Scope nat_scope.

(** C35, with room for the layers asked only along the axes that have an absorbing wall. *)
Theorem C35_walls : forall (T : Type) (NT : Num T) (LT : NumLaws T) (OT : NumOrd T) env g g' ar (s : Solver T) g2' ar2 s2,
  made env g g' ar s -> made env g g2' ar2 s2 ->
  ar_bg ar2 = ar_bg ar -> ar_solids ar2 = ar_solids ar -> spml s2 = false ->
  layers_room env (ar_npml ar) (sbl s) (sbh s) (gNx g) (gNy g) (gNz g) ->
  forall c i j k, c < 3 -> i < gNx g -> j < gNy g -> k < gNz g ->
    (outside (ar_npml ar) (sbl s) (sbh s) (gNx g) (gNy g) (gNz g) i j k ->
       entry (sieps s) c i j k = entry (sieps s2) c i j k /\ entry (ssigma s) c i j k = entry (ssigma s2) c i j k) /\
    (forall f, decided_by (ar_npml ar) (sbl s) (sbh s) (gNx g) (gNy g) (gNz g) f i j k ->
       entry (sieps s) c i j k = entry3 (sieps s2) c (ref_cell (ar_npml ar) (gNx g) (gNy g) (gNz g) f) /\
       entry (ssigma s) c i j k = graded (entry3 (ssigma s2) c (ref_cell (ar_npml ar) (gNx g) (gNy g) (gNz g) f))
                                    (profile env (ar_npml ar) f (depth (gNx g) (gNy g) (gNz g) f i j k))).
Proof. exact (fun T NT LT OT => @made_layers_wide T NT LT OT). Qed.
Print Assumptions C35_walls.

(** C31 with absorbing walls: outside the layers each cell has the permittivity of the last solid covering it. *)
Theorem C31_outside_layers : forall (T : Type) (NT : Num T) (LT : NumLaws T) (OT : NumOrd T) env g g' ar (s : Solver T) i j k m e,
  made env g g' ar s -> layers_room env (ar_npml ar) (sbl s) (sbh s) (gNx g) (gNy g) (gNz g) ->
  i < gNx g -> j < gNy g -> k < gNz g ->
  outside (ar_npml ar) (sbl s) (sbh s) (gNx g) (gNy g) (gNz g) i j k ->
  decides (gNy g) (gNz g) (ar_bg ar) (ar_solids ar) i j k m -> find_material m = Ok e ->
  forall c, c < 3 -> is_inverse (entry (sieps s) c i j k) (me_eps e) (e_eps0 env).
Proof. exact (fun T NT LT OT => @cell_eps_outside T NT LT OT). Qed.
Print Assumptions C31_outside_layers.

(** C32 with absorbing walls. *)
Theorem C32_outside_layers_partial : forall (T : Type) (NT : Num T) (LT : NumLaws T) (OT : NumOrd T) env g g' ar (s : Solver T) i j k m e ebg,
  made env g g' ar s -> layers_room env (ar_npml ar) (sbl s) (sbh s) (gNx g) (gNy g) (gNz g) ->
  i < gNx g -> j < gNy g -> k < gNz g ->
  outside (ar_npml ar) (sbl s) (sbh s) (gNx g) (gNy g) (gNz g) i j k ->
  decides (gNy g) (gNz g) (ar_bg ar) (ar_solids ar) i j k m -> find_material m = Ok e ->
  find_material (ar_bg ar) = Ok ebg ->
  ((exists b, me_sigma ebg = Some b /\ nltb nzero b = true) \/
   forall so e', In so (ar_solids ar) -> marked (gNy g) (gNz g) so i j k ->
     find_material (so_mat so) = Ok e' -> me_sigma e' <> None) ->
  forall c, c < 3 -> entry (ssigma s) c i j k = match me_sigma e with Some x => x | None => nzero end.
Proof. exact (fun T NT LT OT => @cell_sigma_outside T NT LT OT). Qed.
Print Assumptions C32_outside_layers_partial.

(** C26 with absorbing walls: in conductors outside the layers E does not change. *)
Theorem C26_outside_layers : forall (T : Type) (NT : Num T) (LT : NumLaws T) (OT : NumOrd T) env g g' ar (s : Solver T) h s' i j k m d,
  made env g g' ar s -> layers_room env (ar_npml ar) (sbl s) (sbh s) (gNx g) (gNy g) (gNz g) ->
  outside (ar_npml ar) (sbl s) (sbh s) (gNx g) (gNy g) (gNz g) i j k ->
  run s h = Ok s' -> in_box (gNx g) (gNy g) (gNz g) d i j k ->
  decides (gNy g) (gNz g) (ar_bg ar) (ar_solids ar) i j k (MName m) -> lower m = "pec"%string ->
  Forall keeps_E h ->
  (sstep0 s = false \/ ~ ghost_edge (gNx g) (gNy g) (gNz g) d i j k \/ entry (sE s) d i j k = nzero) ->
  entry (sE s') d i j k = entry (sE s) d i j k.
Proof.
  intros T NT LT OT env g g' ar s h s' i j k m d Hm Rm Ho Hr Hin Hd Hl Hh Hf. pose proof Hin as (Hc & Hi & Hj & Hk).
  eapply frozen_zero; try eassumption; [|eapply cell_eps_outside; try eassumption; apply pec_name, Hl]. reflexivity.
Qed.
Print Assumptions C26_outside_layers.

(** C133.  Full claim: a solid that reaches into an absorbing layer keeps its permittivity there, in particular a
    conductor stays one.  False: a plate of perfect conductor parallel to the z axis (cells with i = 1 of a box of
    4x4x6 cells, two layers at each z end).  After writing H and one step, E is zero on the plate between the
    layers and not on the plate inside a layer. *)
Definition envG : Env Qc :=
  {| e_eps0 := q 1 1; e_mu0 := q 1 1; e_c := q 1 1; e_pml_lo := q 1 200; e_pml_hi := q 10 1;
     e_sqrt := fun x => x; e_geom := fun a b n => tab n (fun i => if i =? 0 then a else b) |}.
Definition four : list Qc := [q 0 1; q 1 1; q 2 1; q 3 1; q 4 1].
Definition six' : list Qc := [q 0 1; q 1 1; q 2 1; q 3 1; q 4 1; q 5 1; q 6 1].
Definition zends : bc3 := {| bcx := "pec"; bcy := "pec"; bcz := "pml" |}.
Definition platemask (at_i : nat) : list bool := tab 96 (fun n => n / 24 =? at_i).
Definition plate_in (bg : material Qc) (at_i : nat) : Args Qc :=
  {| ar_bl := zends; ar_bh := zends; ar_bg := bg;
     ar_solids := [{| so_key := "plate"; so_mask := platemask at_i; so_mat := MName "pec" |}];
     ar_npml := 2; ar_cfln := q 1 2; ar_dt := Some (q 1 4); ar_mpi := None |}.
Definition plateA : nat -> Args Qc := plate_in vac.
Definition lossy : material Qc := MList (Fin (q 1 1)) (Fin (q 1 1)) (Some (q 1 2)).
Definition hill : list Qc := tab 288 (fun n => q (Z.of_nat (n * n) mod 17)%Z 1).

Definition gridP : Grid Qc := match compute_grid four four six' with Ok g => g | Err _ => gridQ end.
Lemma gridP_ok : compute_grid four four six' = Ok gridP.
Proof.
  assert (H : match compute_grid four four six' with Ok _ => true | Err _ => false end = true) by (vm_compute; reflexivity).
  unfold gridP. destruct (compute_grid four four six'); [reflexivity|discriminate].
Qed.
Lemma gridP_obj : grid_obj envG gridP. Proof. exact (go_axes envG _ _ _ _ gridP_ok). Qed.
Lemma dimsP : gNx gridP = 4 /\ gNy gridP = 4 /\ gNz gridP = 6.
Proof. vm_compute. auto. Qed.
Lemma plate_walls bg at_i g' s : made envG gridP g' (plate_in bg at_i) s -> sbl s = zends /\ sbh s = zends.
Proof. intros Hm. destruct (made_values _ _ _ _ _ Hm) as (M & bo & _ & _ & W & _). injection W as W1 W2. auto. Qed.

Lemma plate_decides bg at_i i j k : at_i < 4 -> i = at_i -> j < 4 -> k < 6 ->
  decides 4 6 bg (ar_solids (plate_in bg at_i)) i j k (MName "pec").
Proof.
  intros Ha -> Hj Hk. left. exists [], (nth 0 (ar_solids (plate_in bg at_i)) {| so_key := ""; so_mask := []; so_mat := vac |}), [].
  split; [reflexivity|]. split; [|split; [intros t []|reflexivity]].
  do 4 (destruct at_i as [|at_i]; [do 4 (destruct j as [|j]; [do 6 (destruct k as [|k]; [vm_compute; reflexivity|]); lia|]); lia|]). lia.
Qed.

Theorem C133_layers_refuted : exists g' s s',
  compute_grid four four six' = Ok gridP /\ construct envG gridP (plateA 1) = Ok (s, g') /\ run s [OWriteH hill; OStep] = Ok s' /\
  decides 4 6 vac (ar_solids (plateA 1)) 1 1 1 (MName "pec") /\ decides 4 6 vac (ar_solids (plateA 1)) 1 1 3 (MName "pec") /\
  (forall d, d < 3 -> entry (sE s) d 1 1 1 = q 0 1) /\
  (forall d, d < 3 -> entry (sE s') d 1 1 3 = q 0 1) /\ entry (sE s') 1 1 1 1 = q 4 5 /\ entry (sE s') 2 1 1 1 = q (-21) 10.
Proof.
  assert (H : simulate envG gridP (plateA 1) [([OWriteH hill; OStep],
    [(0, (0, 1, 1, 3), q 0 1); (0, (1, 1, 1, 3), q 0 1); (0, (2, 1, 1, 3), q 0 1); (0, (1, 1, 1, 1), q 4 5); (0, (2, 1, 1, 1), q (-21) 10)])] = true)
    by (vm_compute; reflexivity).
  destruct (simulated _ _ _ _ gridP_obj H) as (s & g' & Hc & Hm & F).
  inversion F as [|? ? [s' [R O]] _]; subst. cbn [fst snd] in *. exists g', s, s'.
  inversion O as [|? ? O1 P1]; subst. inversion P1 as [|? ? O2 P2]; subst. inversion P2 as [|? ? O3 P3]; subst.
  inversion P3 as [|? ? O4 P4]; subst. inversion P4 as [|? ? O5 _]; subst. cbn [holds sel] in O1, O2, O3, O4, O5.
  split; [exact gridP_ok|]. split; [exact Hc|]. split; [exact R|].
  split; [apply plate_decides; lia|]. split; [apply plate_decides; lia|]. split.
  { intros d Hd. destruct (construct_new _ _ _ _ _ gridP_obj Hc) as (-> & _). destruct dimsP as (-> & -> & ->).
    rewrite entry_zeros by (repeat split; lia). reflexivity. }
  split; [intros [|[|[|d]]] Hd; [exact O1|exact O2|exact O3|lia]|]. auto.
Qed.
Print Assumptions C133_layers_refuted.

(** What holds: whatever solids cover a cell of a layer, its permittivity is that of the material deciding
    the reference cell of the wall. *)
Theorem C133_permittivity_partial : forall (T : Type) (NT : Num T) (LT : NumLaws T) (OT : NumOrd T) env g g' ar (s : Solver T) f i j k m e,
  made env g g' ar s -> layers_room env (ar_npml ar) (sbl s) (sbh s) (gNx g) (gNy g) (gNz g) ->
  i < gNx g -> j < gNy g -> k < gNz g ->
  decided_by (ar_npml ar) (sbl s) (sbh s) (gNx g) (gNy g) (gNz g) f i j k ->
  decides3 (gNy g) (gNz g) (ar_bg ar) (ar_solids ar) (ref_cell (ar_npml ar) (gNx g) (gNy g) (gNz g) f) m -> find_material m = Ok e ->
  forall c, c < 3 -> is_inverse (entry (sieps s) c i j k) (me_eps e) (e_eps0 env).
Proof. exact (fun T NT LT OT => @cell_eps_layer T NT LT OT). Qed.
Print Assumptions C133_permittivity_partial.

(** So a solid keeps its permittivity in the layer if it has the material of the reference cell, and a wall whose
    reference cell lies in a conductor does not absorb: E never changes anywhere in its layer. *)
Theorem C133_same_material_partial : forall (T : Type) (NT : Num T) (LT : NumLaws T) (OT : NumOrd T) env g g' ar (s : Solver T) f i j k m e,
  made env g g' ar s -> layers_room env (ar_npml ar) (sbl s) (sbh s) (gNx g) (gNy g) (gNz g) ->
  i < gNx g -> j < gNy g -> k < gNz g ->
  decided_by (ar_npml ar) (sbl s) (sbh s) (gNx g) (gNy g) (gNz g) f i j k ->
  decides (gNy g) (gNz g) (ar_bg ar) (ar_solids ar) i j k m ->
  decides3 (gNy g) (gNz g) (ar_bg ar) (ar_solids ar) (ref_cell (ar_npml ar) (gNx g) (gNy g) (gNz g) f) m -> find_material m = Ok e ->
  forall c, c < 3 -> is_inverse (entry (sieps s) c i j k) (me_eps e) (e_eps0 env) /\
                     is_inverse (entry (simu s) c i j k) (me_mu e) (e_mu0 env).
Proof.
  intros T NT LT OT env g g' ar s f i j k m e Hm Rm Hi Hj Hk Hdc Hd Hr Hf c Hc. split.
  - eapply cell_eps_layer; eassumption.
  - eapply cell_mu; eassumption.
Qed.
Print Assumptions C133_same_material_partial.

Theorem C133_dead_layer : forall (T : Type) (NT : Num T) (LT : NumLaws T) (OT : NumOrd T) env g g' ar (s : Solver T) h s' f i j k m d,
  made env g g' ar s -> layers_room env (ar_npml ar) (sbl s) (sbh s) (gNx g) (gNy g) (gNz g) ->
  decided_by (ar_npml ar) (sbl s) (sbh s) (gNx g) (gNy g) (gNz g) f i j k ->
  decides3 (gNy g) (gNz g) (ar_bg ar) (ar_solids ar) (ref_cell (ar_npml ar) (gNx g) (gNy g) (gNz g) f) (MName m) -> lower m = "pec"%string ->
  run s h = Ok s' -> in_box (gNx g) (gNy g) (gNz g) d i j k -> Forall keeps_E h ->
  (sstep0 s = false \/ ~ ghost_edge (gNx g) (gNy g) (gNz g) d i j k \/ entry (sE s) d i j k = nzero) ->
  entry (sE s') d i j k = entry (sE s) d i j k.
Proof.
  intros T NT LT OT env g g' ar s h s' f i j k m d Hm Rm Hdc Hd Hl Hr Hin Hh Hf. pose proof Hin as (Hc & Hi & Hj & Hk).
  eapply frozen_zero; try eassumption; [|eapply cell_eps_layer; try eassumption; apply pec_name, Hl]. reflexivity.
Qed.
Print Assumptions C133_dead_layer.

(** The plate box meets the hypotheses, with 4 cells where there is no absorbing wall. *)
Lemma plate_room : layers_room envG 2 zends zends 4 4 6.
Proof.
  split; [intros a b m; apply tab_length|]. split; [lia|].
  intros [h [|[|[|a]]]] Ha Hn; cbn [snd] in Ha; [destruct h; discriminate|destruct h; discriminate|cbn; lia|lia].
Qed.
Lemma plate_layer i j k : k < 2 -> decided_by 2 zends zends 4 4 6 (false, 2) i j k.
Proof.
  intros Hk. exists [(false, 0); (false, 1)], [(true, 0); (true, 1); (true, 2)]. split; [reflexivity|]. split; [split; [reflexivity|cbn; lia]|].
  intros f Hf [Hn A]. cbn in Hf. repeat (destruct Hf as [<- | Hf]; [first [discriminate Hn|unfold depth in A; cbn [fst snd dim coord] in A; lia]|]). destruct Hf.
Qed.
Lemma plate_between i j k : 2 <= k -> k < 4 -> outside 2 zends zends 4 4 6 i j k.
Proof.
  intros Hk Hk' f Hf [Hn A]. cbn in Hf. repeat (destruct Hf as [<- | Hf]; [first [discriminate Hn|unfold depth in A; cbn [fst snd dim coord] in A; lia]|]). destruct Hf.
Qed.

(** Plate at i = 1: outside the layers it is a conductor, at the reference cell (2,2,3) there is vacuum. *)
Example C133_case : exists g' s, made envG gridP g' (plateA 1) s /\ layers_room envG 2 (sbl s) (sbh s) 4 4 6 /\
  ref_cell 2 4 4 6 (false, 2) = (2, 2, 3) /\ decides3 4 6 vac (ar_solids (plateA 1)) (2, 2, 3) vac /\
  decided_by 2 (sbl s) (sbh s) 4 4 6 (false, 2) 1 1 1 /\ outside 2 (sbl s) (sbh s) 4 4 6 1 1 3 /\
  decides 4 6 vac (ar_solids (plateA 1)) 1 1 1 (MName "pec") /\ decides 4 6 vac (ar_solids (plateA 1)) 1 1 3 (MName "pec") /\
  entry (sieps s) 0 1 1 1 = q 1 1 /\ entry (sieps s) 0 1 1 3 = q 0 1.
Proof.
  assert (H : simulate2 envG gridP (plateA 1) (fun s _ => neqb (entry (sieps s) 0 1 1 1) (q 1 1) && neqb (entry (sieps s) 0 1 1 3) (q 0 1)) [] = true)
    by (vm_compute; reflexivity).
  destruct (simulated2 _ _ _ _ _ gridP_obj H) as (s & g' & Hc & Hm & Hk & _). apply andb_prop in Hk. destruct Hk as [H1 H2].
  destruct (plate_walls _ _ _ _ Hm) as [Bl Bh]. exists g', s. split; [exact Hm|]. rewrite Bl, Bh.
  split; [exact plate_room|]. split; [reflexivity|]. split.
  { right. split; [|reflexivity]. intros t [<-|[]]. vm_compute. discriminate. }
  split; [apply plate_layer; lia|]. split; [apply plate_between; lia|].
  split; [apply plate_decides; lia|]. split; [apply plate_decides; lia|]. split; apply neqb_eq; assumption.
Qed.
(** A wall whose reference cell is a conductor in an otherwise lossless box: no cell has both a conductivity and a
    finite permittivity, and the constructor fails. *)
Theorem C133_conductor_behind_refuted : exists (ar : Args Qc), ar_solids ar = ar_solids (plateA 2) /\ ar_bg ar = vac /\
  decides3 4 6 vac (ar_solids (plateA 2)) (ref_cell 2 4 4 6 (false, 2)) (MName "pec") /\
  construct envG gridP ar = Err ValueError.
Proof.
  exists (plateA 2). split; [reflexivity|]. split; [reflexivity|]. split; [cbn; apply plate_decides; lia|].
  assert (H : match construct envG gridP (plateA 2) with Err ValueError => true | _ => false end = true) by (vm_compute; reflexivity).
  destruct (construct envG gridP (plateA 2)) as [|[]]; try discriminate. reflexivity.
Qed.
Print Assumptions C133_conductor_behind_refuted.
(** The same plate in a lossy box: the layer is frozen; between the layers E next to the plate moves. *)
Example C133_dead_case : exists g' s s', made envG gridP g' (plate_in lossy 2) s /\ run s [OWriteH hill; OStep] = Ok s' /\
  layers_room envG 2 (sbl s) (sbh s) 4 4 6 /\ Forall keeps_E [OWriteH hill; OStep] /\
  decides3 4 6 lossy (ar_solids (plate_in lossy 2)) (ref_cell 2 4 4 6 (false, 2)) (MName "pec") /\
  decided_by 2 (sbl s) (sbh s) 4 4 6 (false, 2) 1 1 1 /\ ~ ghost_edge 4 4 6 1 1 1 1 /\
  entry (sE s') 1 1 1 1 = q 0 1 /\ entry (sE s') 1 1 1 3 = q (-9) 2.
Proof.
  assert (H : simulate envG gridP (plate_in lossy 2) [([OWriteH hill; OStep], [(0, (1, 1, 1, 1), q 0 1); (0, (1, 1, 1, 3), q (-9) 2)])] = true)
    by (vm_compute; reflexivity).
  destruct (simulated _ _ _ _ gridP_obj H) as (s & g' & Hc & Hm & F).
  inversion F as [|? ? [s' [R O]] _]; subst. cbn [fst snd] in *. exists g', s, s'.
  inversion O as [|? ? O1 P1]; subst. inversion P1 as [|? ? O2 _]; subst. cbn [holds sel] in O1, O2.
  destruct (plate_walls _ _ _ _ Hm) as [Bl Bh]. split; [exact Hm|]. split; [exact R|]. rewrite Bl, Bh. split; [exact plate_room|].
  split; [repeat constructor|]. split; [cbn; apply plate_decides; lia|]. split; [apply plate_layer; lia|].
  split; [unfold ghost_edge; cbn; lia|]. auto.
Qed.
