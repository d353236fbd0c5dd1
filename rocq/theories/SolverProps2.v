(** Properties C24-C32: walls, boundary names, the grid object, materials of a cell. *)
From Coq Require Import List Arith ZArith Bool String Lia QArith Qcanon.
From Verif Require Import Num Vec FieldModel FieldSpec GridModel GridProofs SolverModel SolverPlanes SolverKern SolverCons
  SolverSpec SolverFlux SolverEnergy SolverOps SolverFrozen SolverLocal SolverRestart SolverMaxwell SolverNames
  SolverKit SolverProps.
Import ListNotations.
Open Scope nat_scope.

(** C24 *)
Theorem C24_pec_walls : forall (T : Type) (NT : Num T) (LT : NumLaws T) (OT : NumOrd T) env g g' ar (s s' : Solver T) h d i j k,
  made env g g' ar s -> run s h = Ok s' ->
  (forall a, a < 3 -> electric (bc_at (sbl s) a) /\ electric (bc_at (sbh s) a)) ->
  in_box (gNx g) (gNy g) (gNz g) d i j k -> tangential (gNx g) (gNy g) (gNz g) d i j k ->
  Forall (writes_zero (gNx g) (gNy g) (gNz g) d i j k) h ->
  entry (sE s) d i j k = nzero -> entry (sJ s) d i j k = nzero ->
  entry (sE s') d i j k = nzero.
Proof.
  intros. eapply wall_zero; try eassumption. apply all_electric_wall; assumption.
Qed.
Print Assumptions C24_pec_walls.

(** A run that writes everything except the walls; E inside becomes non-zero, E on the walls does not. *)
Definition inner_arr (m : Z) : list Qc :=
  tab 81 (fun n => if existsb (fun a => negb (n / 27 =? a) &&
      ((coord a (n mod 3) (n / 3 mod 3) (n / 9 mod 3) =? 0) || (coord a (n mod 3) (n / 3 mod 3) (n / 9 mod 3) =? 2)))
      [0; 1; 2] then q 0 1 else get (ramp m) n).
Example C24_case : exists g' s0 s', made envQ gridQ g' boxA s0 /\
  (forall a, a < 3 -> electric (bc_at (sbl s0) a) /\ electric (bc_at (sbh s0) a)) /\
  run s0 [OWriteE (inner_arr 3); OWriteH (ramp 5); OStep] = Ok s' /\
  Forall (writes_zero 3 3 3 1 0 1 1) [OWriteE (inner_arr 3); OWriteH (ramp 5); OStep] /\
  entry (sE s0) 1 0 1 1 = q 0 1 /\ entry (sE s') 1 0 1 1 = q 0 1 /\ entry (sE s') 0 1 1 1 <> q 0 1.
Proof.
  destruct boxA_case as (g' & s0 & s & Hc & R & Hs & _ & _ & El & _). exists g', s0.
  assert (H : simulate envQ gridQ boxA [([OWriteE (inner_arr 3); OWriteH (ramp 5); OStep],
    [(0, (1, 0, 1, 1), q 0 1); (0, (0, 1, 1, 1), q 1399 160)])] = true) by (vm_compute; reflexivity).
  destruct (simulated _ _ _ _ gridQ_obj H) as (s1 & g1 & Hc1 & Hm & F). rewrite Hc in Hc1. injection Hc1 as <- <-.
  inversion F as [|? ? [s' [R' O]] _]; subst. cbn [fst snd] in *. exists s'.
  destruct (run_conf _ _ _ _ _ _ _ Hm R) as (_ & _ & _ & _ & _ & Ebl & Ebh & _). rewrite Ebl, Ebh in El.
  inversion O as [|? ? O1 O']; subst. inversion O' as [|? ? O2 _]; subst. cbn [holds sel] in O1, O2.
  split; [exact Hm|]. split; [exact El|]. split; [exact R'|]. split.
  { repeat constructor; vm_compute; reflexivity. }
  split. { destruct (construct_new _ _ _ _ _ gridQ_obj Hc) as (-> & _). destruct dimsQ as (-> & -> & ->).
           rewrite entry_zeros by (repeat split; lia). reflexivity. }
  split; [exact O1|]. rewrite O2. intros E. apply (f_equal this) in E. vm_compute in E. discriminate.
Qed.

(** C25.  Full claim: a wall named electric keeps every tangential E at zero whatever the other
    walls are.  False: where two faces meet, the later axis in the order x, y, z decides. *)
Theorem C25_pec_wall_refuted : exists (g' : Grid Qc) s0 s' h,
  let bl := {| bcx := "electric"; bcy := "electric"; bcz := "periodic" |}%string in
  construct envQ gridQ (argsQ bl bl vac []) = Ok (s0, g') /\ run s0 h = Ok s' /\
  (forall d i j k, in_box 3 3 3 d i j k -> Forall (writes_zero 3 3 3 d i j k) h /\
     entry (sE s0) d i j k = q 0 1 /\ entry (sJ s0) d i j k = q 0 1) /\
  (* cell (0,1,0) lies on the low x wall, component y is tangential to it *)
  entry (sE s') 1 0 1 0 = q 2 3.
Proof.
  set (bl := {| bcx := "electric"; bcy := "electric"; bcz := "periodic" |}%string).
  assert (H : simulate envQ gridQ (argsQ bl bl vac []) [([OWriteH (ramp 5); OStep], [(0, (1, 0, 1, 0), q 2 3)])] = true)
    by (vm_compute; reflexivity).
  destruct (simulated _ _ _ _ gridQ_obj H) as (s0 & g' & Hc & Hm & F).
  inversion F as [|? ? [s' [R O]] _]; subst. cbn [fst snd] in *. exists g', s0, s', [OWriteH (ramp 5); OStep].
  split; [exact Hc|]. split; [exact R|]. split.
  - intros d i j k Hb. split; [repeat constructor|].
    destruct (construct_new _ _ _ _ _ gridQ_obj Hc) as (-> & _ & -> & _). destruct dimsQ as (-> & -> & ->).
    rewrite entry_zeros by exact Hb. auto.
  - inversion O; subst. assumption.
Qed.
Print Assumptions C25_pec_wall_refuted.

(** What holds: on an electric wall away from its edges, whatever the other walls are. *)
Theorem C25_pec_wall_partial : forall (T : Type) (NT : Num T) (LT : NumLaws T) (OT : NumOrd T) env g g' ar (s s' : Solver T)
    h a d i j k,
  made env g g' ar s -> run s h = Ok s' -> a < 3 -> a <> d ->
  (coord a i j k = 0 /\ 1 < dim a (gNx g) (gNy g) (gNz g) /\ electric (bc_at (sbl s) a) \/
   coord a i j k = dim a (gNx g) (gNy g) (gNz g) - 1 /\ electric (bc_at (sbh s) a)) ->
  (forall b, b < 3 -> b <> a -> b <> d -> 0 < coord b i j k /\ S (coord b i j k) < dim b (gNx g) (gNy g) (gNz g)) ->
  in_box (gNx g) (gNy g) (gNz g) d i j k ->
  Forall (writes_zero (gNx g) (gNy g) (gNz g) d i j k) h ->
  entry (sE s) d i j k = nzero -> entry (sJ s) d i j k = nzero ->
  entry (sE s') d i j k = nzero.
Proof.
  intros T NT LT OT env g g' ar s s' h a d i j k Hm R Ha Hne Hw Hin Hb Hz HE HJ.
  eapply wall_zero; try eassumption. eapply one_wall_interior; try eassumption. apply Hb.
Qed.
Print Assumptions C25_pec_wall_partial.

(** C26 *)
Theorem C26_pec_frozen : forall (T : Type) (NT : Num T) (LT : NumLaws T) (OT : NumOrd T) env g g' ar (s : Solver T) h s' i j k m d,
  made env g g' ar s -> spml s = false -> run s h = Ok s' -> in_box (gNx g) (gNy g) (gNz g) d i j k ->
  decides (gNy g) (gNz g) (ar_bg ar) (ar_solids ar) i j k (MName m) -> lower m = "pec"%string ->
  Forall keeps_E h ->
  (sstep0 s = false \/ ~ ghost_edge (gNx g) (gNy g) (gNz g) d i j k \/ entry (sE s) d i j k = nzero) ->
  entry (sE s') d i j k = entry (sE s) d i j k.
Proof. exact (fun T NT LT OT => @pec_frozen T NT LT OT). Qed.
Print Assumptions C26_pec_frozen.

(** A pec block in an open box; H is written and stepped, E at the block stays, next to it it moves. *)
Definition blockA : Args Qc := argsQ (bcs "open") (bcs "open") vac
  [{| so_key := "pipe"; so_mask := mask_at [0; 13]; so_mat := MName "dielectric" |};
   {| so_key := "block"; so_mask := mask_at [13]; so_mat := MName "PEC" |}].
Example C26_case : exists g' s0 s', made envQ gridQ g' blockA s0 /\ spml s0 = false /\
  run s0 [OWriteE (ramp 3); OStep; OWriteH (ramp 5); OStep] = Ok s' /\
  decides 3 3 vac (ar_solids blockA) 1 1 1 (MName "PEC") /\
  entry (sE s') 1 1 1 1 = get (ramp 3) (27 + 13) /\ entry (sE s') 1 1 1 0 <> get (ramp 3) (27 + 4).
Proof.
  assert (H : simulate2 envQ gridQ blockA (fun s _ => negb (spml s)) [([OWriteE (ramp 3); OStep; OWriteH (ramp 5); OStep],
    [(0, (1, 1, 1, 1), get (ramp 3) (27 + 13)); (0, (1, 1, 1, 0), q 5453 768)])] = true) by (vm_compute; reflexivity).
  destruct (simulated2 _ _ _ _ _ gridQ_obj H) as (s0 & g' & Hc & Hm & Hk & F).
  inversion F as [|? ? [s' [R O]] _]; subst. cbn [fst snd] in *. exists g', s0, s'.
  inversion O as [|? ? O1 O']; subst. inversion O' as [|? ? O2 _]; subst. cbn [holds sel] in O1, O2.
  split; [exact Hm|]. split; [destruct (spml s0); [discriminate|reflexivity]|]. split; [exact R|]. split.
  - left. exists [{| so_key := "pipe"; so_mask := mask_at [0; 13]; so_mat := MName "dielectric" |}].
    eexists; exists []. split; [reflexivity|]. split; [vm_compute; reflexivity|]. split; [intros t []|reflexivity].
  - split; [exact O1|]. rewrite O2. intros E. apply (f_equal this) in E. vm_compute in E. discriminate.
Qed.

(** C27.  Full claim: with periodic x walls the last x layer couples to the first x layer of the
    same row (array position 66 is Ez at (0,1,1)).  False: E at (0,1,1) does not reach H at (2,1,1) but H at (2,0,1), one row before. *)
Theorem C27_periodic_refuted : exists (g' : Grid Qc) s0 s',
  let bl := {| bcx := "periodic"; bcy := "electric"; bcz := "electric" |}%string in
  let e := tab 81 (fun n => if n =? 66 then q 1 1 else q 0 1) in
  construct envQ gridQ (argsQ bl bl vac []) = Ok (s0, g') /\ run s0 [OWriteE e; OStep] = Ok s' /\
  (forall d, d < 3 -> entry (sH s') d 2 1 1 = q 0 1) /\ entry (sH s') 1 2 0 1 = q 1 4.
Proof.
  set (bl := {| bcx := "periodic"; bcy := "electric"; bcz := "electric" |}%string).
  set (e := tab 81 (fun n => if n =? 66 then q 1 1 else q 0 1)).
  assert (H : simulate envQ gridQ (argsQ bl bl vac []) [([OWriteE e; OStep],
    [(1, (0, 2, 1, 1), q 0 1); (1, (1, 2, 1, 1), q 0 1); (1, (2, 2, 1, 1), q 0 1); (1, (1, 2, 0, 1), q 1 4)])] = true)
    by (vm_compute; reflexivity).
  destruct (simulated _ _ _ _ gridQ_obj H) as (s0 & g' & Hc & Hm & F).
  inversion F as [|? ? [s' [R O]] _]; subst. cbn [fst snd] in *. exists g', s0, s'.
  split; [exact Hc|]. split; [exact R|].
  inversion O as [|? ? O1 P1]; subst. inversion P1 as [|? ? O2 P2]; subst. inversion P2 as [|? ? O3 P3]; subst.
  inversion P3 as [|? ? O4 _]; subst. cbn [holds sel] in *. split; [|exact O4].
  intros d Hd. destruct d as [|[|[|d]]]; [assumption..|lia].
Qed.
Print Assumptions C27_periodic_refuted.

(** What the update does, for every solver without magnetic walls: on the last x layer of row
    (j,k) both x differences reach the first x layer of row (j+1,k). *)
Theorem C27_wraps_to_next_row : forall (T : Type) (NT : Num T) (LT : NumLaws T) (OT : NumOrd T) env g g' ar (s s' : Solver T) V j k,
  made env g g' ar s -> one_step s = Ok s' ->
  (sstep0 s = false \/ ghosts_zero (gNx g) (gNy g) (gNz g) (entry (sE s)) (entry (sH s))) ->
  (forall a, a < 3 -> ~ magnetic (bc_at (sbl s) a) /\ ~ magnetic (bc_at (sbh s) a)) ->
  voltage g s V -> 0 < gNx g -> S j < gNy g -> S k < gNz g ->
  (let i := (gNx g - 1)%nat in
   entry (sH s') 1 i j k = entry (sH s) 1 i j k - sdt s * (entry (giA g) 1 i j k * entry (simu s) 1 i j k *
     ((V 0%nat i j (S k) - V 0%nat i j k) - (V 2%nat 0%nat (S j) k - V 2%nat i j k))) /\
   entry (sH s') 2 i j k = entry (sH s) 2 i j k - sdt s * (entry (giA g) 2 i j k * entry (simu s) 2 i j k *
     ((V 1%nat 0%nat (S j) k - V 1%nat i j k) - (V 0%nat i (S j) k - V 0%nat i j k))))%num.
Proof. exact (fun T NT LT OT => @wrap_x T NT LT OT). Qed.
Print Assumptions C27_wraps_to_next_row.

(** C28 *)
Theorem C28_pmc_walls : forall (T : Type) (NT : Num T) (LT : NumLaws T) (OT : NumOrd T) env g g' ar (s : Solver T) h s' d i j k,
  made env g g' ar s -> run s h = Ok s' -> in_box (gNx g) (gNy g) (gNz g) d i j k ->
  (forall a, a < 3 -> (lower (bc_at (sbl s) a) = "magnetic" \/ bc_at (sbl s) a = "pmc")%string /\
                      (lower (bc_at (sbh s) a) = "magnetic" \/ bc_at (sbh s) a = "pmc")%string) ->
  tangential (gNx g) (gNy g) (gNz g) d i j k -> Forall keeps_H h ->
  (sstep0 s = false \/
   (forall a, a < 3 -> a <> d -> coord a i j k <> dim a (gNx g) (gNy g) (gNz g) - 1) \/
   entry (sH s) d i j k = nzero) ->
  entry (sH s') d i j k = entry (sH s) d i j k.
Proof. exact (fun T NT LT OT => @magnetic_H T NT LT OT). Qed.
Print Assumptions C28_pmc_walls.

Definition magA (hi : string) : Args Qc := argsQ (bcs "Magnetic") (bcs hi) vac [].
Lemma magA_run (hi : string) (v : Qc) :
  simulate envQ gridQ (magA hi) [([OWriteE (ramp 3); OStep], [(1, (0, 1, 2, 1), v); (1, (0, 1, 1, 1), q (-3) 4)])] = true ->
  exists g' s0 s', construct envQ gridQ (magA hi) = Ok (s0, g') /\ made envQ gridQ g' (magA hi) s0 /\
    (sbl s0, sbh s0) = (bcs "Magnetic", bcs hi) /\
    run s0 [OWriteE (ramp 3); OStep] = Ok s' /\ entry (sH s') 0 1 2 1 = v /\ entry (sH s') 0 1 1 1 = q (-3) 4.
Proof.
  intros H. destruct (simulated _ _ _ _ gridQ_obj H) as (s0 & g' & Hc & Hm & F).
  inversion F as [|? ? [s' [R O]] _]; subst. cbn [fst snd] in *. exists g', s0, s'.
  destruct (made_values _ _ _ _ _ Hm) as (M & bo & _ & _ & A & _).
  inversion O as [|? ? O1 P1]; subst. inversion P1 as [|? ? O2 _]; subst. cbn [holds sel] in *.
  auto 10.
Qed.
Example C28_case : exists g' s0 s', construct envQ gridQ (magA "pmc") = Ok (s0, g') /\ made envQ gridQ g' (magA "pmc") s0 /\
    (sbl s0, sbh s0) = (bcs "Magnetic", bcs "pmc") /\
    run s0 [OWriteE (ramp 3); OStep] = Ok s' /\ entry (sH s') 0 1 2 1 = q 0 1 /\ entry (sH s') 0 1 1 1 = q (-3) 4.
Proof. apply magA_run. vm_compute. reflexivity. Qed.

(** C29.  Full claim: letter case never matters.  False for pmc: the same run with "PMC" moves
    tangential H on the walls (by 7/8 here), with "pmc" it does not (C28_case). *)
Theorem C29_case_refuted : exists (g' : Grid Qc) s0 s' g2 s2 t2,
  lower "PMC" = lower "pmc" /\
  construct envQ gridQ (magA "PMC") = Ok (s0, g') /\ run s0 [OWriteE (ramp 3); OStep] = Ok s' /\
  construct envQ gridQ (magA "pmc") = Ok (s2, g2) /\ run s2 [OWriteE (ramp 3); OStep] = Ok t2 /\
  entry (sH s') 0 1 2 1 = q 7 8 /\ entry (sH t2) 0 1 2 1 = q 0 1.
Proof.
  destruct (magA_run "PMC" (q 7 8)) as (g' & s0 & s' & A1 & _ & _ & A2 & A3 & _); [vm_compute; reflexivity|].
  destruct (magA_run "pmc" (q 0 1)) as (g2 & s2 & t2 & B1 & _ & _ & B2 & B3 & _); [vm_compute; reflexivity|].
  exists g', s0, s', g2, s2, t2. auto 10.
Qed.
Print Assumptions C29_case_refuted.

(** What holds: changing the case of any name except pmc changes nothing, on any history. *)
Theorem C29_case_partial : forall (T : Type) (NT : Num T) (OT : NumOrd T) env g (ar : Args T) bl' bh' s g',
  recased3 (ar_bl ar) bl' -> recased3 (ar_bh ar) bh' -> construct env g ar = Ok (s, g') ->
  exists s2, construct env g (with_names ar bl' bh') = Ok (s2, g') /\
    forall h, match run s h, run s2 h with
              | Ok t, Ok t2 => same_fields t t2
              | Err e, Err e2 => e = e2
              | _, _ => False
              end.
Proof. exact (fun T NT OT => @names_case T NT OT). Qed.
Print Assumptions C29_case_partial.
Example C29_case : recased3 {| bcx := "Periodic"; bcy := "PEC"; bcz := "magnetic" |}%string
                            {| bcx := "periodic"; bcy := "pec"; bcz := "MAGNETIC" |}%string.
Proof. intros a Ha. unfold recased. destruct a as [|[|[|a]]]; cbn; try lia; split; try reflexivity; discriminate. Qed.

(** C30.  Full claim: building a solver leaves the grid as it was.  False: a periodic solver
    rewrites the grid's dual metrics, and a later solver on the same grid object runs differently. *)
Theorem C30_grid_refuted : exists (g1 g2 g3 : Grid Qc) s s2 s3 t2 t3,
  construct envQ gridQ (argsQ (bcs "periodic") (bcs "periodic") vac []) = Ok (s, g1) /\
  construct envQ gridQ (magA "pmc") = Ok (s2, g2) /\ run s2 [OWriteH (ramp 5); OStep] = Ok t2 /\
  construct envQ g1 (magA "pmc") = Ok (s3, g3) /\ run s3 [OWriteH (ramp 5); OStep] = Ok t3 /\
  entry (sE t2) 1 2 1 1 = q 0 1 /\ entry (sE t3) 1 2 1 1 = q 3 2.
Proof.
  assert (H : simulate envQ gridQ (magA "pmc") [([OWriteH (ramp 5); OStep], [(0, (1, 2, 1, 1), q 0 1)])] = true)
    by (vm_compute; reflexivity).
  destruct (simulated _ _ _ _ gridQ_obj H) as (s2 & g2 & Hc2 & Hm2 & F2).
  inversion F2 as [|? ? [t2 [R2 O2]] _]; subst. cbn [fst snd] in *. inversion O2; subst.
  assert (H' : match construct envQ gridQ (argsQ (bcs "periodic") (bcs "periodic") vac []) with
               | Ok (_, g1) => simulate envQ g1 (magA "pmc") [([OWriteH (ramp 5); OStep], [(0, (1, 2, 1, 1), q 3 2)])]
               | Err _ => false end = true) by (vm_compute; reflexivity).
  destruct (construct envQ gridQ (argsQ (bcs "periodic") (bcs "periodic") vac [])) as [[s g1]|] eqn:Hc; [|discriminate].
  assert (G1 : grid_obj envQ g1) by (eapply go_used; [exact gridQ_obj|exact Hc]).
  destruct (simulated _ _ _ _ G1 H') as (s3 & g3 & Hc3 & Hm3 & F3).
  inversion F3 as [|? ? [t3 [R3 O3]] _]; subst. cbn [fst snd] in *. inversion O3; subst.
  exists g1, g2, g3, s, s2, s3, t2, t3. auto 10.
Qed.
Print Assumptions C30_grid_refuted.

(** What holds: without a periodic pair and without an abc high wall the grid is untouched. *)
Theorem C30_grid_partial : forall (T : Type) (NT : Num T) (OT : NumOrd T) env g (ar : Args T) s g',
  construct env g ar = Ok (s, g') ->
  (forall a, a < 3 -> ~ (lower (bc_at (sbl s) a) = "periodic" /\ lower (bc_at (sbh s) a) = "periodic")%string /\
                      lower (bc_at (sbh s) a) <> "abc"%string) ->
  g' = g.
Proof. exact (fun T NT OT => @grid_kept T NT OT). Qed.
Print Assumptions C30_grid_partial.

(** C31 *)
Theorem C31_last_solid : forall (T : Type) (NT : Num T) (LT : NumLaws T) (OT : NumOrd T) env g g' ar (s : Solver T) i j k m e,
  made env g g' ar s -> spml s = false -> i < gNx g -> j < gNy g -> k < gNz g ->
  decides (gNy g) (gNz g) (ar_bg ar) (ar_solids ar) i j k m -> find_material m = Ok e ->
  forall c, c < 3 -> is_inverse (entry (sieps s) c i j k) (me_eps e) (e_eps0 env) /\
                     is_inverse (entry (simu s) c i j k) (me_mu e) (e_mu0 env).
Proof. exact (fun T NT LT OT => @cell_values T NT LT OT). Qed.
Print Assumptions C31_last_solid.
(** Permeability also with pml walls. *)
Theorem C31_last_solid_mu : forall (T : Type) (NT : Num T) (LT : NumLaws T) (OT : NumOrd T) env g g' ar (s : Solver T) i j k m e,
  made env g g' ar s -> i < gNx g -> j < gNy g -> k < gNz g ->
  decides (gNy g) (gNz g) (ar_bg ar) (ar_solids ar) i j k m -> find_material m = Ok e ->
  forall c, c < 3 -> is_inverse (entry (simu s) c i j k) (me_mu e) (e_mu0 env).
Proof. exact (fun T NT LT OT => @cell_mu T NT LT OT). Qed.
Print Assumptions C31_last_solid_mu.
(** Every cell has a deciding material, so C31 speaks about all cells. *)
Theorem C31_some_material : forall (T : Type) (bg : material T) (solids : list (solid T)) Ny Nz i j k,
  exists m, decides Ny Nz bg solids i j k m.
Proof. exact (fun T => @decides_exists T). Qed.
Print Assumptions C31_some_material.

(** C32.  Full claim: the last covering solid decides the conductivity too.  False: a solid
    without a conductivity leaves the one of the solid before it. *)
Definition overlap : list (solid Qc) :=
  [{| so_key := "a"; so_mask := mask_at [13]; so_mat := MList (Fin (q 1 1)) (Fin (q 1 1)) (Some (q 5 1)) |};
   {| so_key := "b"; so_mask := mask_at [13; 14]; so_mat := MName "dielectric" |}].
Theorem C32_sigma_refuted : exists (g' : Grid Qc) s,
  construct envQ gridQ (argsQ (bcs "pec") (bcs "pec") vac overlap) = Ok (s, g') /\
  decides 3 3 vac overlap 1 1 1 (MName "dielectric") /\
  (exists e, find_material (MName "dielectric") = Ok e /\ me_sigma e = @None Qc) /\
  entry (ssigma s) 0 1 1 1 = q 5 1.
Proof.
  assert (H : simulate2 envQ gridQ (argsQ (bcs "pec") (bcs "pec") vac overlap)
     (fun s _ => neqb (entry (ssigma s) 0 1 1 1) (q 5 1)) [] = true) by (vm_compute; reflexivity).
  destruct (simulated2 _ _ _ _ _ gridQ_obj H) as (s & g' & Hc & Hm & Hk & _). exists g', s.
  split; [exact Hc|]. split; [|split; [eexists; split; reflexivity|apply neqb_eq; exact Hk]].
  left. exists [{| so_key := "a"; so_mask := mask_at [13]; so_mat := MList (Fin (q 1 1)) (Fin (q 1 1)) (Some (q 5 1)) |}].
  eexists; exists []. split; [reflexivity|]. split; [vm_compute; reflexivity|]. split; [intros t []|reflexivity].
Qed.
Print Assumptions C32_sigma_refuted.

(** What holds: if the background conducts, or no solid covering the cell lacks a conductivity. *)
Theorem C32_sigma_partial : forall (T : Type) (NT : Num T) (LT : NumLaws T) (OT : NumOrd T) env g g' ar (s : Solver T) i j k m e ebg,
  made env g g' ar s -> spml s = false -> i < gNx g -> j < gNy g -> k < gNz g ->
  decides (gNy g) (gNz g) (ar_bg ar) (ar_solids ar) i j k m -> find_material m = Ok e ->
  find_material (ar_bg ar) = Ok ebg ->
  ((exists b, me_sigma ebg = Some b /\ nltb nzero b = true) \/
   forall so e', In so (ar_solids ar) -> marked (gNy g) (gNz g) so i j k ->
     find_material (so_mat so) = Ok e' -> me_sigma e' <> None) ->
  forall c, c < 3 -> entry (ssigma s) c i j k = match me_sigma e with Some x => x | None => nzero end.
Proof. exact (fun T NT LT OT => @cell_sigma T NT LT OT). Qed.
Print Assumptions C32_sigma_partial.
