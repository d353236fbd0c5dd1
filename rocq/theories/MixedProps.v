(** Property C119: the laws of the step with any mix of walls. *)
From Coq Require Import List Arith ZArith Bool String Lia QArith Qcanon.
From Verif Require Import Num Vec Index Matrix FieldModel FieldSpec FieldProofs FieldProofs2 GridModel GridProofs SolverModel SolverPlanes SolverBuild SolverMaterials
  SolverKern SolverCons SolverSpec SolverFlux SolverEnergy SolverOps SolverKit SolverFrozen SolverLocal SolverRestart SolverMaxwell SolverMixed MpiProps2 MpiEndProps.
Import ListNotations.
Open Scope nat_scope.

(** Faraday's law for every stored face and every mix of walls; where H is held, H stays. *)
Theorem C119_faraday : forall (T : Type) (NT : Num T) (LT : NumLaws T) (OT : NumOrd T) env g g' ar (s s' : Solver T) V d i j k,
  made env g g' ar s -> one_step s = Ok s' ->
  (sstep0 s = false \/ ghosts_zero (gNx g) (gNy g) (gNz g) (entry (sE s)) (entry (sH s))) -> voltage g s V ->
  (in_box (gNx g) (gNy g) (gNz g) d i j k -> held (sbl s) (sbh s) (gNx g) (gNy g) (gNz g) d i j k ->
     entry (sH s') d i j k = entry (sH s) d i j k) /\
  (full_face (gNx g) (gNy g) (gNz g) d i j k -> ~ held (sbl s) (sbh s) (gNx g) (gNy g) (gNz g) d i j k ->
     entry (sH s') d i j k = (entry (sH s) d i j k - sdt s * (entry (giA g) d i j k * entry (simu s) d i j k * around_face V d i j k))%num).
Proof.
  intros T NT LT OT env g g' ar s s' V d i j k Hm H1 Hc HV. split; intros A B.
  - exact (held_stays env g g' ar s s' d i j k Hm H1 Hc A B).
  - exact (faraday_any env g g' ar s s' V d i j k Hm H1 Hc B HV A).
Qed.
Print Assumptions C119_faraday.

(** Ampere's law for every stored dual face and every mix of walls: dual edges on which H is held carry no voltage. *)
Theorem C119_ampere : forall (T : Type) (NT : Num T) (LT : NumLaws T) (OT : NumOrd T) env g g' ar (s s' : Solver T) W d i j k,
  made env g g' ar s -> one_step s = Ok s' ->
  (sstep0 s = false \/ ghosts_zero (gNx g) (gNy g) (gNz g) (entry (sE s)) (entry (sH s))) -> hvoltage g g' s s' W ->
  in_box (gNx g) (gNy g) (gNz g) d i j k ->
  (electric_wall (sbl s) (sbh s) (gNx g) (gNy g) (gNz g) d i j k ->
     entry (sE s') d i j k = (entry (sE s) d i j k - sdt s * (entry (sieps s) d i j k * entry (sJ s) d i j k))%num) /\
  (~ electric_wall (sbl s) (sbh s) (gNx g) (gNy g) (gNz g) d i j k -> full_edge (gNx g) (gNy g) (gNz g) d i j k ->
     entry (sE s') d i j k = (entry (sE s) d i j k + sdt s *
       (entry (sieps s) d i j k * entry (gitA g') d i j k * around_edge W d i j k - entry (sieps s) d i j k * entry (sJ s) d i j k))%num).
Proof. intros T NT LT OT env g g' ar s s' W d i j k Hm H1 Hc HW Hb. exact (ampere_any env g g' ar s s' W d i j k Hm H1 Hc HW Hb). Qed.
Print Assumptions C119_ampere.

(** The claim fails on an electric wall beside a magnetic one.  Two boxes of 3 x 3 x 4 cells, electric but for the lower end of z, which is electric in the
    first and magnetic in the second.  E_z = 1 on one edge next to the wall x = 0: H_y on that wall, two cells from the lower end, becomes 1/4 in the
    first and stays zero in the second. *)
Theorem C119_electric_wall_refuted : exists s1 g1 t1 s2 g2 t2,
  construct envQ gs48 (ends48 "pec" "pec" None) = Ok (s1, g1) /\ run s1 [OWriteE (spot 2 1 1 2); OStep] = Ok t1 /\
  construct envQ gs48 (ends48 "magnetic" "pec" None) = Ok (s2, g2) /\ run s2 [OWriteE (spot 2 1 1 2); OStep] = Ok t2 /\
  sdt s1 = sdt s2 /\ entry (sH t1) 1 0 1 2 = q 1 4 /\ entry (sH t2) 1 0 1 2 = q 0 1.
Proof.
  destruct (serial_case "pec" "pec" [OWriteE (spot 2 1 1 2); OStep] 1 1 0 1 2 (q 1 4) ltac:(vm_compute; reflexivity)) as (g1 & s1 & t1 & A1 & A2 & A3 & A4).
  destruct (serial_case "magnetic" "pec" [OWriteE (spot 2 1 1 2); OStep] 1 1 0 1 2 (q 0 1) ltac:(vm_compute; reflexivity)) as (g2 & s2 & t2 & B1 & B2 & B3 & B4).
  exists s1, g1, t1, s2, g2, t2. repeat (split; [first [eassumption|congruence]|]). exact B4.
Qed.
Print Assumptions C119_electric_wall_refuted.

(** A case: the second box.  H_y is held on x = 0 and on z = 0, and is not in the cell beside them, where it moves by 1/4. *)
Example C119_case : exists s g' t, construct envQ gs48 (ends48 "magnetic" "pec" None) = Ok (s, g') /\ made envQ gs48 g' (ends48 "magnetic" "pec" None) s /\
  held (sbl s) (sbh s) 3 3 4 1 0 1 2 /\ held (sbl s) (sbh s) 3 3 4 1 1 1 0 /\ ~ held (sbl s) (sbh s) 3 3 4 1 1 1 2 /\
  full_face 3 3 4 1 1 1 2 /\ run s [OWriteE (spot 2 1 1 2); OStep] = Ok t /\ entry (sH t) 1 1 1 2 = q (-1) 4.
Proof.
  assert (H : simulate2 envQ gs48 (ends48 "magnetic" "pec" None)
    (fun s _ => String.eqb (bcx (sbl s)) "pec" && String.eqb (bcy (sbl s)) "pec" && String.eqb (bcz (sbl s)) "magnetic" &&
                String.eqb (bcx (sbh s)) "pec" && String.eqb (bcy (sbh s)) "pec" && String.eqb (bcz (sbh s)) "pec")
    [([OWriteE (spot 2 1 1 2); OStep], [(1, (1, 1, 1, 2), q (-1) 4)])] = true) by (vm_compute; reflexivity).
  destruct (simulated2 _ _ _ _ _ (go_axes envQ _ _ _ _ gs48_ok) H) as (s & g' & Hc & Hm & Hb & F). inversion F as [|? ? (t & RN & ON) _]; subst. inversion ON as [|? ? VN _]; subst.
  rewrite !andb_true_iff, !String.eqb_eq in Hb. destruct Hb as (((((B1 & B2) & B3) & B4) & B5) & B6).
  destruct (sbl s) as [l1 l2 l3] eqn:El. destruct (sbh s) as [h1 h2 h3] eqn:Eh. cbn [bcx bcy bcz] in *. subst.
  exists s, g', t. split; [exact Hc|]. split; [exact Hm|]. rewrite El, Eh.
  split; [apply held_b; reflexivity|]. split; [apply held_b; reflexivity|]. split; [intros X; apply held_b in X; discriminate X|].
  split; [|split; [exact RN|exact VN]].
  split; [repeat split; lia|]. intros [|[|[|a]]]; cbn; lia.
Qed.
