(** Properties C125 and C126: absorbing walls and sol_type of the three-dimensional legacy solver. *)
From Coq Require Import List Arith ZArith Bool String Lia Ring Field QArith Qcanon Reals Lra Psatz.
From Verif Require Import Num Vec FieldModel GridModel GridProofs2 SolverModel SolverCons WakeModel WakeNum Grid2DModel Grid3DModel Solver3DModel Solver3DPml.
Import ListNotations.
Open Scope nat_scope.

(** ** C125 *)
(** A block belongs at every place beside the grid all whose walls absorb. *)
Definition beside (w : @setup3 R) (q : at3) : Prop := q <> (Mid, Mid, Mid) /\ forall a, (side q a = Lo -> w_lo w a = true) /\ (side q a = Hi -> w_hi w a = true).
(** The conductivity of layer n of N, counted from the grid, for cells of size d. *)
Definition layer_sigma (w : @setup3 R) (n N : nat) (d : R) : R :=
  (- 4 * w_eps w * w_c w / (2 * (INR N - 1) * d) * w_logr w * ((INR n / INR N) * (INR n / INR N) * (INR n / INR N)))%R.
(** Along each axis: the cells of the grid and no conductivity beside it, the layers of the wall and their conductivities beyond it. *)
Definition right_block (w : @setup3 R) (q : at3) (b : @block3 R) : Prop := forall a,
  match side q a with
  | Mid => b_n b a = w_n w a /\ forall i, b_sigma b a i = 0%R /\ b_star b a i = 0%R
  | Lo => let N := w_nlo w a in b_n b a = N /\ forall n, n < N ->
      b_sigma b a (N - n) = layer_sigma w n N (w_d w a) /\ b_star b a (N - 1 - n) = (layer_sigma w n N (w_d w a) * (w_mu w / w_eps w))%R
  | Hi => let N := w_nhi w a in b_n b a = N /\ forall n, n < N ->
      b_sigma b a n = layer_sigma w n N (w_d w a) /\ b_star b a n = (layer_sigma w n N (w_d w a) * (w_mu w / w_eps w))%R
  end.
Definition walls_built (w : @setup3 R) : Prop := exists m, build3 w = Ok m /\ forall q,
  match m q with None => ~ beside w q | Some b => beside w q /\ b_done b = true /\ right_block w q b end.
(** What holds.  Absorbing walls need two layers, as the code divides by their number less one. *)
Theorem C125_setup_partial : forall w : @setup3 R,
  (forall a, (w_lo w a = true -> 2 <= w_nlo w a) /\ (w_hi w a = true -> 2 <= w_nhi w a)) ->
  w_lo w AZ = w_hi w AZ \/ ~ ((w_lo w AX = true \/ w_hi w AX = true) /\ (w_lo w AY = true \/ w_hi w AY = true)) ->
  (w_hi w AY = true -> w_lo w AZ = true \/ w_hi w AZ = true -> w_lo w AY = true /\ w_nlo w AY = w_nhi w AY) ->
  (w_hi w AX = true -> w_d w AX = w_d w AY) -> (w_lo w AZ = true \/ w_hi w AZ = true -> w_d w AZ = w_d w AY) ->
  walls_built w.
Proof.
  intros w _ G H Dx Dz. destruct (build_ok w G) as (m & B & P).
  { intros Y Z. destruct (H Y Z) as [L E]. unfold n_lo, n_hi. rewrite L, Y. exact E. }
  exists m. split; [exact B|]. intros q. specialize (P q).
  assert (Be : present (w_lo w) (w_hi w) q = true <-> beside w q).
  { unfold present, beside. rewrite andb_true_iff, negb_true_iff, forallb_forall. split.
    - intros [N A]. split; [intros ->; cbn in N; discriminate|]. intros a. specialize (A a ltac:(destruct a; cbn; tauto)). destruct (side q a); split; intros E; (discriminate || exact A).
    - intros [N A]. split; [apply not_true_is_false; intros E; apply at3_eqb_ok in E; contradiction|]. intros a _. destruct (A a) as [A1 A2]. destruct (side q a); auto. }
  destruct (m q) as [b|]; [|intros K; apply Be in K; congruence]. destruct P as (P & D & V). apply Be in P. split; [exact P|]. split; [exact D|]. intros a. destruct P as [_ Pa]. destruct (Pa a) as [P1 P2].
  destruct (V a) as (V1 & V2 & V3). unfold bsize, prof, layers, sm_at, lay, star in V1, V2, V3.
  assert (Ls : forall n N d, (smax w N d * ramp n N)%R = layer_sigma w n N d).
  { intros n N d. unfold smax, ramp, layer_sigma. cbn zeta. rewrite !nofnat_INR. replace (INR 4) with 4%R by (cbn; ring). replace (INR 2) with 2%R by (cbn; ring). cbn [nmul ndiv nsub nopp none_ Num_R]. unfold Rdiv. ring. }
  destruct (side q a) eqn:Sd.
  - specialize (P1 eq_refl). unfold sm_lo, n_lo in *. rewrite P1 in V1, V2, V3. split; [exact V1|]. intros n Hn.
    assert (Da : (match a with AX => w_d w AX | _ => w_d w AY end) = w_d w a) by (destruct a; [reflexivity|reflexivity|symmetry; apply Dz; left; exact P1]). rewrite Da in V2, V3.
    rewrite V2, V3. rewrite ?P1. replace (S (w_nlo w a) - (w_nlo w a - n + 1)) with n by (clear - Hn; lia). replace (w_nlo w a - (w_nlo w a - 1 - n + 1)) with n by (clear - Hn; lia).
    replace (w_nlo w a - n <? S (w_nlo w a)) with true by (symmetry; apply Nat.ltb_lt; clear - Hn; lia). replace (w_nlo w a - 1 - n <? w_nlo w a) with true by (symmetry; apply Nat.ltb_lt; clear - Hn; lia).
    replace (n <? w_nlo w a) with true by (symmetry; apply Nat.ltb_lt; clear - Hn; lia). cbn [andb]. cbn [nmul ndiv Num_R]. rewrite Ls. split; reflexivity.
  - split; [exact V1|]. intros i. rewrite V2, V3. replace (i <? 0) with false by (symmetry; apply Nat.ltb_ge; clear; lia). rewrite !andb_false_r. split; reflexivity.
  - specialize (P2 eq_refl). unfold sm_hi, n_hi in *. rewrite P2 in V1, V2, V3. split; [exact V1|]. intros n Hn.
    assert (Da : w_d w AY = w_d w a) by (destruct a; [symmetry; apply Dx; exact P2|reflexivity|symmetry; apply Dz; right; exact P2]). rewrite Da in V2, V3.
    rewrite V2, V3. rewrite ?P2. replace (n <? S (w_nhi w a)) with true by (symmetry; apply Nat.ltb_lt; clear - Hn; lia). replace (n <? w_nhi w a) with true by (symmetry; apply Nat.ltb_lt; clear - Hn; lia). cbn [andb].
    unfold n_hi. rewrite ?P2. cbn [nmul ndiv Num_R]. rewrite Ls. split; reflexivity.
Qed.
Print Assumptions C125_setup_partial.
(** Two layers at the walls named, unit constants. *)
Definition demo (lx hx ly hy lz hz : bool) (ylo yhi : nat) (dx : R) : @setup3 R :=
  {| w_lo := tb lx ly lz; w_hi := tb hx hy hz; w_n := fun _ => 3; w_nlo := tri 2 ylo 2; w_nhi := tri 2 yhi 2;
     w_d := fun a => match a with AX => dx | _ => 1%R end; w_eps := 1%R; w_mu := 1%R; w_c := 1%R; w_logr := (-1)%R |}.
(** Low x, low y and low z: the constructor looks for a block beyond the high z wall. *)
Theorem C125_missing_refuted : exists w : @setup3 R, (forall a, w_lo w a = true /\ w_hi w a = false /\ w_nlo w a = 2 /\ w_d w a = 1%R) /\ build3 w = Err AttributeError /\ ~ walls_built w.
Proof.
  exists (demo true false true false true false 2 2 1%R). assert (B : build3 (demo true false true false true false 2 2 1%R) = Err AttributeError) by reflexivity.
  split; [intros []; repeat split|]. split; [exact B|]. intros (m & E & _). rewrite B in E. discriminate.
Qed.
Print Assumptions C125_missing_refuted.
(** High y and low z: two blocks have the layers of low y, which are none. *)
Theorem C125_size_refuted : exists w : @setup3 R, (forall a, (w_lo w a = true <-> a = AZ) /\ (w_hi w a = true <-> a = AY) /\ w_nlo w a = 2 /\ w_nhi w a = 2 /\ w_d w a = 1%R) /\
  build3 w = Err IndexError /\ ~ walls_built w.
Proof.
  exists (demo false false false true true false 2 2 1%R). assert (B : build3 (demo false false false true true false 2 2 1%R) = Err IndexError) by reflexivity.
  split; [intros []; cbn; repeat split; intros; (reflexivity || discriminate)|]. split; [exact B|]. intros (m & E & _). rewrite B in E. discriminate.
Qed.
Print Assumptions C125_size_refuted.
(** More layers at low y than at high y: no error, but two blocks are thicker than the wall. *)
Theorem C125_thick_refuted : exists (w : @setup3 R) m b, (forall a, w_lo w a = negb (match a with AX => true | _ => false end) /\ w_hi w a = w_lo w a) /\
  build3 w = Ok m /\ m (Mid, Hi, Lo) = Some b /\ w_nhi w AY = 2 /\ b_n b AY = 3 /\ ~ walls_built w.
Proof.
  exists (demo false false true true true true 3 2 1%R). eexists. eexists. split; [intros []; repeat split|]. split; [reflexivity|]. split; [reflexivity|]. split; [reflexivity|]. split; [reflexivity|].
  intros (m & E & W). cbn in E. injection E as <-. specialize (W (Mid, Hi, Lo)). cbv beta in W. destruct W as (_ & _ & W). specialize (W AY). cbn in W. destruct W as [W _]. discriminate.
Qed.
Print Assumptions C125_thick_refuted.
(** Low x, low y and high z: the block at their corner never gets a conductivity. *)
Theorem C125_corner_refuted : exists (w : @setup3 R) m b, (forall a, w_d w a = 1%R /\ (w_lo w a = true -> w_nlo w a = 2) /\ (w_hi w a = true -> w_nhi w a = 2)) /\
  build3 w = Ok m /\ m (Lo, Lo, Hi) = Some b /\ beside w (Lo, Lo, Hi) /\ b_done b = true /\ (forall a i, b_sigma b a i = 0%R) /\ layer_sigma w 1 2 1%R <> 0%R.
Proof.
  exists (demo true false true false false true 2 2 1%R). eexists. eexists. split; [intros []; repeat split|]. split; [reflexivity|]. split; [reflexivity|].
  split; [split; [discriminate|intros []; split; intros; (reflexivity || discriminate)]|]. split; [reflexivity|]. split; [intros [] i; reflexivity|].
  unfold layer_sigma. cbn [w_eps w_c w_logr demo]. cbn [INR]. lra.
Qed.
Print Assumptions C125_corner_refuted.
(** Both x walls with as many layers, cells half as long in x as in y: the high wall has half the conductivity of the low one. *)
Theorem C125_mirror_refuted : exists (w : @setup3 R) m lo hi, (forall a, w_lo w a = w_hi w a /\ w_nlo w a = w_nhi w a) /\ build3 w = Ok m /\
  m (Lo, Mid, Mid) = Some lo /\ m (Hi, Mid, Mid) = Some hi /\ b_sigma lo AX (2 - 1) = layer_sigma w 1 2 (w_d w AX) /\ b_sigma hi AX 1 = (layer_sigma w 1 2 (w_d w AX) / 2)%R /\ b_sigma lo AX (2 - 1) <> 0%R.
Proof.
  set (w := demo true true false false false false 2 2 (1/2)%R).
  assert (L : layer_sigma w 1 2 (w_d w AX) = (1/2)%R) by (unfold layer_sigma; cbn [w_eps w_c w_logr w_d w demo]; cbn [INR]; field).
  assert (A : (sm_lo w AX * ramp 1 2)%R = (1/2)%R).
  { unfold sm_lo, smax, ramp. cbn zeta. rewrite !nofnat_INR. change (n_lo w AX) with 2. cbn [w_d w_eps w_c w_logr w demo nmul ndiv nsub nopp none_ Num_R]. cbn [INR]. field. }
  assert (B : (sm_hi w AX * ramp 1 2)%R = (1/4)%R).
  { unfold sm_hi, smax, ramp. cbn zeta. rewrite !nofnat_INR. change (n_hi w AX) with 2. cbn [w_d w_eps w_c w_logr w demo nmul ndiv nsub nopp none_ Num_R]. cbn [INR]. field. }
  exists w. eexists. eexists. eexists. split; [intros []; repeat split|]. split; [reflexivity|]. split; [reflexivity|]. split; [reflexivity|].
  rewrite L. split; [exact A|split; [replace (1 / 2 / 2)%R with (1 / 4)%R by field; exact B|]].
  intros K. assert (K' : (sm_lo w AX * ramp 1 2)%R = 0%R) by exact K. lra.
Qed.
Print Assumptions C125_mirror_refuted.
(** The hypotheses of C125_setup_partial: all six walls, or one. *)
Example C125_case : walls_built (demo true true true true true true 2 2 1%R) /\ walls_built (demo true false false false false false 2 2 (1/2)%R).
Proof.
  split; (apply C125_setup_partial; [intros []; cbn; split; intros; (lia || discriminate)| | | |]); cbn [w_lo w_hi w_nlo w_nhi w_d demo tb tri].
  - left. reflexivity.
  - intros _ _. split; reflexivity.
  - reflexivity.
  - reflexivity.
  - left. reflexivity.
  - intros X. discriminate X.
  - intros X. discriminate X.
  - intros [X|X]; discriminate X.
Qed.

(** ** C126 *)
(** Whatever sol_type the constructor accepts, one_step advances the fields: it returns, and from rest a current drives every
    inner edge that is not in a conductor. *)
Definition advances (sol : string) : Prop := forall (p : @par3 R) c, (forall s, exists s', one_step3 p sol c s = Ok s') /\
  exists s', one_step3 p sol c zero3 = Ok s' /\ forall i j k,
  (i < c_nx p -> 1 <= j < c_ny p -> 1 <= k < c_nz p -> (0 < q_lx (c_g p) i j k)%R -> fex s' i j k = (- (c_dt p / c_eps p) * fjx c i j k)%R) /\
  (1 <= i < c_nx p -> j < c_ny p -> 1 <= k < c_nz p -> (0 < q_ly (c_g p) i j k)%R -> fey s' i j k = (- (c_dt p / c_eps p) * fjy c i j k)%R) /\
  (1 <= i < c_nx p -> 1 <= j < c_ny p -> k < c_nz p -> (0 < q_lz (c_g p) i j k)%R -> fez s' i j k = (- (c_dt p / c_eps p) * fjz c i j k)%R).
Lemma driven (p : @par3 R) c h : (forall i j k, fex h i j k = 0%R /\ fey h i j k = 0%R /\ fez h i j k = 0%R /\ fhx h i j k = 0%R /\ fhy h i j k = 0%R /\ fhz h i j k = 0%R) ->
  let s' := e_adv3 p c h in forall i j k,
  (i < c_nx p -> 1 <= j < c_ny p -> 1 <= k < c_nz p -> (0 < q_lx (c_g p) i j k)%R -> fex s' i j k = (- (c_dt p / c_eps p) * fjx c i j k)%R) /\
  (1 <= i < c_nx p -> j < c_ny p -> 1 <= k < c_nz p -> (0 < q_ly (c_g p) i j k)%R -> fey s' i j k = (- (c_dt p / c_eps p) * fjy c i j k)%R) /\
  (1 <= i < c_nx p -> 1 <= j < c_ny p -> k < c_nz p -> (0 < q_lz (c_g p) i j k)%R -> fez s' i j k = (- (c_dt p / c_eps p) * fjz c i j k)%R).
Proof.
  intros Z s' i j k. assert (X := fun i j k => proj1 (proj2 (proj2 (proj2 (Z i j k))))). assert (Y := fun i j k => proj1 (proj2 (proj2 (proj2 (proj2 (Z i j k)))))).
  assert (W := fun i j k => proj2 (proj2 (proj2 (proj2 (proj2 (Z i j k)))))). destruct (Z i j k) as (A & B & C & _).
  unfold s', e_adv3. cbn [fex fey fez]. rewrite A, B, C, !X, !Y, !W. cbn [nsub nadd nmul ndiv Num_R].
  repeat split; intros H1 H2 H3 H4; apply R_ltb in H4; change (@nzero R Num_R) with 0%R; rewrite H4;
    (match goal with |- (if ?b then _ else _) = _ => replace b with true; [ring|] end); symmetry; rewrite !andb_true_iff, !Nat.ltb_lt, !Nat.leb_le; repeat split; lia.
Qed.
Theorem C126_partial : forall sol, (sol = "FDTD"%string \/ sol = "DM"%string -> sol_ok sol = Ok tt /\ advances sol) /\
  (sol <> "FDTD"%string -> sol <> "DM"%string -> sol <> "ECT"%string -> sol_ok sol = Err ValueError).
Proof.
  intros sol. split.
  - intros [->| ->]; (split; [reflexivity|intros p c; split; [intros s; eexists; reflexivity|]]); eexists; (split; [reflexivity|]); apply driven; intros i j k; cbn [h_fdtd3 h_dm3 fex fey fez fhx fhy fhz zero3];
      unfold v_xy, v_yz, v_zx; cbn [fex fey fez zero3 nzero nsub nadd nmul ndiv Num_R]; (do 3 (split; [reflexivity|])); repeat split; match goal with |- (if ?b then _ else _) = _ => destruct b end; ring.
  - intros A B C. unfold sol_ok. apply String.eqb_neq in A, B, C. rewrite A, B, C. reflexivity.
Qed.
Print Assumptions C126_partial.
Theorem C126_ect_refuted : exists sol, sol_ok sol = Ok tt /\ forall (p : @par3 R) c s, one_step3 p sol c s = Err AttributeError.
Proof. exists "ECT"%string. split; [reflexivity|]. intros. reflexivity. Qed.
Print Assumptions C126_ect_refuted.
(** One step of each scheme on a 2 x 2 x 1 grid. *)
Example C126_case : let z := Q2Qc 0 in let u := Q2Qc 1 in
  let p := {| c_g := base_grid3 (no_conductor3 (Q2Qc 1000)) (Q2Qc (1 # 8)) u u u z z z; c_nx := 2; c_ny := 2; c_nz := 1; c_dx := u; c_dy := u; c_dz := u; c_eps := u; c_mu := u; c_dt := Q2Qc (1 # 2) |} in
  let j := {| fjx := fun _ _ _ => u; fjy := fun _ _ _ => u; fjz := fun _ _ _ => u |} in
  match one_step3 p "FDTD" j zero3, one_step3 p "DM" j zero3, one_step3 p "ECT" j zero3 with
  | Ok a, Ok b, Err e => (this (fez a 1 1 0), this (fez b 1 1 0), this (fex a 1 1 0), e) = (-1 # 2, -1 # 2, 0, AttributeError)%Q | _, _, _ => False end.
Proof. vm_compute. reflexivity. Qed.
