(** Property C48: a distributed run computes the fields of the serial run. *)
From Coq Require Import List Arith ZArith Bool String Lia QArith Qcanon.
From Verif Require Import Num Vec Index Matrix FieldModel FieldSpec FieldProofs FieldProofs2 GridModel GridProofs SolverModel SolverPlanes SolverBuild SolverMaterials
  SolverKern SolverCons SolverSpec SolverOps SolverKit MpiModel MpiComm MpiSolverModel MpiTiles MpiHalo MpiBc MpiSim MpiRun MpiConf.
Import ListNotations.
Open Scope nat_scope.

(** Flat position of component [c] of cell (i, j, k) in a field array of [NZ] layers. *)
Definition pos3 (Nx Ny NZ c i j k : nat) : nat := c * (Nx * Ny * NZ) + (i + j * Nx + k * (Nx * Ny)).
(** [l]: the layers b, b + 1, ..., b + n - 1 of the array [lg] of [NZ] layers. *)
Definition layers_of {T} {NT : Num T} (Nx Ny NZ b n : nat) (l lg : list T) : Prop :=
  List.length l = 3 * (Nx * Ny * n) /\ List.length lg = 3 * (Nx * Ny * NZ) /\
  forall c i j k, c < 3 -> i < Nx -> j < Ny -> k < n -> get l (pos3 Nx Ny n c i j k) = get lg (pos3 Nx Ny NZ c i j (b + k)).
(** What a rank does while the serial program does [og]: the same write, on its own layers. *)
Definition op_layers {T} {NT : Num T} (Nx Ny NZ b n : nat) (o og : op T) : Prop :=
  match o, og with
  | OWriteE l, OWriteE lg | OWriteH l, OWriteH lg | OWriteJ l, OWriteJ lg => layers_of Nx Ny NZ b n l lg
  | OReset, OReset => True
  | OLoad f, OLoad fg => layers_of Nx Ny NZ b n (stE f) (stE fg) /\ layers_of Nx Ny NZ b n (stH f) (stH fg) /\ layers_of Nx Ny NZ b n (stJ f) (stJ fg)
  | _, _ => False
  end.
(** No component tangential to an outer wall is written there. *)
Definition off_wall {T} {NT : Num T} (Nx Ny NZ : nat) (l : list T) : Prop :=
  forall c i j k a, c < 3 -> i < Nx -> j < Ny -> k < NZ -> a < 3 -> a <> c ->
    coord a i j k = 0 \/ coord a i j k = dim a Nx Ny NZ - 1 -> get l (pos3 Nx Ny NZ c i j k) = nzero.
Definition op_off_wall {T} {NT : Num T} (Nx Ny NZ : nat) (o : op T) : Prop :=
  match o with
  | OWriteE l | OWriteJ l => off_wall Nx Ny NZ l
  | OLoad f => off_wall Nx Ny NZ (stE f) /\ off_wall Nx Ny NZ (stJ f)
  | _ => True
  end.
(** A solid seen by a rank: same material, same cells. *)
Definition solid_layers {T} (Ny NZ b n : nat) (so sog : solid T) : Prop :=
  so_mat so = so_mat sog /\ forall i j k, j < Ny -> k < n ->
    nth ((i * Ny + j) * n + k) (so_mask so) false = nth ((i * Ny + j) * NZ + (b + k)) (so_mask sog) false.

Lemma forall2_impl {A B} (P Q : A -> B -> Prop) l l' : (forall a b, P a b -> Q a b) -> Forall2 P l l' -> Forall2 Q l l'.
Proof. intros H. induction 1; constructor; auto. Qed.

Section Bridge.
  Context {T : Type} {NT : Num T} {LT : NumLaws T} {OT : NumOrd T}.
  Lemma pos3_ix Nx Ny NZ c i j k : pos3 Nx Ny NZ c i j k = ix Nx Ny NZ c i j k.
  Proof. unfold pos3, ix, cell. lia. Qed.

  Lemma layers_restr size nz Nx Ny NZ r (l lg : list T) : NZ = size * nz -> layers_of Nx Ny NZ (off nz r) (dimr size nz r) l lg -> restr size nz Nx Ny r l lg.
  Proof.
    intros -> (A & B & C). split; [exact A|]. split; [exact B|]. intros c i j k Hc Hi Hj _ Hk. rewrite <- !pos3_ix. apply C; assumption.
  Qed.
  Lemma layers_tile size nz Nx Ny NZ r (o og : op T) : NZ = size * nz -> op_layers Nx Ny NZ (off nz r) (dimr size nz r) o og -> tile_op size nz Nx Ny r o og.
  Proof.
    intros E. destruct o, og; cbn [op_layers]; try contradiction; intros H; constructor; try (eapply layers_restr; [exact E|]; try exact H; apply H).
  Qed.

  Lemma krun_steps K (src : nat -> list (op T)) A0 n : krun K A0 (flat_map (fun m => src m ++ [OStep]) (seq 0 n)) = Ag K src A0 n.
  Proof.
    induction n as [|n IH]; [reflexivity|]. rewrite seq_S, flat_map_app. unfold krun in *. rewrite fold_left_app, IH. cbn [plus flat_map].
    rewrite app_nil_r, fold_left_app. reflexivity.
  Qed.
End Bridge.

(** ** C48.  [ss]: the serial solver on the global grid; [init r]: the solver rank [r] builds, from
    the same walls, the same background and its share of the solids.  Before step [m] the serial
    program makes the writes [srcg m] and rank [r] its share [src r m] of them.  Under every
    schedule the ranks finish, and then hold the serial fields.
    The walls in x and y are electric, those in z electric or absorbing; with absorbing ends every
    rank holds more layers than the absorbing layer has, and all ranks agree on being conductive.
    Missing from the full claim: other walls; writes on an electric wall; one rank
    ([C48_one_rank_refuted]); ranks that choose different time steps (see C51). *)
Theorem C48_distributed_partial : forall (T : Type) (NT : Num T) (LT : NumLaws T) (OT : NumOrd T), char0 T ->
  forall (env : Env T) (xmin xmax ymin ymax zmin zmax : T) (Nx Ny Nz size : nat), 2 <= size -> size <= Nz ->
  let NZ := Nz - Nz mod size in let nz := NZ / size in
  let first r := r * nz - below r in let layers r := nz + below r + above size r in
  forall (gs gs' : Grid T) (ars : Args T) (ss : Solver T),
  compute_grid (linspace xmin xmax Nx) (linspace ymin ymax Ny) (linspace zmin zmax NZ) = Ok gs ->
  construct env gs ars = Ok (ss, gs') -> ar_mpi ars = None ->
  (forall a, a < 2 -> electric (bc_at (ar_bl ars) a)) -> (forall a, a < 2 -> electric (bc_at (ar_bh ars) a)) ->
  electric (bcz (ar_bl ars)) \/ absorbing (bcz (ar_bl ars)) -> electric (bcz (ar_bh ars)) \/ absorbing (bcz (ar_bh ars)) ->
  let layered := absorbing (bcz (ar_bl ars)) \/ absorbing (bcz (ar_bh ars)) in
  (layered -> (forall a b m, List.length (e_geom env a b m) = m) /\ 1 <= ar_npml ars /\ ar_npml ars < nz) ->
  forall (tile : nat -> Tile T) (g g' : nat -> Grid T) (ar : nat -> Args T) (init : nat -> Solver T),
  (forall r, r < size ->
     mpi_grid xmin xmax ymin ymax zmin zmax Nx Ny Nz size r = Ok (tile r, g r) /\
     construct env (g r) (ar r) = Ok (init r, g' r) /\ ar_mpi (ar r) = Some (r, size) /\
     ar_bl (ar r) = ar_bl ars /\ ar_bh (ar r) = ar_bh ars /\ ar_bg (ar r) = ar_bg ars /\
     Forall2 (solid_layers Ny NZ (first r) (layers r)) (ar_solids (ar r)) (ar_solids ars) /\
     sdt (init r) = sdt ss /\ (layered -> ar_npml (ar r) = ar_npml ars /\ scond (init r) = scond ss)) ->
  forall (n : nat) (src : nat -> nat -> list (op T)) (srcg : nat -> list (op T)),
  (forall r m, r < size -> m < n -> Forall2 (op_layers Nx Ny NZ (first r) (layers r)) (src r m) (srcg m)) ->
  (forall m, m < n -> Forall (op_off_wall Nx Ny NZ) (srcg m)) ->
  exists sN, run ss (flat_map (fun m => srcg m ++ [OStep]) (seq 0 n)) = Ok sN /\
  exists bound, forall eager m w, wsteps halo_send halo_recv eager size m (start init (fun r => mpi_program size r n (src r))) w ->
    m <= bound /\ (finished size w \/ exists w', wstep halo_send halo_recv false size w w') /\
    (finished size w -> forall r c i j k, r < size -> c < 3 -> i < Nx -> j < Ny -> k < nz ->
       entry (sE (rst (wrank w r))) c i j (below r + k) = entry (sE sN) c i j (r * nz + k) /\
       entry (sH (rst (wrank w r))) c i j (below r + k) = entry (sH sN) c i j (r * nz + k) /\
       entry (sJ (rst (wrank w r))) c i j (below r + k) = entry (sJ sN) c i j (r * nz + k)).
Proof.
  intros T NT LT OT C0 env xmin xmax ymin ymax zmin zmax Nx Ny Nz size Hsz HNz NZ nz first layers gs gs' ars ss Hgs Hcs Hns Hel Heh Hzl Hzh layered Hpm
    tile g g' ar init HR n src srcg HS HD.
  assert (R0 : 0 < size) by lia. destruct (HR 0 R0) as (Hg0 & _).
  destruct (conf_sizes xmin xmax ymin ymax zmin zmax Nx Ny Nz size Hsz HNz gs Hgs) as (FZ & Fn & HX & HY). change (own (Nz - Nz mod size) size) with nz in *. fold NZ in FZ.
  set (Kg := kern_of gs gs' ss). set (K := fun r => kern_of (g r) (g' r) (init r)).
  assert (HT : forall r, r < size -> tile_of size nz Nx Ny r Kg (K r)).
  { intros r Hr. destruct (HR r Hr) as (A1 & A2 & A3 & A4 & A5 & A6 & A7 & A8 & A9).
    apply (tile_conf env xmin xmax ymin ymax zmin zmax Nx Ny Nz size C0 Hsz HNz gs gs' ars ss Hgs Hcs Hns Hel Heh Hzl Hzh Hpm r Hr (tile r) (g r) (g' r) (ar r) (init r)); try assumption.
    eapply forall2_impl; [|exact A7]. intros so sog [E1 E2]. split; [exact E1|]. intros i j k Hk Hj. unfold cell_mask. apply E2; assumption. }
  destruct (HT 0 R0) as [Tgx Tgy Tgz _ _ _ _ _ _ _ _ _ _ _ _ _ _ _ Tc _ _ _].
  assert (EN : kN Kg = Nx * Ny * NZ) by (unfold kN; rewrite Tgx, Tgy, Tgz; unfold gNZ; rewrite <- FZ; reflexivity).
  pose proof (compute_grid_ok _ _ _ _ Hgs) as Gs. pose proof (construct_good env gs ars ss gs' Gs Hcs) as Gd. fold Kg in Gd.
  assert (New : forall gg aa (s0 : Solver T) gg', grid_ok gg -> construct env gg aa = Ok (s0, gg') ->
    (forall m, get (farr (sE s0)) m = nzero) /\ (forall m, get (farr (sH s0)) m = nzero) /\ (forall m, get (farr (sJ s0)) m = nzero) /\ sstep0 s0 = true).
  { intros gg aa s0 gg' Hgg Hcc. destruct (construct_spec env gg aa s0 gg' Hgg Hcc) as
      (bo & M & _ & _ & _ & _ & _ & _ & _ & _ & _ & Ea1 & Ea2 & Ea3 & _ & _ & _ & _ & _ & _ & _ & _ & _ & Ea4 & _).
    rewrite Ea1, Ea2, Ea3. unfold field_zeros. cbn [farr].
    assert (Z : forall q m, get (tab q (fun _ => (nzero : T))) m = nzero).
    { intros q m. destruct (Nat.lt_ge_cases m q); [rewrite get_tab by assumption; reflexivity|].
      unfold get. apply nth_overflow. rewrite tab_length. assumption. }
    repeat split; auto. }
  destruct (New gs ars ss gs' Gs Hcs) as (Z1 & Z2 & Z3 & Z4).
  assert (Walls : forall l, List.length l = 3 * (Nx * Ny * NZ) -> off_wall Nx Ny NZ l -> wall_zero size nz Nx Ny Kg (get l)).
  { intros l _ Hl m Hm H0. unfold gNZ in Hm. rewrite <- FZ in Hm. destruct (ix_surj _ _ _ _ Hm) as (c & i & j & k & Hc & Hi & Hj & Hk & ->).
    destruct (wall_conf xmin xmax ymin ymax zmin zmax Nx Ny Nz size Hsz HNz gs gs' ss Hgs c i j k Hc Hi Hj Hk H0) as (a & La & Na & Wa).
    rewrite <- pos3_ix. apply (Hl c i j k a); assumption. }
  assert (OK : Forall (op_ok Kg) (flat_map (fun m => srcg m ++ [OStep]) (seq 0 n))).
  { apply Forall_flat_map. apply Forall_forall. intros m Hm. apply in_seq in Hm. apply Forall_app. split; [|repeat constructor].
    specialize (HS 0 m R0 ltac:(lia)). clear - HS EN. unfold op_ok, arr_ok. rewrite EN. induction HS as [|o og l lg H HS IH]; constructor; [|exact IH].
    destruct o, og; cbn [op_layers] in H; try contradiction; auto; try (left; apply H). destruct H as (A & B & C). repeat split; left; [apply A|apply B|apply C]. }
  destruct (run_good Kg _ ss Gd OK) as (sN & EsN & GN & QN). exists sN. split; [exact EsN|]. rewrite krun_steps in QN.
  destruct (distributed_follows size nz Nx Ny Hsz Fn HX HY Kg K HT n src srcg init (abs ss)) as [bound HB].
  - intros r m Hr Hm. specialize (HS r m Hr Hm). eapply forall2_impl; [|exact HS]. intros o og. apply layers_tile. exact FZ.
  - intros m Hm. specialize (HS 0 m R0 Hm). specialize (HD m Hm). clear - HS HD Walls. induction HS as [|o og l lg H HS IH]; constructor; inversion HD; subst; auto.
    destruct o, og; cbn [op_layers op_off_wall dry_op] in *; try contradiction; auto.
    + apply Walls; [apply H|assumption].
    + apply Walls; [apply H|assumption].
    + destruct H as (A & B & C). destruct H2 as [D1 D2]. split; apply Walls; [apply A|assumption|apply C|assumption].
  - intros r Hr. destruct (HR r Hr) as (A1 & A2 & _). unfold mpi_grid in A1. binv A1 t0 Q1. binv A1 g0 Q2. injection A1 as _ E2. rewrite E2 in Q2.
    pose proof (compute_grid_ok _ _ _ _ Q2) as Gr. destruct (New (g r) (ar r) (init r) (g' r) Gr A2) as (Y1 & Y2 & Y3 & Y4).
    split; [apply construct_good with (env := env) (ar := ar r); assumption|]. cbn [abs te th tj tfresh]. split; [congruence|].
    split; [|split]; intros c i j k _ _ _ _ _; [rewrite Y1, Z1|rewrite Y2, Z2|rewrite Y3, Z3]; reflexivity.
  - intros m _ _. apply Z1.
  - intros m _ _. apply Z3.
  - exists bound. intros eager m w Hw. destruct (HB eager m w Hw) as (N1 & N2 & N3). split; [exact N1|]. split; [exact N2|].
    intros Hf r c i j k Hr Hc Hi Hj Hk. destruct (N3 Hf r Hr) as (Gw & _ & FE & FH & FJ).
    destruct (HT r Hr) as [_ _ _ Tx Ty Tz _ _ _ _ _ _ _ _ _ _ _ _ _ _ _ _].
    assert (Ls : r * nz + k < NZ) by (rewrite FZ; nia).
    assert (OB : off nz r + (below r + k) = r * nz + k) by (pose proof (off_below size nz Nx Ny Hsz Fn HX HY r); unfold off; lia).
    assert (DM : below r + k < dimr size nz r) by (unfold dimr; lia).
    assert (SW : forall f, sized (fsel f (rst (wrank w r))) Nx Ny (dimr size nz r)) by (intros f; rewrite <- Tx, <- Ty, <- Tz; apply good_sized, Gw).
    assert (SG : forall f, sized (fsel f sN) Nx Ny (gNZ size nz)) by (intros f; rewrite <- Tgx, <- Tgy, <- Tgz; apply good_sized, GN).
    pose proof (SW 0) as SW0. pose proof (SW 1) as SW1. pose proof (SW 2) as SW2. pose proof (SG 0) as SG0. pose proof (SG 1) as SG1. pose proof (SG 2) as SG2.
    cbn [fsel] in *. assert (GZ : r * nz + k < gNZ size nz) by (unfold gNZ; lia).
    destruct QN as [QN _]. destruct (QN (ix Nx Ny (gNZ size nz) c i j (r * nz + k))) as (QE & QH & QJ).
    { rewrite EN. unfold gNZ. rewrite <- FZ. apply ix_lt; assumption. }
    cbn [abs te th tj] in QE, QH, QJ.
    rewrite (entry_ix _ _ _ _ _ _ _ _ SW0), (entry_ix _ _ _ _ _ _ _ _ SW1), (entry_ix _ _ _ _ _ _ _ _ SW2).
    rewrite (entry_ix _ _ _ _ _ _ _ _ SG0), (entry_ix _ _ _ _ _ _ _ _ SG1), (entry_ix _ _ _ _ _ _ _ _ SG2).
    rewrite QE, QH, QJ, <- OB. split; [|split].
    + apply FE; (assumption || lia).
    + apply FH; (assumption || lia).
    + apply FJ; (assumption || lia).
Qed.
Print Assumptions C48_distributed_partial.

(** *** A case: 3 x 3 x 4 cells on two ranks, a dielectric across both, E and H excited, one absorbing layer
    at either end of z. *)
Definition cut (Nx Ny NZ b n : nat) (lg : list Qc) : list Qc :=
  tab (3 * (Nx * Ny * n)) (on_ix (fun c i j k => get lg (ix Nx Ny NZ c i j (b + k))) Nx Ny n).
Lemma cut_layers Nx Ny NZ b n lg : List.length lg = 3 * (Nx * Ny * NZ) -> layers_of Nx Ny NZ b n (cut Nx Ny NZ b n lg) lg.
Proof.
  intros H. split; [apply tab_length|]. split; [exact H|]. intros c i j k Hc Hi Hj Hk. unfold cut. rewrite !pos3_ix.
  rewrite get_tab by (apply ix_lt; assumption). rewrite on_ix_ix by assumption. reflexivity.
Qed.
Definition gridof (r : result (Grid Qc)) : Grid Qc := match r with Ok g => g | Err _ => gridQ end.
Definition gs48 : Grid Qc := gridof (compute_grid (linspace (q 0 1) (q 3 1) 3) (linspace (q 0 1) (q 3 1) 3) (linspace (q 0 1) (q 4 1) 4)).
Definition mg48 (r : nat) : result (Tile Qc * Grid Qc) := mpi_grid (q 0 1) (q 3 1) (q 0 1) (q 3 1) (q 0 1) (q 4 1) 3 3 5 2 r.
Definition g48 (r : nat) : Grid Qc := gridof (do p <- mg48 r; Ok (snd p)).
Definition so48 (n b : nat) : solid Qc :=
  {| so_key := "glass"; so_mask := tab (9 * n) (fun m => (b + m mod n =? 1) || (b + m mod n =? 2)); so_mat := MList (Fin (q 2 1)) (Fin (q 1 1)) None |}.
Definition ar48 (so : list (solid Qc)) (mp : option (nat * nat)) : Args Qc :=
  {| ar_bl := bcs "pec"; ar_bh := bcs "PEC"; ar_bg := vac; ar_solids := so; ar_npml := 1; ar_cfln := q 1 2; ar_dt := Some (q 1 4); ar_mpi := mp |}.
(** As [ar48] with absorbing z ends, and [envQ] with [n] conductivities for [n] layers also at [n = 0]. *)
Definition az48 (so : list (solid Qc)) (mp : option (nat * nat)) : Args Qc :=
  {| ar_bl := {| bcx := "pec"; bcy := "pec"; bcz := "pml" |}; ar_bh := {| bcx := "PEC"; bcy := "PEC"; bcz := "pml" |}; ar_bg := vac; ar_solids := so;
     ar_npml := 1; ar_cfln := q 1 2; ar_dt := Some (q 1 16); ar_mpi := mp |}.
Definition envL : Env Qc :=
  {| e_eps0 := q 1 1; e_mu0 := q 1 1; e_c := q 1 1; e_pml_lo := q 1 200; e_pml_hi := q 10 1;
     e_sqrt := fun x => x; e_geom := fun a b n => firstn n (linspace a b (n - 1)) |}.
Definition E48 : list Qc := tab 108 (on_ix (fun c i j k => if (c =? 2) && (i =? 1) && (j =? 1) then q (Z.of_nat k + 1) 1 else q 0 1) 3 3 4).
Definition H48 : list Qc := tab 108 (fun n => q (Z.of_nat (n * n) mod 7) 1).
Definition srcg48 (m : nat) : list (op Qc) := if m =? 0 then [OWriteE E48; OWriteH H48] else [OWriteJ E48].
Definition src48 (r m : nat) : list (op Qc) :=
  let c := cut 3 3 4 r 3 in if m =? 0 then [OWriteE (c E48); OWriteH (c H48)] else [OWriteJ (c E48)].

Lemma gs48_ok : compute_grid (linspace (q 0 1) (q 3 1) 3) (linspace (q 0 1) (q 3 1) 3) (linspace (q 0 1) (q 4 1) 4) = Ok gs48.
Proof.
  unfold gs48. destruct (compute_grid _ _ _) as [g|e] eqn:E; [reflexivity|]. exfalso.
  assert (X : match compute_grid (linspace (q 0 1) (q 3 1) 3) (linspace (q 0 1) (q 3 1) 3) (linspace (q 0 1) (q 4 1) 4) with Ok _ => true | Err _ => false end = true) by (vm_compute; reflexivity).
  rewrite E in X. discriminate X.
Qed.

Lemma g48_ok r : r < 2 -> exists t, mg48 r = Ok (t, g48 r).
Proof.
  intros Hr. unfold g48. destruct (mg48 r) as [[t g]|e] eqn:E; [exists t; reflexivity|]. exfalso.
  assert (X : match mg48 r with Ok _ => true | Err _ => false end = true) by (destruct r as [|[|r]]; [vm_compute; reflexivity..|lia]).
  rewrite E in X. discriminate X.
Qed.
Lemma built_ok env g (ar : Args Qc) d : match construct env g ar with Ok (s, _) => Qc_eq_bool (sdt s) d && scond s | Err _ => false end = true ->
  exists s g', construct env g ar = Ok (s, g') /\ sdt s = d /\ scond s = true.
Proof.
  destruct (construct env g ar) as [[s g']|]; [|discriminate]. intros H. apply andb_true_iff in H. exists s, g'.
  split; [reflexivity|]. split; [apply Qc_eq_bool_correct, H|apply H].
Qed.
Lemma two {A : Type} (P : nat -> A -> Prop) : (exists a, P 0 a) -> (exists a, P 1 a) -> exists f, forall r, r < 2 -> P r (f r).
Proof. intros [a Ha] [b Hb]. exists (fun r => if r =? 0 then a else b). intros [|[|r]] H; [exact Ha|exact Hb|lia]. Qed.

Example C48_case : exists gs' ss tile g' init,
  construct envL gs48 (az48 [so48 4 0] None) = Ok (ss, gs') /\
  (forall r, r < 2 -> mg48 r = Ok (tile r, g48 r) /\ construct envL (g48 r) (az48 [so48 3 r] (Some (r, 2))) = Ok (init r, g' r) /\
     Forall2 (solid_layers 3 4 r 3) [so48 3 r] [so48 4 0] /\ sdt (init r) = sdt ss /\ scond (init r) = scond ss) /\
  (forall r m, r < 2 -> Forall2 (op_layers 3 3 4 r 3) (src48 r m) (srcg48 m)) /\ (forall m, Forall (op_off_wall 3 3 4) (srcg48 m)) /\
  exists bound, forall eager m w, wsteps halo_send halo_recv eager 2 m (start init (fun r => mpi_program 2 r 2 (src48 r))) w ->
    m <= bound /\ (finished 2 w -> this (entry (sE (rst (wrank w 0))) 2 1 1 0) = (66031 # 65536)%Q).
Proof.
  assert (H : simulate2 envL gs48 (az48 [so48 4 0] None) (fun s _ => Qc_eq_bool (sdt s) (q 1 16) && scond s)
    [(flat_map (fun m => srcg48 m ++ [OStep]) (seq 0 2), [(0, (2, 1, 1, 0), q 66031 65536)])] = true) by (vm_compute; reflexivity).
  destruct (simulated2 _ _ _ _ _ (go_axes envL _ _ _ _ gs48_ok) H) as (ss & gs' & Hc & _ & Hd & F). apply andb_true_iff in Hd. destruct Hd as [Hd Hd']. apply Qc_eq_bool_correct in Hd.
  inversion F as [|? ? (sN & RN & ON) _]; subst. inversion ON as [|? ? VN _]; subst. cbn [holds sel fst] in VN, RN.
  assert (B : exists p : nat -> Solver Qc * Grid Qc, forall r, r < 2 ->
    construct envL (g48 r) (az48 [so48 3 r] (Some (r, 2))) = Ok (fst (p r), snd (p r)) /\ sdt (fst (p r)) = q 1 16 /\ scond (fst (p r)) = true).
  { apply (two (fun r p => construct envL (g48 r) (az48 [so48 3 r] (Some (r, 2))) = Ok (fst p, snd p) /\ sdt (fst p) = q 1 16 /\ scond (fst p) = true)).
    - destruct (built_ok envL (g48 0) (az48 [so48 3 0] (Some (0, 2))) (q 1 16) ltac:(vm_compute; reflexivity)) as (s & g' & A & D). exists (s, g'). auto.
    - destruct (built_ok envL (g48 1) (az48 [so48 3 1] (Some (1, 2))) (q 1 16) ltac:(vm_compute; reflexivity)) as (s & g' & A & D). exists (s, g'). auto. }
  destruct B as [p HB]. destruct (two (fun r t => mg48 r = Ok (t, g48 r)) (g48_ok 0 ltac:(lia)) (g48_ok 1 ltac:(lia))) as [tile Ht].
  assert (HR : forall r, r < 2 -> mg48 r = Ok (tile r, g48 r) /\ construct envL (g48 r) (az48 [so48 3 r] (Some (r, 2))) = Ok (fst (p r), snd (p r)) /\
     Forall2 (solid_layers 3 4 r 3) [so48 3 r] [so48 4 0] /\ sdt (fst (p r)) = sdt ss /\ scond (fst (p r)) = scond ss).
  { intros r Hr. destruct (HB r Hr) as [B1 B2]. split; [apply Ht, Hr|]. split; [exact B1|]. split; [|split; [destruct B2; congruence|transitivity true; [apply B2|symmetry; exact Hd']]]. constructor; [|constructor].
    split; [reflexivity|]. intros i j k Hj Hk. cbn [so48 so_mask]. 
    assert (R : r = 0 \/ r = 1) by lia. assert (J : j = 0 \/ j = 1 \/ j = 2) by lia. assert (Kk : k = 0 \/ k = 1 \/ k = 2) by lia.
    destruct (Nat.lt_ge_cases i 3) as [Li|Li].
    - assert (I : i = 0 \/ i = 1 \/ i = 2) by lia.
      destruct R as [-> | ->], I as [-> |[-> | ->]], J as [-> |[-> | ->]], Kk as [-> |[-> | ->]]; vm_compute; reflexivity.
    - rewrite !nth_overflow by (rewrite tab_length; lia). reflexivity. }
  assert (HS : forall r m, r < 2 -> Forall2 (op_layers 3 3 4 r 3) (src48 r m) (srcg48 m)).
  { intros r m _. unfold src48, srcg48. destruct (m =? 0); repeat constructor; unfold op_layers; apply cut_layers; unfold E48, H48; apply tab_length. }
  assert (HW : off_wall 3 3 4 E48).
  { intros c i j k a Hc' Hi Hj Hk Ha Na Hw. unfold E48. rewrite pos3_ix, get_tab by (pose proof (ix_lt 3 3 4 c i j k Hc' Hi Hj Hk); cbn in *; lia).
    rewrite on_ix_ix by assumption. destruct (Nat.eqb_spec c 2); [|reflexivity]. destruct (Nat.eqb_spec i 1); [|reflexivity]. destruct (Nat.eqb_spec j 1); [|reflexivity].
    exfalso. subst. destruct a as [|[|[|a]]]; cbn in Hw; lia. }
  assert (HD : forall m, Forall (op_off_wall 3 3 4) (srcg48 m)).
  { intros m. unfold srcg48. destruct (m =? 0); repeat constructor; exact HW. }
  exists gs', ss, tile, (fun r => snd (p r)), (fun r => fst (p r)). split; [exact Hc|]. split; [exact HR|]. split; [exact HS|]. split; [exact HD|].
  destruct (C48_distributed_partial Qc _ _ _ char0_Qc envL (q 0 1) (q 3 1) (q 0 1) (q 3 1) (q 0 1) (q 4 1) 3 3 5 2 ltac:(lia) ltac:(lia)
    gs48 gs' (az48 [so48 4 0] None) ss gs48_ok Hc eq_refl) with (tile := tile) (g := g48) (g' := fun r => snd (p r))
    (ar := fun r => az48 [so48 3 r] (Some (r, 2))) (init := fun r => fst (p r)) (n := 2) (src := src48) (srcg := srcg48) as (sN' & RN' & bound & HN).
  - intros [|[|a]] La; [right; reflexivity..|lia].
  - intros [|[|a]] La; [right; reflexivity..|lia].
  - right; reflexivity.
  - right; reflexivity.
  - intros _. split; [|vm_compute; lia]. intros a b m. cbn [e_geom envL]. rewrite firstn_length, (tab_length _ _ : List.length (linspace a b (m - 1)) = _). lia.
  - intros r Hr. destruct (HR r Hr) as (A & B & C & D). split; [exact A|]. split; [exact B|]. split; [reflexivity|]. split; [reflexivity|]. split; [reflexivity|]. split; [reflexivity|].
    split; [|split; [apply D|intros _; split; [reflexivity|apply D]]]. assert (R : r = 0 \/ r = 1) by lia. destruct R as [-> | ->]; exact C.
  - intros r m Hr _. pose proof (HS r m Hr) as X. assert (R : r = 0 \/ r = 1) by lia. destruct R as [-> | ->]; exact X.
  - intros m _. apply HD.
  - exists bound. intros eager m w Hw. destruct (HN eager m w Hw) as (N1 & _ & N3). split; [exact N1|]. intros Hf.
    destruct (N3 Hf 0 2 1 1 0) as (X & _); [cbn; lia..|]. cbn in X.
    assert (Y : sN = sN'). { assert (Z : Ok sN = Ok sN') by (rewrite <- RN, <- RN'; reflexivity). injection Z as <-. reflexivity. }
    subst sN'. rewrite X, VN. reflexivity.
Qed.

(** *** One rank: its grid has a fourth layer, so the wall of the serial solver lies inside it.
    Only H is excited, away from every wall; after one step E differs on a cell the rank owns. *)
Lemma mpi_alone {T} {NT : Num T} {OT : NumOrd T} (s s' : Solver T) : one_step s = Ok s' ->
  exists s1 s2, mpi_H s = Ok s1 /\ mpi_E s1 = Ok s2 /\ mpi_J s2 = Ok s'.
Proof.
  unfold one_step, mpi_H, mpi_E, mpi_J. intros E. binv E s1 A. rewrite A. cbn [bind]. binv E H B. rewrite B. cbn [bind].
  binv E E0 C. binv E J D. injection E as <-. eexists. eexists. split; [reflexivity|].
  cbn [with_fields sH sE sJ]. unfold updE in C |- *. unfold sN in *. cbn [with_fields sNx sNy sNz smE sE sdt sieps sJ sH] in C |- *. rewrite C. cbn [bind].
  split; [reflexivity|]. cbn [with_fields sH sE sJ]. unfold updJ in D |- *. cbn [with_fields scond ssigma sJ sE]. rewrite D. reflexivity.
Qed.
Lemma mpi_grid_obj {T} {NT : Num T} {OT : NumOrd T} (env : Env T) a b c d e f Nx Ny Nz size r t g : mpi_grid a b c d e f Nx Ny Nz size r = Ok (t, g) -> grid_obj env g.
Proof. unfold mpi_grid. intros M. binv M t0 A. binv M g0 B. injection M as _ <-. exact (go_axes env _ _ _ _ B). Qed.
Definition gs1 : Grid Qc := gridof (compute_grid (linspace (q 0 1) (q 3 1) 3) (linspace (q 0 1) (q 3 1) 3) (linspace (q 0 1) (q 3 1) 3)).
Definition mg1 : result (Tile Qc * Grid Qc) := mpi_grid (q 0 1) (q 3 1) (q 0 1) (q 3 1) (q 0 1) (q 3 1) 3 3 3 1 0.
Definition g1 : Grid Qc := gridof (do p <- mg1; Ok (snd p)).
(** H_y = 1 in cell (1, 1, 1) of a grid of [n] layers. *)
Definition H1 (n : nat) : list Qc := tab (3 * (3 * 3 * n)) (on_ix (fun c i j k => if (c =? 1) && (i =? 1) && (j =? 1) && (k =? 1) then q 1 1 else q 0 1) 3 3 n).
Theorem C48_one_rank_refuted : exists tile gs' ss sN g' s w,
  compute_grid (linspace (q 0 1) (q 3 1) 3) (linspace (q 0 1) (q 3 1) 3) (linspace (q 0 1) (q 3 1) 3) = Ok gs1 /\
  construct envQ gs1 (ar48 [] None) = Ok (ss, gs') /\
  mpi_grid (q 0 1) (q 3 1) (q 0 1) (q 3 1) (q 0 1) (q 3 1) 3 3 3 1 0 = Ok (tile, g1) /\
  construct envQ g1 (ar48 [] (Some (0, 1))) = Ok (s, g') /\ sdt s = sdt ss /\
  (forall c i j k, c < 3 -> i < 3 -> j < 3 -> k < 3 -> get (H1 4) (pos3 3 3 4 c i j k) = get (H1 3) (pos3 3 3 3 c i j k)) /\
  run ss [OWriteH (H1 3); OStep] = Ok sN /\
  wsteps halo_send halo_recv false 1 5 (start (fun _ => s) (fun r => mpi_program 1 r 1 (fun _ => [OWriteH (H1 4)]))) w /\ finished 1 w /\
  this (entry (sE sN) 0 1 1 2) = 0%Q /\ this (entry (sE (rst (wrank w 0))) 0 1 1 2) = (1 # 4)%Q.
Proof.
  assert (G : compute_grid (linspace (q 0 1) (q 3 1) 3) (linspace (q 0 1) (q 3 1) 3) (linspace (q 0 1) (q 3 1) 3) = Ok gs1).
  { unfold gs1. destruct (compute_grid _ _ _) as [g|e] eqn:E; [reflexivity|]. exfalso.
    assert (X : match compute_grid (linspace (q 0 1) (q 3 1) 3) (linspace (q 0 1) (q 3 1) 3) (linspace (q 0 1) (q 3 1) 3) with Ok _ => true | Err _ => false end = true) by (vm_compute; reflexivity).
    rewrite E in X. discriminate X. }
  assert (M : exists t, mpi_grid (q 0 1) (q 3 1) (q 0 1) (q 3 1) (q 0 1) (q 3 1) 3 3 3 1 0 = Ok (t, g1)).
  { fold mg1. unfold g1. destruct mg1 as [[t g]|e] eqn:E; [exists t; reflexivity|]. exfalso.
    assert (X : match mg1 with Ok _ => true | Err _ => false end = true) by (vm_compute; reflexivity). rewrite E in X. discriminate X. }
  destruct M as [t M].
  assert (GO : grid_obj envQ g1). { exact (mpi_grid_obj _ _ _ _ _ _ _ _ _ _ _ _ _ _ M). }
  assert (S1 : simulate2 envQ gs1 (ar48 [] None) (fun s _ => Qc_eq_bool (sdt s) (q 1 4)) [([OWriteH (H1 3); OStep], [(0, (0, 1, 1, 2), q 0 1)])] = true) by (vm_compute; reflexivity).
  assert (S2 : simulate2 envQ g1 (ar48 [] (Some (0, 1))) (fun s _ => Qc_eq_bool (sdt s) (q 1 4)) [([OWriteH (H1 4); OStep], [(0, (0, 1, 1, 2), q 1 4)])] = true) by (vm_compute; reflexivity).
  destruct (simulated2 _ _ _ _ _ (go_axes envQ _ _ _ _ G) S1) as (ss & gs' & Hc & _ & Hd & F). inversion F as [|? ? (sN & RN & ON) _]; subst. inversion ON as [|? ? VN _]; subst.
  destruct (simulated2 _ _ _ _ _ GO S2) as (s & g' & Hc2 & _ & Hd2 & F2). inversion F2 as [|? ? (s2 & R2 & O2) _]; subst. inversion O2 as [|? ? V2 _]; subst.
  apply Qc_eq_bool_correct in Hd, Hd2. cbn [holds sel fst] in *.
  unfold run in R2. cbn [seq_upd] in R2. binv R2 sa A1. binv R2 sb A2. injection R2 as ->. cbn [do_op] in A2.
  assert (A0 : run s [OWriteH (H1 4)] = Ok sa) by (unfold run; cbn [seq_upd]; rewrite A1; reflexivity).
  destruct (mpi_alone sa s2 A2) as (u1 & u2 & U1 & U2 & U3).
  eexists. exists gs', ss, sN, g', s. eexists. split; [exact G|]. split; [exact Hc|]. split; [exact M|]. split; [exact Hc2|]. split; [congruence|].
  split. { intros c i j k Lc Li Lj Lk. unfold H1. rewrite !pos3_ix, !get_tab by (apply ix_lt; lia). rewrite !on_ix_ix by lia. reflexivity. }
  split; [exact RN|]. split; [|split; [|split]].
  - eapply ws_more; [eapply w_local with (r := 0); [lia|reflexivity|]; exact A0|].
    eapply ws_more; [eapply w_local with (r := 0); [lia|reflexivity|]; exact U1|].
    eapply ws_more; [eapply w_local with (r := 0); [lia|reflexivity|]; reflexivity|].
    eapply ws_more; [eapply w_local with (r := 0); [lia|reflexivity|]; exact U2|].
    eapply ws_more; [eapply w_local with (r := 0); [lia|reflexivity|]; exact U3|]. apply ws_done.
  - intros [|r] Hr; [reflexivity|lia].
  - rewrite VN. reflexivity.
  - cbn [wrank set_rank next_rank rst Nat.eqb]. rewrite V2. reflexivity.
Qed.
Print Assumptions C48_one_rank_refuted.
