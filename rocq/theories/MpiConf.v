(** Lemmas: the coefficients of a rank are those of the global solver on the rank's layers. *)
From Coq Require Import List Arith ZArith Bool String Lia Ring Field.
From Verif Require Import Num Vec Index Matrix FieldModel FieldSpec FieldProofs FieldProofs2
  GridModel GridProofs SolverModel SolverPlanes SolverBuild SolverMaterials SolverKern SolverCons SolverPmlSpec SolverPml
  MpiModel MpiSolverModel MpiTiles MpiHalo MpiBc MpiSim.
Import ListNotations.

(** Absorbing layers, in any case. *)
Definition absorbing (s : string) : Prop := named s "pml" = true.
(** A wall the distributed run can reproduce: electric, absorbing, or the inside of the domain. *)
Definition plain (s : string) : Prop := electric s \/ absorbing s \/ s = "mpi"%string.
Lemma absorbing_cls s : absorbing s -> cls s = cls "pml".
Proof.
  intros H. assert (L : lower s = "pml"%string) by (apply String.eqb_eq, H).
  assert (P : s <> "pmc"%string) by (intros ->; discriminate).
  unfold cls, is_pec, is_pmc_any, is_pmc_face, named. apply String.eqb_neq in P. rewrite P, L. reflexivity.
Qed.
Lemma plain_facts s : plain s -> named s "periodic" = false /\ named s "abc" = false /\ is_pmc_any s = false.
Proof.
  intros [H |[H | ->]]; [| |repeat split; reflexivity]; [apply electric_cls in H|apply absorbing_cls in H]; unfold cls in H; injection H as H1 H2 H3 H4 H5 H6;
  rewrite H1, H3, H5; repeat split; reflexivity.
Qed.
Lemma electric_no_pml s : electric s -> named s "pml" = false.
Proof. intros H. apply electric_cls in H. unfold cls in H. injection H as _ _ _ _ _ H. rewrite H. reflexivity. Qed.
Lemma absorbing_pec s : absorbing s -> is_pec s = true.
Proof. intros H. apply absorbing_cls in H. unfold cls in H. injection H as _ H _ _ _ _. rewrite H. reflexivity. Qed.
Lemma electric_pec s : electric s -> is_pec s = true.
Proof. intros H. apply electric_cls in H. unfold cls in H. injection H as _ H _ _ _ _. rewrite H. reflexivity. Qed.

Section Conf.
  Context {T : Type} {NT : Num T} {LT : NumLaws T} {OT : NumOrd T}.
  Add Field field_T_conf : (@num_field T NT LT).
  Local Open Scope num_scope.

  Lemma any_plain p b : (forall a, (a < 3)%nat -> p (bc_at b a) = false) -> any_bc p b = false.
  Proof. intros H. unfold any_bc, axes. cbn [existsb bc_at]. pose proof (H 0%nat ltac:(lia)) as A. pose proof (H 1%nat ltac:(lia)) as B. pose proof (H 2%nat ltac:(lia)) as C. cbn [bc_at] in *. rewrite A, B, C. reflexivity. Qed.

  Lemma wrapL_off (w : nat -> bool) (L : Field T) nx ny nz d i j k x : (d < 3)%nat -> (forall a, (a < 3)%nat -> w a = false) -> wrapL w L nx ny nz d i j k x = x.
  Proof. intros Hd Hw. unfold wrapL. rewrite (Hw d Hd). reflexivity. Qed.
  Lemma wrapA_off (w : nat -> bool) (L : Field T) nx ny nz d i j k x : (forall a, (a < 3)%nat -> w a = false) -> wrapA w L nx ny nz d i j k x = x.
  Proof.
    intros Hw. unfold wrapA, wrapA1. pose proof (Hw 0%nat ltac:(lia)) as H0. pose proof (Hw 1%nat ltac:(lia)) as H1. pose proof (Hw 2%nat ltac:(lia)) as H2.
    rewrite H0, H1, H2. reflexivity.
  Qed.

  (** Plain walls leave the dual metric alone and mask no row. *)
  Lemma plain_construct (env : Env T) g ar s g' : grid_ok g -> construct env g ar = Ok (s, g') ->
    (forall a, (a < 3)%nat -> plain (bc_at (sbl s) a)) -> (forall a, (a < 3)%nat -> plain (bc_at (sbh s) a)) ->
    (exists M, build_materials env (gNx g) (gNy g) (gNz g) (ar_bg ar) (has_pml (sbl s) (sbh s)) (ar_solids ar) = Ok M /\ mats_sized M (gNx g) (gNy g) (gNz g) /\
       (if has_pml (sbl s) (sbh s) then fill_pml env (ar_npml ar) (sbl s) (sbh s) (mt_ieps M) (mt_sigma M) else Ok (mt_ieps M, mt_sigma M)) = Ok (sieps s, ssigma s) /\
       simu s = mt_imu M /\ scond s = mt_cond M) /\
    sized (sieps s) (gNx g) (gNy g) (gNz g) /\ sized (ssigma s) (gNx g) (gNy g) (gNz g) /\
    (sbl s, sbh s) = mpi_bc (ar_mpi ar) (ar_bl ar) (ar_bh ar) /\
    sized (gtL g') (gNx g) (gNy g) (gNz g) /\ sized (gitA g') (gNx g) (gNy g) (gNz g) /\
    (forall d i j k, (d < 3)%nat -> (i < gNx g)%nat -> (j < gNy g)%nat -> (k < gNz g)%nat ->
      entry (gtL g') d i j k = entry (gtL g) d i j k /\ entry (gitA g') d i j k = entry (gitA g) d i j k) /\
    (forall d i j k, rowv (sbl s) (sbh s) (gNx g) (gNy g) (gNz g) d i j k = (1 : T)).
  Proof.
    intros Hg Hc Pl Ph.
    destruct (construct_spec env g ar s g' Hg Hc) as
      (bo & M & Hbo & Hbc & HM & SM & Hms & _ & E1 & E2 & E3 & E4 & E5 & E6 & E7 & E8 & E9 & E10 & E11
       & E12 & Sie & Sim & Ssg & E13 & EmH & EmE & Eop & Eg).
    destruct (apply_bc_spec g (sbl s) (sbh s) Hg) as
      [bo' [Fr [Fc [Hbo' [S1 [S2 [Sr [Sc [Amask [HC [Ha Hp]]]]]]]]]]].
    rewrite Hbo in Hbo'. injection Hbo' as <-.
    change (bo_pml bo = has_pml (sbl s) (sbh s)) in Hp. rewrite Hp in *.
    split; [exists M; auto 10|]. split; [exact Sie|]. split; [exact Ssg|]. split; [exact Hbc|].
    rewrite Eg. cbn [with_dual gtL gitA]. split; [exact S1|]. split; [exact S2|]. split.
    - intros d i j k Hd Hi Hj Hk. destruct (Amask d i j k Hd Hi Hj Hk) as (_ & _ & A1 & A2). rewrite A1, A2.
      assert (Wp : forall a, (a < 3)%nat -> w_per (sbl s) (sbh s) a = false).
      { intros a La. unfold w_per. destruct (plain_facts _ (Pl a La)) as (-> & _). reflexivity. }
      assert (Wa : forall a, (a < 3)%nat -> w_abc (sbh s) a = false).
      { intros a La. unfold w_abc. destruct (plain_facts _ (Ph a La)) as (_ & -> & _). reflexivity. }
      rewrite (wrapL_off _ _ _ _ _ _ _ _ _ _ Hd Wa), (wrapL_off _ _ _ _ _ _ _ _ _ _ Hd Wp), (wrapA_off _ _ _ _ _ _ _ _ _ _ Wa), (wrapA_off _ _ _ _ _ _ _ _ _ _ Wp). split; reflexivity.
    - intros d i j k. unfold rowv, pmc_any. rewrite !any_plain; [reflexivity|..]; intros a La;
        [destruct (plain_facts _ (Ph a La)) as (_ & _ & Q)|destruct (plain_facts _ (Pl a La)) as (_ & _ & Q)]; exact Q.
  Qed.

  (** A solid of a rank: same material, same cells. *)
  Definition part_of (Ny Nz1 Nz2 b : nat) (so1 so2 : solid T) : Prop :=
    so_mat so1 = so_mat so2 /\ forall i j k, (k < Nz1)%nat -> (j < Ny)%nat -> cell_mask Ny Nz1 (so_mask so1) i j k = cell_mask Ny Nz2 (so_mask so2) i j (b + k).

  Lemma mats_tile (env : Env T) Nx Ny Nz1 Nz2 b bg c1 c2 so1 so2 M1 M2 :
    build_materials env Nx Ny Nz1 bg c1 so1 = Ok M1 -> build_materials env Nx Ny Nz2 bg c2 so2 = Ok M2 ->
    Forall2 (part_of Ny Nz1 Nz2 b) so1 so2 ->
    (c1 = c2 -> mt_cond M1 = mt_cond M2) /\
    forall c i j k, (c < 3)%nat -> (i < Nx)%nat -> (j < Ny)%nat -> (k < Nz1)%nat -> (b + k < Nz2)%nat ->
      entry (mt_ieps M1) c i j k = entry (mt_ieps M2) c i j (b + k) /\ entry (mt_imu M1) c i j k = entry (mt_imu M2) c i j (b + k) /\
      entry (mt_sigma M1) c i j k = entry (mt_sigma M2) c i j (b + k).
  Proof.
    unfold build_materials. intros H1 H2 HF.
    binv H1 e1 A1. binv H2 e2 A2. rewrite A1 in A2. injection A2 as <-.
    set (sb := match me_sigma e1 with Some s => s | None => 0 end) in *.
    binv H1 ie1 B1. binv H1 im1 C1. binv H1 sg1 D1. binv H2 ie2 B2. binv H2 im2 C2. binv H2 sg2 D2.
    assert (U : forall Nz x F, uniform_field Nx Ny Nz x = Ok F -> sized F Nx Ny Nz /\ forall c i j k, (c < 3)%nat -> (i < Nx)%nat -> (j < Ny)%nat -> (k < Nz)%nat -> entry F c i j k = x).
    { intros Nz x F E. destruct (uniform_field_spec Nx Ny Nz x) as (F' & E' & S & V). rewrite E in E'. injection E' as <-. auto. }
    destruct (U _ _ _ B1) as [SB1 VB1]. destruct (U _ _ _ B2) as [SB2 VB2]. destruct (U _ _ _ C1) as [SC1 VC1].
    destruct (U _ _ _ C2) as [SC2 VC2]. destruct (U _ _ _ D1) as [SD1 VD1]. destruct (U _ _ _ D2) as [SD2 VD2].
    revert H1 H2.
    set (Ma := {| mt_ieps := ie1; mt_imu := im1; mt_sigma := sg1; mt_cond := _ |}). set (Mb := {| mt_ieps := ie2; mt_imu := im2; mt_sigma := sg2; mt_cond := _ |}).
    assert (Sa : mats_sized Ma Nx Ny Nz1) by (split; [|split]; assumption).
    assert (Sb : mats_sized Mb Nx Ny Nz2) by (split; [|split]; assumption).
    assert (Ec : c1 = c2 -> mt_cond Ma = mt_cond Mb) by (intros ->; reflexivity).
    assert (Ee : forall c i j k, (c < 3)%nat -> (i < Nx)%nat -> (j < Ny)%nat -> (k < Nz1)%nat -> (b + k < Nz2)%nat ->
      entry (mt_ieps Ma) c i j k = entry (mt_ieps Mb) c i j (b + k) /\ entry (mt_imu Ma) c i j k = entry (mt_imu Mb) c i j (b + k) /\
      entry (mt_sigma Ma) c i j k = entry (mt_sigma Mb) c i j (b + k)).
    { intros c i j k Hc Hi Hj Hk HK. cbn [Ma Mb mt_ieps mt_imu mt_sigma]. rewrite VB1, VB2, VC1, VC2, VD1, VD2 by assumption. auto. }
    clearbody Ma Mb. clear - HF Sa Sb Ec Ee LT. revert Ma Mb Sa Sb Ec Ee. induction HF as [|so1 so2 l1 l2 [Em Ek] HF IH]; intros Ma Mb Sa Sb Ec Ee H1 H2.
    - injection H1 as <-. injection H2 as <-. auto.
    - cbn [seq_upd] in H1, H2. binv H1 M1' X1. binv H2 M2' X2.
      destruct (apply_solid_spec _ _ _ _ _ _ _ _ Sa X1) as (S1 & ex1 & F1 & Q1 & V1). destruct (apply_solid_spec _ _ _ _ _ _ _ _ Sb X2) as (S2 & ex2 & F2 & Q2 & V2).
      rewrite Em in F1. rewrite F1 in F2. injection F2 as <-.
      apply (IH M1' M2' S1 S2); [intros Ecc; rewrite Q1, Q2, (Ec Ecc); reflexivity| |exact H1|exact H2].
      intros c i j k Hc Hi Hj Hk HK. destruct (V1 c i j k Hc Hi Hj Hk) as (-> & -> & ->). destruct (V2 c i j (b + k)%nat Hc Hi Hj HK) as (-> & -> & ->).
      destruct (Ee c i j k Hc Hi Hj Hk HK) as (-> & -> & ->). rewrite (Ek i j k Hk Hj). auto.
  Qed.

  (** Layers at the ends in z only. *)
  Lemma fill_ends (env : Env T) n bl bh Nx Ny Nz ie sg : (forall a b m, List.length (e_geom env a b m) = m) -> (1 <= n)%nat ->
    (0 < Nx)%nat -> (0 < Ny)%nat -> (n + 2 <= Nz)%nat ->
    (absorbing (bcz bl) -> absorbing (bcz bh) -> 2 * n + 2 <= Nz)%nat ->
    named (bcx bl) "pml" = false -> named (bcy bl) "pml" = false -> named (bcx bh) "pml" = false -> named (bcy bh) "pml" = false ->
    sized ie Nx Ny Nz -> sized sg Nx Ny Nz ->
    exists ie' sg', fill_pml env n bl bh ie sg = Ok (ie', sg') /\
      forall c i j k, (c < 3)%nat -> (i < Nx)%nat -> (j < Ny)%nat -> (k < Nz)%nat ->
        entry ie' c i j k = (if named (bcz bh) "pml" && (Nz - 1 - k <? n)%nat then entry ie c (Nx / 2) (Ny / 2) (Nz - n - 1)
                             else if named (bcz bl) "pml" && (k <? n)%nat then entry ie c (Nx / 2) (Ny / 2) (n + 1) else entry ie c i j k) /\
        entry sg' c i j k = (if named (bcz bh) "pml" && (Nz - 1 - k <? n)%nat then graded (entry sg c (Nx / 2) (Ny / 2) (Nz - n - 1)) (profile env n (true, 2%nat) (Nz - 1 - k))
                             else if named (bcz bl) "pml" && (k <? n)%nat then graded (entry sg c (Nx / 2) (Ny / 2) (n + 1)) (profile env n (false, 2%nat) k) else entry sg c i j k).
  Proof.
    intros Gl Hn HX HY Hz Hb X1 Y1 X2 Y2 S1 S2.
    assert (Only : forall f, (snd f < 3)%nat -> named (wall_name bl bh f) "pml" = true -> snd f = 2%nat).
    { intros [[|] [|[|[|a]]]] Ha Hf; unfold wall_name in Hf; cbn [fst snd bc_at] in Ha, Hf |- *; try lia; congruence. }
    destruct (fill_gen env n bl bh Nx Ny Nz Gl Hn) with (ie := ie) (sg := sg) as (ie' & sg' & E & _ & _ & A); try assumption.
    - intros [|[|[|a]]] Ha; cbn; lia.
    - intros f Hf Hw. rewrite (Only f Hf Hw). cbn. lia.
    - intros f f' Hf Hf' Hw Hw'. pose proof (Only _ Hf Hw) as O1. pose proof (Only _ Hf' Hw') as O2. destruct f as [h a], f' as [h' a']. cbn [snd] in O1, O2. subst a a'.
      unfold ref_cell, depth. cbn [fst snd dim set_coord coord].
      assert (B : h <> h' -> (2 * n + 2 <= Nz)%nat) by (intros Hne; destruct h, h'; try congruence; apply Hb; assumption).
      destruct h, h'; try (specialize (B ltac:(discriminate))); lia.
    - exists ie', sg'. split; [exact E|]. intros c i j k Hc Hi Hj Hk. destruct (A c i j k Hc Hi Hj Hk) as [Ao Ad].
      assert (Cz : forall h, covers n bl bh Nx Ny Nz (h, 2%nat) i j k <-> named (bcz (if h then bh else bl)) "pml" && ((if h then Nz - 1 - k else k) <? n)%nat = true).
      { intros h. unfold covers, named, wall_name, depth. cbn [fst snd dim coord bc_at]. rewrite andb_true_iff, String.eqb_eq, Nat.ltb_lt. destruct h; reflexivity. }
      assert (Cxy : forall f, (snd f < 2)%nat -> ~ covers n bl bh Nx Ny Nz f i j k).
      { intros f Hf [Hcov _]. assert (snd f = 2%nat); [|lia]. apply Only; [lia|]. unfold named. apply String.eqb_eq, Hcov. }
      destruct (named (bcz bh) "pml" && (Nz - 1 - k <? n)%nat) eqn:Eh.
      + apply (Ad (true, 2%nat)). exists [(false, 0%nat); (false, 1%nat); (false, 2%nat); (true, 0%nat); (true, 1%nat)], [].
        split; [reflexivity|]. split; [apply Cz, Eh|]. intros f' [].
      + assert (Nh : ~ covers n bl bh Nx Ny Nz (true, 2%nat) i j k) by (rewrite Cz; cbn [bcz]; rewrite Eh; discriminate).
        destruct (named (bcz bl) "pml" && (k <? n)%nat) eqn:El.
        * apply (Ad (false, 2%nat)). exists [(false, 0%nat); (false, 1%nat)], [(true, 0%nat); (true, 1%nat); (true, 2%nat)].
          split; [reflexivity|]. split; [apply Cz, El|]. intros f' [<-|[<-|[<-|[]]]]; [apply Cxy; cbn; lia..|exact Nh].
        * apply Ao. assert (Nl : ~ covers n bl bh Nx Ny Nz (false, 2%nat) i j k) by (rewrite Cz; cbn [bcz]; rewrite El; discriminate).
          intros f Hf. cbn [pml_faces In] in Hf. repeat (destruct Hf as [<-|Hf]; [first [exact Nh|exact Nl|apply Cxy; cbn; lia]|]). destruct Hf.
  Qed.

  Lemma plo_el b a : electric (bc_at b a) \/ absorbing (bc_at b a) -> plo b a = (0 : T).
  Proof. intros [H|H]; unfold plo; [rewrite (electric_pec _ H)|rewrite (absorbing_pec _ H)]; reflexivity. Qed.
  Lemma bc_of3 (P : string -> Prop) b : P (bcx b) -> P (bcy b) -> P (bcz b) -> forall a, P (bc_at b a).
  Proof. intros X Y Z [|[|a]]; assumption. Qed.

  Lemma get_linspace (a b : T) n i : (i <= n)%nat -> get (linspace a b n) i = a + nofnat i * ((b - a) / nofnat n).
  Proof. intros H. unfold linspace. rewrite get_tab by lia. reflexivity. Qed.

  Context (env : Env T) (xmin xmax ymin ymax zmin zmax : T) (Nx Ny Nz size : nat) (C0 : char0 T) (Hsz : (2 <= size)%nat) (HNz : (size <= Nz)%nat).
  Notation NZ := (Nz - Nz mod size)%nat.
  Notation nz := (own NZ size).

  (** The serial solver on the layers the ranks share out. *)
  Context (gs gs' : Grid T) (ars : Args T) (ss : Solver T).
  Context (Hgs : compute_grid (linspace xmin xmax Nx) (linspace ymin ymax Ny) (linspace zmin zmax NZ) = Ok gs).
  Context (Hcs : construct env gs ars = Ok (ss, gs')) (Hns : ar_mpi ars = None).
  Context (Hel : forall a, (a < 2)%nat -> electric (bc_at (ar_bl ars) a)) (Heh : forall a, (a < 2)%nat -> electric (bc_at (ar_bh ars) a)).
  Context (Hzl : electric (bcz (ar_bl ars)) \/ absorbing (bcz (ar_bl ars))) (Hzh : electric (bcz (ar_bh ars)) \/ absorbing (bcz (ar_bh ars))).
  Context (Hpm : absorbing (bcz (ar_bl ars)) \/ absorbing (bcz (ar_bh ars)) ->
             (forall a b m, List.length (e_geom env a b m) = m) /\ (1 <= ar_npml ars)%nat /\ (ar_npml ars < nz)%nat).
  (** Rank [r]. *)
  Context (r : nat) (Hr : (r < size)%nat) (t : Tile T) (g g' : Grid T) (ar : Args T) (s : Solver T).
  Context (Hg : mpi_grid xmin xmax ymin ymax zmin zmax Nx Ny Nz size r = Ok (t, g)).
  Context (Hc : construct env g ar = Ok (s, g')) (Hn : ar_mpi ar = Some (r, size)).
  Context (El : ar_bl ar = ar_bl ars) (Eh : ar_bh ar = ar_bh ars) (Eb : ar_bg ar = ar_bg ars) (Ed : sdt s = sdt ss).
  Context (Hpr : absorbing (bcz (ar_bl ars)) \/ absorbing (bcz (ar_bh ars)) -> ar_npml ar = ar_npml ars /\ scond s = scond ss).
  Context (Hso : Forall2 (part_of Ny (dimr size nz r) NZ (off nz r)) (ar_solids ar) (ar_solids ars)).

  Lemma conf_sizes : NZ = (size * nz)%nat /\ (0 < nz)%nat /\ (0 < Nx)%nat /\ (0 < Ny)%nat.
  Proof.
    clear - Hgs Hsz HNz. destruct (NZ_facts Nz size ltac:(lia) HNz) as (F1 & F2 & F3 & F4 & F5). split; [exact F1|]. split; [exact F2|].
    pose proof (compute_grid_ok _ _ _ _ Hgs) as (X & Y & _). destruct (compute_grid_axes _ _ _ _ Hgs) as (Ex & Ey & Ez).
    unfold gNx, gNy in X, Y. rewrite Ex in X. rewrite Ey in Y. unfold linspace in X, Y. rewrite tab_length in X, Y. lia.
  Qed.

  Lemma lay_dimr : lay NZ size r = dimr size nz r.
  Proof.
    clear - Hsz. unfold lay, dimr, glo, ghi, below, above. destruct (Nat.eqb_spec size 1); [lia|]. rewrite orb_false_r. reflexivity.
  Qed.

  Lemma tile_conf : tile_of size nz Nx Ny r (kern_of gs gs' ss) (kern_of g g' s).
  Proof.
    destruct conf_sizes as (FZ & Fn & HX & HY).
    assert (EZ : gNZ size nz = NZ) by (unfold gNZ; symmetry; exact FZ).
    (* the tile *)
    unfold mpi_grid in Hg. pose proof Hg as Hg2. binv Hg2 t' Ht. binv Hg2 gg Hgg. injection Hg2 as -> ->.
    destruct (tile_spec zmin zmax Nz size r C0 HNz Hr) as (t1 & Et1 & _ & _ & Lz & Az & _). rewrite Ht in Et1. injection Et1 as <-.
    pose proof (off_in size nz Nx Ny Hsz Fn HX HY r (dimr size nz r - 1) Hr) as OIle. rewrite EZ in OIle.
    pose proof (dim_pos size nz Nx Ny Hsz Fn HX HY r) as Dp0. specialize (OIle ltac:(lia)). pose proof (off_below size nz Nx Ny Hsz Fn HX HY r) as OB.
    rewrite lay_dimr in Lz. assert (Az' : forall i, (i <= dimr size nz r)%nat -> get (tl_z t) i = get (linspace zmin zmax NZ) (off nz r + i)).
    { intros i Hi. rewrite Az by (rewrite lay_dimr; exact Hi).
      rewrite get_linspace by lia. unfold glob. change (glo r) with (below r).
      replace (r * nz + i - below r)%nat with (off nz r + i)%nat by (unfold off; lia). reflexivity. }
    clear Az.
    (* grids *)
    pose proof (compute_grid_ok _ _ _ _ Hgs) as Gs. pose proof (compute_grid_ok _ _ _ _ Hgg) as Gr.
    assert (Ls : (2 <= List.length (linspace xmin xmax Nx) /\ 2 <= List.length (linspace ymin ymax Ny) /\ 2 <= List.length (linspace zmin zmax NZ))%nat)
      by (unfold linspace; rewrite !tab_length; lia).
    destruct Ls as (L1 & L2 & L3).
    destruct (compute_grid_spec _ _ _ L1 L2 L3) as (gs2 & Es2 & Sx & Sy & Sz & SS1 & SS2 & SS3 & SS4 & VS). rewrite Hgs in Es2. injection Es2 as <-.
    pose proof (dim_pos size nz Nx Ny Hsz Fn HX HY r) as Dp.
    destruct (compute_grid_spec _ _ (tl_z t) L1 L2 ltac:(lia)) as (g2 & E2 & Rx & Ry & Rz & SR1 & SR2 & SR3 & SR4 & VR). rewrite Hgg in E2. injection E2 as <-.
    assert (NX1 : gNx gs = Nx) by (unfold gNx; rewrite Sx; unfold linspace; rewrite tab_length; lia).
    assert (NY1 : gNy gs = Ny) by (unfold gNy; rewrite Sy; unfold linspace; rewrite tab_length; lia).
    assert (NZ1 : gNz gs = NZ) by (unfold gNz; rewrite Sz; unfold linspace; rewrite tab_length; lia).
    assert (NX2 : gNx g = Nx) by (unfold gNx; rewrite Rx; unfold linspace; rewrite tab_length; lia).
    assert (NY2 : gNy g = Ny) by (unfold gNy; rewrite Ry; unfold linspace; rewrite tab_length; lia).
    assert (NZ2 : gNz g = dimr size nz r) by (unfold gNz; rewrite Rz, Lz; lia).
    (* walls *)
    destruct (construct_spec env gs ars ss gs' Gs Hcs) as (_ & _ & _ & Bs & _).
    destruct (construct_spec env g ar s g' Gr Hc) as (_ & _ & _ & Br & _).
    rewrite Hns in Bs. cbn [mpi_bc] in Bs. injection Bs as Bs1 Bs2. rewrite Hn, El, Eh in Br. cbn [mpi_bc] in Br. injection Br as Br1 Br2.
    assert (Eas : forall a, (a < 3)%nat -> electric (bc_at (ar_bl ars) a) \/ absorbing (bc_at (ar_bl ars) a)).
    { intros [|[|[|a]]] La; [left; apply (Hel 0%nat); lia|left; apply (Hel 1%nat); lia|exact Hzl|lia]. }
    assert (Eah : forall a, (a < 3)%nat -> electric (bc_at (ar_bh ars) a) \/ absorbing (bc_at (ar_bh ars) a)).
    { intros [|[|[|a]]] La; [left; apply (Heh 0%nat); lia|left; apply (Heh 1%nat); lia|exact Hzh|lia]. }
    assert (Pls : forall a, (a < 3)%nat -> plain (bc_at (sbl ss) a)) by (intros a La; rewrite Bs1; destruct (Eas a La); [left|right; left]; assumption).
    assert (Phs : forall a, (a < 3)%nat -> plain (bc_at (sbh ss) a)) by (intros a La; rewrite Bs2; destruct (Eah a La); [left|right; left]; assumption).
    assert (Pec : electric "pec") by (right; reflexivity).
    assert (Plr : forall a, (a < 3)%nat -> plain (bc_at (sbl s) a)).
    { intros a La. rewrite Br1. destruct (0 <? r)%nat; [|destruct (Eas a La); [left|right; left]; assumption]. destruct a as [|[|a]]; cbn; [left; exact Pec|left; exact Pec|right; right; reflexivity]. }
    assert (Phr : forall a, (a < 3)%nat -> plain (bc_at (sbh s) a)).
    { intros a La. rewrite Br2. destruct (r <? size - 1)%nat; [|destruct (Eah a La); [left|right; left]; assumption]. destruct a as [|[|a]]; cbn; [left; exact Pec|left; exact Pec|right; right; reflexivity]. }
    destruct (plain_construct env gs ars ss gs' Gs Hcs Pls Phs) as ((Ms & HMs & SMs & X1 & X2 & X4) & ZS1 & ZS3 & _ & TS1 & TS2 & TSv & TSr).
    destruct (plain_construct env g ar s g' Gr Hc Plr Phr) as ((Mr & HMr & SMr & Y1 & Y2 & Y4) & ZR1 & ZR3 & _ & TR1 & TR2 & TRv & TRr).
    rewrite Eb in HMr. rewrite NX1, NY1, NZ1 in *. rewrite NX2, NY2, NZ2 in *.
    destruct (mats_tile env Nx Ny _ _ _ _ _ _ _ _ Mr Ms HMr HMs Hso) as [Mc Mv].
    assert (OI : forall k, (k < dimr size nz r)%nat -> (off nz r + k < NZ)%nat) by (intros; lia).
    (* layers *)
    assert (Lay : kcond (kern_of g g' s) = kcond (kern_of gs gs' ss) /\ forall c i j k, (c < 3)%nat -> (i < Nx)%nat -> (j < Ny)%nat -> (below r <= k)%nat -> (k < below r + nz)%nat ->
      entry (sieps s) c i j k = entry (sieps ss) c i j (off nz r + k) /\ entry (ssigma s) c i j k = entry (ssigma ss) c i j (off nz r + k)).
    { cbn [kern_of kcond]. clear - Mc Mv OI X1 Y1 X4 Y4 Hpm Hpr Hel Heh Hzl Hzh Bs1 Bs2 Br1 Br2 SMs SMr HX HY Fn FZ EZ OB Hsz Hr.
      set (nzv := own NZ size) in *. set (NZv := (Nz - Nz mod size)%nat) in *. clearbody nzv NZv.
      assert (Up : (r < size - 1 -> r * nzv + nzv + nzv <= NZv)%nat).
      { intros L. rewrite FZ. replace (r * nzv + nzv + nzv)%nat with ((r + 2) * nzv)%nat by (clear; lia). apply Nat.mul_le_mono_r. clear - L. lia. }
      assert (Dn : (0 < r -> nzv <= r * nzv)%nat).
      { intros L. rewrite <- (Nat.mul_1_l nzv) at 1. apply Nat.mul_le_mono_r. exact L. }
      assert (Two : (2 * nzv <= NZv)%nat) by (rewrite FZ; apply Nat.mul_le_mono_r; exact Hsz).
      assert (B0 : bcz (sbl s) = if (0 <? r)%nat then "mpi"%string else bcz (ar_bl ars)) by (rewrite Br1; destruct (0 <? r)%nat; reflexivity).
      assert (B1 : bcz (sbh s) = if (r <? size - 1)%nat then "mpi"%string else bcz (ar_bh ars)) by (rewrite Br2; destruct (r <? size - 1)%nat; reflexivity).
      assert (NL : named (bcx (sbl s)) "pml" = false /\ named (bcy (sbl s)) "pml" = false).
      { rewrite Br1. destruct (0 <? r)%nat; [split; reflexivity|]. split; apply electric_no_pml; [exact (Hel 0%nat Nat.lt_0_2)|exact (Hel 1%nat Nat.lt_1_2)]. }
      assert (NH : named (bcx (sbh s)) "pml" = false /\ named (bcy (sbh s)) "pml" = false).
      { rewrite Br2. destruct (r <? size - 1)%nat; [split; reflexivity|]. split; apply electric_no_pml; [exact (Heh 0%nat Nat.lt_0_2)|exact (Heh 1%nat Nat.lt_1_2)]. }
      assert (NLs : named (bcx (sbl ss)) "pml" = false /\ named (bcy (sbl ss)) "pml" = false).
      { rewrite Bs1. split; apply electric_no_pml; [exact (Hel 0%nat Nat.lt_0_2)|exact (Hel 1%nat Nat.lt_1_2)]. }
      assert (NHs : named (bcx (sbh ss)) "pml" = false /\ named (bcy (sbh ss)) "pml" = false).
      { rewrite Bs2. split; apply electric_no_pml; [exact (Heh 0%nat Nat.lt_0_2)|exact (Heh 1%nat Nat.lt_1_2)]. }
      destruct NL as [NL1 NL2], NH as [NH1 NH2], NLs as [NLs1 NLs2], NHs as [NHs1 NHs2].
      assert (HPs : has_pml (sbl ss) (sbh ss) = named (bcz (ar_bl ars)) "pml" || named (bcz (ar_bh ars)) "pml").
      { unfold has_pml, any_bc, axes. cbn [existsb bc_at]. rewrite NLs1, NLs2, NHs1, NHs2. cbn [orb]. rewrite !orb_false_r, Bs1, Bs2. reflexivity. }
      assert (HPr : has_pml (sbl s) (sbh s) = named (bcz (sbl s)) "pml" || named (bcz (sbh s)) "pml").
      { unfold has_pml, any_bc, axes. cbn [existsb bc_at]. rewrite NL1, NL2, NH1, NH2. cbn [orb]. rewrite !orb_false_r. reflexivity. }
      destruct (named (bcz (ar_bl ars)) "pml" || named (bcz (ar_bh ars)) "pml") eqn:Any.
      - apply orb_true_iff in Any. destruct (Hpm Any) as (Gl & Np & Nn). destruct (Hpr Any) as (En & Ec). split; [exact Ec|].
        rewrite HPs in X1. destruct SMs as (S1 & _ & S3). destruct SMr as (R1 & _ & R3).
        assert (Nb : (2 * ar_npml ars + 2 <= NZv)%nat) by (clear - Two Nn; lia).
        destruct (fill_ends env (ar_npml ars) (sbl ss) (sbh ss) Nx Ny NZv _ _ Gl Np HX HY ltac:(clear - Nb Np; lia) ltac:(intros; exact Nb) NLs1 NLs2 NHs1 NHs2 S1 S3) as (ie1 & sg1 & F1 & V1).
        rewrite F1 in X1. injection X1 as <- <-. rewrite Bs1, Bs2 in V1.
        assert (Dr : (ar_npml ars + 2 <= dimr size nzv r)%nat) by (clear - Nn Hsz Hr; unfold dimr, below, above; destruct (Nat.ltb_spec 0 r), (Nat.ltb_spec r (size - 1)); lia).
        assert (V2 : forall c i j k, (c < 3)%nat -> (i < Nx)%nat -> (j < Ny)%nat -> (k < dimr size nzv r)%nat ->
          entry (sieps s) c i j k = (if named (bcz (sbh s)) "pml" && (dimr size nzv r - 1 - k <? ar_npml ars)%nat then entry (mt_ieps Mr) c (Nx / 2) (Ny / 2) (dimr size nzv r - ar_npml ars - 1)
                             else if named (bcz (sbl s)) "pml" && (k <? ar_npml ars)%nat then entry (mt_ieps Mr) c (Nx / 2) (Ny / 2) (ar_npml ars + 1) else entry (mt_ieps Mr) c i j k) /\
          entry (ssigma s) c i j k = (if named (bcz (sbh s)) "pml" && (dimr size nzv r - 1 - k <? ar_npml ars)%nat then graded (entry (mt_sigma Mr) c (Nx / 2) (Ny / 2) (dimr size nzv r - ar_npml ars - 1)) (profile env (ar_npml ars) (true, 2%nat) (dimr size nzv r - 1 - k))
                             else if named (bcz (sbl s)) "pml" && (k <? ar_npml ars)%nat then graded (entry (mt_sigma Mr) c (Nx / 2) (Ny / 2) (ar_npml ars + 1)) (profile env (ar_npml ars) (false, 2%nat) k) else entry (mt_sigma Mr) c i j k)).
        { rewrite HPr in Y1. destruct (named (bcz (sbl s)) "pml" || named (bcz (sbh s)) "pml") eqn:Ar.
          - rewrite En in Y1.
            assert (Hb : absorbing (bcz (sbl s)) -> absorbing (bcz (sbh s)) -> (2 * ar_npml ars + 2 <= dimr size nzv r)%nat).
            { intros A1 A2. exfalso. rewrite B0 in A1. rewrite B1 in A2. destruct (Nat.ltb_spec 0 r); [discriminate A1|]. destruct (Nat.ltb_spec r (size - 1)); [discriminate A2|]. clear - H H0 Hsz Hr. lia. }
            destruct (fill_ends env (ar_npml ars) (sbl s) (sbh s) Nx Ny (dimr size nzv r) _ _ Gl Np HX HY Dr Hb NL1 NL2 NH1 NH2 R1 R3) as (ie2 & sg2 & F2 & V2).
            rewrite F2 in Y1. injection Y1 as <- <-. exact V2.
          - injection Y1 as <- <-. apply orb_false_iff in Ar. destruct Ar as [-> ->]. intros. cbn [andb]. split; reflexivity. }
        intros c i j k Hc Hi Hj Hl Hk. assert (Dk : (k < dimr size nzv r)%nat) by (clear - Hk; unfold dimr; lia). specialize (OI k Dk).
        destruct (V1 c i j (off nzv r + k)%nat Hc Hi Hj OI) as [-> ->]. destruct (V2 c i j k Hc Hi Hj Dk) as [-> ->]. rewrite B0, B1.
        assert (H2 : (Nx / 2 < Nx)%nat /\ (Ny / 2 < Ny)%nat) by (clear - HX HY; split; apply Nat.div_lt; lia). destruct H2 as [Hx2 Hy2].
        assert (Hi0 : (if (r <? size - 1)%nat then "mpi"%string else bcz (ar_bh ars)) = "mpi"%string /\ (NZv - 1 - (off nzv r + k) <? ar_npml ars)%nat = false \/
          (if (r <? size - 1)%nat then "mpi"%string else bcz (ar_bh ars)) = bcz (ar_bh ars) /\ (off nzv r + dimr size nzv r = NZv)%nat).
        { destruct (Nat.ltb_spec r (size - 1)) as [L|L]; [left|right]; (split; [reflexivity|]).
          - apply Nat.ltb_ge. unfold off. specialize (Up L). clear - Up Hk Nn OB. lia.
          - rewrite <- EZ. apply (top_in size nzv Nx Ny Hsz Fn HX HY r Hr). unfold above. destruct (Nat.ltb_spec r (size - 1)) as [L'|]; [clear - L L'; lia|reflexivity]. }
        assert (Lo0 : (if (0 <? r)%nat then "mpi"%string else bcz (ar_bl ars)) = "mpi"%string /\ (off nzv r + k <? ar_npml ars)%nat = false \/
          (if (0 <? r)%nat then "mpi"%string else bcz (ar_bl ars)) = bcz (ar_bl ars) /\ off nzv r = 0%nat).
        { destruct (Nat.ltb_spec 0 r) as [L|L]; [left|right]; (split; [reflexivity|]).
          - apply Nat.ltb_ge. unfold off. specialize (Dn L). clear - Dn Hl Nn OB. lia.
          - assert (R0 : r = 0%nat) by (clear - L; lia). rewrite R0. unfold off. reflexivity. }
        destruct (Mv c i j k Hc Hi Hj Dk OI) as (-> & _ & ->).
        assert (Top : named (if (r <? size - 1)%nat then "mpi"%string else bcz (ar_bh ars)) "pml" && (dimr size nzv r - 1 - k <? ar_npml ars)%nat =
          named (bcz (ar_bh ars)) "pml" && (NZv - 1 - (off nzv r + k) <? ar_npml ars)%nat).
        { destruct Hi0 as [[-> ->]|[-> E]]; [rewrite andb_false_r; reflexivity|]. do 2 f_equal. clear - E. lia. }
        assert (Bot : named (if (0 <? r)%nat then "mpi"%string else bcz (ar_bl ars)) "pml" && (k <? ar_npml ars)%nat =
          named (bcz (ar_bl ars)) "pml" && (off nzv r + k <? ar_npml ars)%nat).
        { destruct Lo0 as [[-> ->]|[-> ->]]; [rewrite andb_false_r; reflexivity|reflexivity]. }
        rewrite Top, Bot.
        destruct (named (bcz (ar_bh ars)) "pml" && (NZv - 1 - (off nzv r + k) <? ar_npml ars)%nat) eqn:C1.
        { destruct Hi0 as [[_ E]|[_ E]]; [rewrite E, andb_false_r in C1; discriminate C1|].
          assert (Q : (dimr size nzv r - ar_npml ars - 1 < dimr size nzv r)%nat) by (clear - Dk; lia).
          destruct (Mv c (Nx / 2)%nat (Ny / 2)%nat (dimr size nzv r - ar_npml ars - 1)%nat Hc Hx2 Hy2 Q ltac:(clear - E Q; lia)) as (-> & _ & ->).
          replace (off nzv r + (dimr size nzv r - ar_npml ars - 1))%nat with (NZv - ar_npml ars - 1)%nat by (clear - E Dr; lia).
          replace (NZv - 1 - (off nzv r + k))%nat with (dimr size nzv r - 1 - k)%nat by (clear - E; lia). split; reflexivity. }
        destruct (named (bcz (ar_bl ars)) "pml" && (off nzv r + k <? ar_npml ars)%nat) eqn:C2; [|split; reflexivity].
        destruct Lo0 as [[_ E]|[_ E]]; [rewrite E, andb_false_r in C2; discriminate C2|]. rewrite E in *. cbn [plus].
        destruct (Mv c (Nx / 2)%nat (Ny / 2)%nat (ar_npml ars + 1)%nat Hc Hx2 Hy2 ltac:(clear - Dr; lia) ltac:(clear - Nb; lia)) as (-> & _ & ->). cbn [plus]. split; reflexivity.
      - rewrite HPs in X1. apply orb_false_iff in Any. destruct Any as [A1 A2]. injection X1 as <- <-.
        assert (HP0 : has_pml (sbl s) (sbh s) = false).
        { rewrite HPr, B0, B1. destruct (0 <? r)%nat, (r <? size - 1)%nat; rewrite ?A1, ?A2; reflexivity. }
        rewrite HP0 in Y1. injection Y1 as <- <-. rewrite X4, Y4. split; [apply Mc; congruence|].
        intros c i j k Hc Hi Hj Hl Hk. assert (Dk : (k < dimr size nzv r)%nat) by (clear - Hk; unfold dimr; lia). destruct (Mv c i j k Hc Hi Hj Dk (OI k Dk)) as (-> & _ & ->). split; reflexivity. }
    destruct Lay as [Lc Lv]. cbn [kern_of kcond] in Lc. clear Hpm Hpr.
    assert (Zs : forall a, (a < 3)%nat -> plo (sbl ss) a = (0 : T) /\ plo (sbh ss) a = (0 : T)) by (intros a La; split; apply plo_el; [rewrite Bs1|rewrite Bs2]; auto).
    assert (Zr : forall a, (a < 2)%nat -> plo (sbl s) a = (0 : T) /\ plo (sbh s) a = (0 : T)).
    { intros a La. split; apply plo_el; left; [rewrite Br1; destruct (0 <? r)%nat|rewrite Br2; destruct (r <? size - 1)%nat]; auto;
        destruct a as [|[|a]]; [exact Pec|exact Pec|lia|exact Pec|exact Pec|lia]. }
    assert (El0 : r = 0%nat -> plo (sbl s) 2 = (0 : T)) by (intros R0; apply plo_el; rewrite Br1, R0; exact Hzl).
    assert (Eh0 : (size - 1 <= r)%nat -> plo (sbh s) 2 = (0 : T)).
    { intros R0. apply plo_el. rewrite Br2. destruct (Nat.ltb_spec r (size - 1)) as [L|L]; [clear - R0 L; lia|exact Hzh]. }
    clear Eas Eah Hzl Hzh Hel Heh Pls Phs Plr Phr.
    clear Hso HMs HMr Hc Hcs Hg Hgs Hgg Ht Pec.
    set (nzv := own NZ size) in *. set (NZv := (Nz - Nz mod size)%nat) in *. clearbody nzv NZv.
    (* metric *)
    assert (VL : forall d i j k, (d < 3)%nat -> (i < Nx)%nat -> (j < Ny)%nat -> (k < dimr size nzv r)%nat -> entry (gL g) d i j k = entry (gL gs) d i j (off nzv r + k)).
    { intros d i j k Hd Hi Hj Hk. destruct (VR i j k Hi Hj Hk) as (A1 & A2 & A3 & _). destruct (VS i j (off nzv r + k)%nat Hi Hj (OI k Hk)) as (B1 & B2 & B3 & _).
      destruct d as [|[|[|d]]]; [..|lia]; [rewrite A1, B1; reflexivity|rewrite A2, B2; reflexivity|]. rewrite A3, B3, !Az' by lia.
      replace (off nzv r + (k + 1))%nat with (off nzv r + k + 1)%nat by lia. reflexivity. }
    assert (Vt : forall k, (k < below r + nzv)%nat -> get (tilde (tl_z t)) (k + 1) - get (tilde (tl_z t)) k =
       get (tilde (linspace zmin zmax NZv)) (off nzv r + k + 1) - get (tilde (linspace zmin zmax NZv)) (off nzv r + k)).
    { intros k Hk. assert (Dk : (k < dimr size nzv r)%nat) by (unfold dimr; lia). specialize (OI k Dk).
      assert (LL : List.length (linspace zmin zmax NZv) = (NZv + 1)%nat) by (unfold linspace; apply tab_length).
      unfold tilde. rewrite Lz, LL. rewrite !get_tab by lia.
      destruct (Nat.ltb_spec (k + 1) (dimr size nzv r + 1)); [|lia]. destruct (Nat.ltb_spec (off nzv r + k + 1) (NZv + 1)); [|lia].
      replace (dimr size nzv r + 1 - 2)%nat with (dimr size nzv r - 1)%nat by lia. replace (NZv + 1 - 2)%nat with (NZv - 1)%nat by lia.
      assert (Top : (k + 1 + 1 <? dimr size nzv r + 1)%nat = (off nzv r + k + 1 + 1 <? NZv + 1)%nat /\ ((k + 1 + 1 <? dimr size nzv r + 1)%nat = false -> (off nzv r + dimr size nzv r = NZv)%nat)).
      { destruct (Nat.lt_ge_cases r (size - 1)) as [Lr|Lr].
        - assert (D1 : dimr size nzv r = (nzv + below r + 1)%nat) by (unfold dimr, above; destruct (Nat.ltb_spec r (size - 1)); [reflexivity|lia]).
          destruct (Nat.ltb_spec (k + 1 + 1) (dimr size nzv r + 1)); [|lia]. destruct (Nat.ltb_spec (off nzv r + k + 1 + 1) (NZv + 1)); [|lia]. split; [reflexivity|discriminate].
        - assert (TT : (off nzv r + dimr size nzv r = NZv)%nat).
          { transitivity (gNZ size nzv); [|exact EZ]. apply (top_in size nzv Nx Ny Hsz Fn HX HY r Hr). unfold above. destruct (Nat.ltb_spec r (size - 1)); [lia|reflexivity]. }
          split; [|auto]. destruct (Nat.ltb_spec (k + 1 + 1) (dimr size nzv r + 1)), (Nat.ltb_spec (off nzv r + k + 1 + 1) (NZv + 1)); try reflexivity; lia. }
      destruct Top as [Top1 Top2]. rewrite <- Top1. destruct (Nat.ltb_spec (k + 1 + 1) (dimr size nzv r + 1)) as [Lk|Lk].
      - rewrite !Az' by lia. replace (off nzv r + (k + 1 + 1))%nat with (off nzv r + k + 1 + 1)%nat by lia.
        replace (off nzv r + (k + 1))%nat with (off nzv r + k + 1)%nat by lia. reflexivity.
      - specialize (Top2 eq_refl). rewrite !Az' by lia. replace (dimr size nzv r - 1)%nat with k by lia. replace (NZv - 1)%nat with (off nzv r + k)%nat by lia.
        replace (off nzv r + (k + 1))%nat with (off nzv r + k + 1)%nat by lia. reflexivity. }
    assert (VT : forall d i j k, (d < 3)%nat -> (i < Nx)%nat -> (j < Ny)%nat -> (k < below r + nzv)%nat -> entry (gtL g) d i j k = entry (gtL gs) d i j (off nzv r + k)).
    { intros d i j k Hd Hi Hj Hk. assert (Dk : (k < dimr size nzv r)%nat) by (unfold dimr; lia).
      destruct (VR i j k Hi Hj Dk) as (_ & _ & _ & A1 & A2 & A3 & _). destruct (VS i j (off nzv r + k)%nat Hi Hj (OI k Dk)) as (_ & _ & _ & B1 & B2 & B3 & _).
      destruct d as [|[|[|d]]]; [..|lia]; [rewrite A1, B1; reflexivity|rewrite A2, B2; reflexivity|]. rewrite A3, B3. apply Vt, Hk. }
    assert (VA : forall d i j k, (d < 3)%nat -> (i < Nx)%nat -> (j < Ny)%nat -> (k < below r + nzv)%nat ->
       entry (giA g) d i j k = entry (giA gs) d i j (off nzv r + k) /\ entry (gitA g) d i j k = entry (gitA gs) d i j (off nzv r + k)).
    { intros d i j k Hd Hi Hj Hk. assert (Dk : (k < dimr size nzv r)%nat) by (unfold dimr; lia).
      destruct (VR i j k Hi Hj Dk) as (_ & _ & _ & _ & _ & _ & A). destruct (VS i j (off nzv r + k)%nat Hi Hj (OI k Dk)) as (_ & _ & _ & _ & _ & _ & B).
      destruct (A d Hd) as [-> ->]. destruct (B d Hd) as [-> ->].
      assert (tr1 d < 3 /\ tr2 d < 3)%nat by (destruct d as [|[|[|d]]]; [cbn; lia..|lia]). rewrite !VL, !VT by (assumption || lia). auto. }
    (* masks *)
    assert (NZ2' : (2 <= NZv)%nat) by lia.
    assert (D2 : (2 <= dimr size nzv r)%nat) by (unfold dimr, below, above; destruct (Nat.ltb_spec 0 r), (Nat.ltb_spec r (size - 1)); lia).
    assert (SMr' := SMr). destruct SMr' as (MR1 & MR2 & MR3). assert (SMs' := SMs). destruct SMs' as (MS1 & MS2 & MS3).
    constructor; cbn [kern_of kNx kNy kNz kdt kcond kL kiA kimu ktL kitA kieps ksig krow kcol]; rewrite ?NX1, ?NY1, ?NZ1, ?NX2, ?NY2, ?NZ2; rewrite ?EZ; try assumption; try reflexivity.
    - intros d i j k Hd Hi Hj _ Hk. rewrite EZ. rewrite <- (entry_ix (gL g)), <- (entry_ix (gL gs)) by assumption. apply VL; assumption.
    - intros d i j k Hd Hi Hj _ Hk. assert (Dk : (k < dimr size nzv r)%nat) by (unfold dimr; lia). rewrite EZ.
      rewrite <- (entry_ix (gtL g')), <- (entry_ix (gtL gs')) by assumption.
      destruct (TRv d i j k Hd Hi Hj Dk) as [-> _]. destruct (TSv d i j (off nzv r + k)%nat Hd Hi Hj (OI k Dk)) as [-> _]. apply VT; assumption.
    - intros d i j k Hd Hi Hj Hl Hk. rewrite EZ. rewrite <- (entry_ix (giA g)), <- (entry_ix (giA gs)) by assumption. apply VA; assumption.
    - intros d i j k Hd Hi Hj Hl Hk. assert (Dk : (k < dimr size nzv r)%nat) by (unfold dimr; lia). rewrite EZ, Y2, X2. rewrite <- (entry_ix (mt_imu Mr)), <- (entry_ix (mt_imu Ms)) by assumption. apply Mv; try assumption. apply OI, Dk.
    - intros d i j k Hd Hi Hj Hl Hk. assert (Dk : (k < dimr size nzv r)%nat) by (unfold dimr; lia). rewrite EZ.
      rewrite <- (entry_ix (gitA g')), <- (entry_ix (gitA gs')) by assumption.
      destruct (TRv d i j k Hd Hi Hj Dk) as [_ ->]. destruct (TSv d i j (off nzv r + k)%nat Hd Hi Hj (OI k Dk)) as [_ ->]. apply VA; assumption.
    - intros d i j k Hd Hi Hj Hl Hk. assert (Dk : (k < dimr size nzv r)%nat) by (unfold dimr; lia). specialize (OI k Dk). rewrite EZ. rewrite <- (entry_ix (sieps s)), <- (entry_ix (sieps ss)) by assumption. apply Lv; assumption.
    - intros d i j k Hd Hi Hj Hl Hk. assert (Dk : (k < dimr size nzv r)%nat) by (unfold dimr; lia). specialize (OI k Dk). rewrite EZ. rewrite <- (entry_ix (ssigma s)), <- (entry_ix (ssigma ss)) by assumption. apply Lv; assumption.
    - intros d i j k Hd Hi Hj Hl Hk. assert (Dk : (k < dimr size nzv r)%nat) by (unfold dimr; lia). specialize (OI k Dk). rewrite EZ.
      rewrite !on_ix_ix by assumption. unfold colv, maskv.
      destruct (Zs 0%nat ltac:(lia)) as [-> ->]. destruct (Zs 1%nat ltac:(lia)) as [-> ->]. destruct (Zs 2%nat ltac:(lia)) as [-> ->].
      destruct (Zr 0%nat ltac:(lia)) as [-> ->]. destruct (Zr 1%nat ltac:(lia)) as [-> ->].
      pose proof (top_iff size nzv Nx Ny Hsz Fn HX HY r Hr k Hl Hk) as TI. rewrite EZ in TI. rewrite <- TI.
      assert (Low : (k =? 0)%nat = (off nzv r + k =? 0)%nat).
      { destruct (Nat.ltb_spec 0 r) as [R0|R0].
        - assert (below r = 1%nat) by (unfold below; destruct (Nat.ltb_spec 0 r); [reflexivity|lia]).
          destruct (Nat.eqb_spec k 0), (Nat.eqb_spec (off nzv r + k) 0); try reflexivity; lia.
        - replace (off nzv r) with 0%nat by (unfold off; nia). reflexivity. }
      rewrite <- Low. destruct (d =? 2)%nat; [reflexivity|].
      destruct (Nat.eqb_spec k (dimr size nzv r - 1)) as [Kt|Kt].
      + apply Eh0. unfold dimr, above in Kt. destruct (Nat.ltb_spec r (size - 1)); lia.
      + destruct (Nat.eqb_spec k 0) as [K0|K0]; [|reflexivity]. apply El0. unfold below in Hl. destruct (Nat.ltb_spec 0 r); lia.
    - intros n Ln. unfold kN in Ln. cbn [kern_of kNx kNy kNz] in Ln. rewrite NX2, NY2, NZ2 in Ln.
      destruct (ix_surj _ _ _ _ Ln) as (d & i & j & k & Hd & Hi & Hj & Hk & ->). rewrite on_ix_ix by assumption. apply TRr.
    - intros n Ln. unfold kN in Ln. cbn [kern_of kNx kNy kNz] in Ln. rewrite NX1, NY1, NZ1 in Ln.
      destruct (ix_surj _ _ _ _ Ln) as (d & i & j & k & Hd & Hi & Hj & Hk & ->). rewrite on_ix_ix by assumption. apply TSr.
    - intros n Ln. unfold kN in Ln. cbn [kern_of kNx kNy kNz] in Ln. rewrite NX1, NY1, NZ1 in Ln.
      destruct (ix_surj _ _ _ _ Ln) as (d & i & j & k & Hd & Hi & Hj & Hk & ->). rewrite on_ix_ix by assumption.
      unfold colv, maskv. destruct (Zs 0%nat ltac:(lia)) as [-> ->]. destruct (Zs 1%nat ltac:(lia)) as [-> ->]. destruct (Zs 2%nat ltac:(lia)) as [-> ->].
      repeat match goal with |- context [if ?b then _ else _] => destruct b end; auto.
    - intros i k Hi Hk. rewrite on_ix_ix by assumption. unfold colv, maskv. cbn [Nat.eqb]. destruct (Zs 1%nat ltac:(lia)) as [-> ->].
      repeat match goal with |- context [if ?b then _ else _] => destruct b end; reflexivity.
    - intros Lr d i j Hd Hi Hj. rewrite on_ix_ix by (assumption || lia). unfold colv, maskv.
      destruct (Nat.eqb_spec d 2); [lia|]. rewrite Nat.eqb_refl. unfold plo. rewrite Br2. destruct (Nat.ltb_spec r (size - 1)); [reflexivity|lia].
    - intros i k Hi Hk. rewrite on_ix_ix by assumption. unfold colv, maskv. cbn [Nat.eqb]. destruct (Zr 1%nat ltac:(lia)) as [-> ->].
      repeat match goal with |- context [if ?b then _ else _] => destruct b end; reflexivity.
  Qed.

  (** Where the serial column mask vanishes. *)
  Lemma wall_conf c i j k : (c < 3)%nat -> (i < Nx)%nat -> (j < Ny)%nat -> (k < NZ)%nat ->
    kcol (kern_of gs gs' ss) (ix Nx Ny NZ c i j k) = 0 ->
    exists a, (a < 3)%nat /\ a <> c /\ (coord a i j k = 0%nat \/ coord a i j k = (dim a Nx Ny NZ - 1)%nat).
  Proof.
    clear - LT Hgs Hsz HNz. intros Hcc Hi Hj Hk. destruct conf_sizes as (FZ & Fn & HX & HY).
    destruct (compute_grid_axes _ _ _ _ Hgs) as (Ex & Ey & Ez).
    assert (NX1 : gNx gs = Nx) by (unfold gNx; rewrite Ex; unfold linspace; rewrite tab_length; lia).
    assert (NY1 : gNy gs = Ny) by (unfold gNy; rewrite Ey; unfold linspace; rewrite tab_length; lia).
    assert (NZ1 : gNz gs = NZ) by (unfold gNz; rewrite Ez; unfold linspace; rewrite tab_length; lia).
    cbn [kern_of kcol]. rewrite NX1, NY1, NZ1, on_ix_ix by assumption. unfold colv, maskv.
    destruct (Nat.eqb_spec c 2) as [C2|C2].
    - destruct (Nat.eqb_spec c 1); [lia|]. destruct (Nat.eqb_spec c 0); [lia|].
      destruct (Nat.eqb_spec j (Ny - 1)); [exists 1%nat; cbn; auto|]. destruct (Nat.eqb_spec j 0); [exists 1%nat; cbn; auto|].
      destruct (Nat.eqb_spec i (Nx - 1)); [exists 0%nat; cbn; auto|]. destruct (Nat.eqb_spec i 0); [exists 0%nat; cbn; auto|].
      intros E. exfalso. exact (F_1_neq_0 num_field E).
    - destruct (Nat.eqb_spec k (NZ - 1)); [exists 2%nat; cbn; auto|]. destruct (Nat.eqb_spec k 0); [exists 2%nat; cbn; auto|].
      destruct (Nat.eqb_spec c 1) as [C1|C1].
      + destruct (Nat.eqb_spec c 0); [lia|].
        destruct (Nat.eqb_spec i (Nx - 1)); [exists 0%nat; cbn; auto|]. destruct (Nat.eqb_spec i 0); [exists 0%nat; cbn; auto|].
        intros E. exfalso. exact (F_1_neq_0 num_field E).
      + destruct (Nat.eqb_spec j (Ny - 1)); [exists 1%nat; cbn; auto|]. destruct (Nat.eqb_spec j 0); [exists 1%nat; cbn; auto|].
        destruct (Nat.eqb_spec c 0); [|lia]. intros E. exfalso. exact (F_1_neq_0 num_field E).
  Qed.
End Conf.
