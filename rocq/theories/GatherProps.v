(** Property C136: the grid that rank 0 gathers. *)
From Coq Require Import List Arith ZArith NArith Bool String Lia QArith Qcanon Reals Lra.
From Verif Require Import Num Vec FieldModel GridModel SolverModel SolverCons SolverBuild SolverTime GridFileModel GridProofs GridProofs2
  GridRefineProofs MpiModel MpiSolverModel MpiTiles WakeModel WakeNum SourceModel SolverKit GridInitModel GridInitProofs GridInitProps GatherModel.
Import ListNotations.
Open Scope string_scope.
Open Scope nat_scope.

(** The same arguments without MPI, and with the given number of layers along z. *)
Definition serial {T} (a : GiArgs T) (nz : nat) : GiArgs T :=
  {| ga_min := ga_min a; ga_max := ga_max a; ga_N := (fst (ga_N a), Some nz); ga_axes := ga_axes a; ga_mpi := None;
     ga_refine := ga_refine a; ga_method := ga_method a; ga_snaps := ga_snaps a; ga_snap_tol := ga_snap_tol a; ga_snap_solids := ga_snap_solids a;
     ga_solids := ga_solids a; ga_mats := ga_mats a; ga_rotate := ga_rotate a; ga_translate := ga_translate a;
     ga_scale := ga_scale a; ga_colors := ga_colors a; ga_tol := ga_tol a |}.

Section Gather_proofs.
  Context {T : Type} {NT : Num T} {OT : NumOrd T} {TR : NumTr T}.
  Context (file : string -> option (list (vec3 T))) (edges : list (list (vec3 T)) -> list (vec3 T)) (round5 : T -> T).
  Context (lsq : list T -> list bool -> list T).
  Context (inside : list T * list T * list T -> list (vec3 T) -> T -> list bool).

  (** The constructor runs through [before_mpi]. *)
  Lemma init_before (a : GiArgs T) o : init file edges round5 lsq inside a = Ok o ->
    exists lo hi x y z, before_mpi file edges round5 lsq a = Ok (lo, hi, (x, y, z)) /\
      gx (gi_grid o) = x /\ gy (gi_grid o) = y /\
      (forall rank size, ga_mpi a = Some (rank, size) -> exists t, mpi_tile (pz lo) (pz hi) (List.length z - 1) size rank = Ok t /\ gz (gi_grid o) = tl_z t).
  Proof.
    intros H. unfold GridInitModel.init in H. binv H b Hb. destruct b as [[lo hi] [[x y] z]].
    binv H st Hst. binv H sn Hsn. binv H ax Hax. destruct ax as [[x1 y1] z1]. binv H z2 Hz. binv H g Hg. binv H masks Hm.
    injection H as <-. cbn [gi_grid].
    assert (Gx : gx g = x1 /\ gy g = y1 /\ gz g = z2).
    { unfold compute_grid in Hg. destruct ((2 <=? List.length x1) && (2 <=? List.length y1) && (2 <=? List.length z2))%nat; [|discriminate].
      binv Hg L HL. binv Hg iA HiA. binv Hg tL HtL. binv Hg itA HitA. injection Hg as <-. split; [|split]; reflexivity. }
    destruct Gx as (Gx & Gy & Gz). exists lo, hi, x1, y1, z1.
    split; [|split; [exact Gx|split; [exact Gy|]]].
    - unfold before_mpi. rewrite Hb. cbn [bind]. rewrite Hst. cbn [bind]. rewrite Hsn. cbn [bind].
      destruct (ga_refine a); [|injection Hax as <- <- <-; reflexivity].
      binv Hax sn' Hq. rewrite Hq. cbn [bind]. destruct sn' as [[sx sy] sz]. binv Hax x' Hx. binv Hax y' Hy. binv Hax z' Hz'.
      rewrite Hx. cbn [bind]. rewrite Hy. cbn [bind]. rewrite Hz'. cbn [bind]. injection Hax as <- <- <-. reflexivity.
    - intros rank size Em. rewrite Em in Hz. binv Hz t Ht. injection Hz as <-. exists t. split; assumption.
  Qed.

  (** Preparing prepared dictionaries changes nothing. *)
  Lemma prepare_again so mats rot tra sca c (st : Stl T) : prepare so mats rot tra sca c = Ok st ->
    prepare (SoDict (st_solids st)) (st_mats st) (Each (st_rotate st)) (Each (st_translate st)) (Each (st_scale st)) (st_colors st) = Ok st.
  Proof.
    unfold prepare. intros H. binv H d Hd. binv H c' Hc. injection H as <-. cbn [st_solids st_mats st_rotate st_translate st_scale st_colors bind spread].
    assert (E : prepare_colors (map fst d) mats c' = Ok c').
    { unfold prepare_colors in *. destruct c as [|s|l|d']; try (injection Hc as <-; reflexivity).
      - binv Hc e He. injection Hc as <-. reflexivity.
      - destruct (list_colors (map fst d) l); [injection Hc as <-; reflexivity|]. binv Hc e He. injection Hc as <-. reflexivity. }
    rewrite E. reflexivity.
  Qed.

  (** A grid without refinement and MPI can be built whenever the solids can be read. *)
  Lemma collect_ok {A B} (f : A -> result B) l : (forall x, In x l -> exists b, f x = Ok b) -> exists r, collect f l = Ok r.
  Proof.
    unfold collect. set (h := fun (acc : list B) (a : A) => do b <- f a; Ok (acc ++ [b])%list). generalize (@nil B).
    induction l as [|x l IH]; intros acc H; [exists acc; reflexivity|].
    destruct (H x (or_introl eq_refl)) as [b Hb]. destruct (IH (acc ++ [b])%list) as [r Hr]; [intros; apply H; right; assumption|].
    exists r. cbn [seq_upd]. unfold h at 1. rewrite Hb. cbn [bind]. exact Hr.
  Qed.
  Lemma init_plain (a : GiArgs T) (o : GridObj T) lo hi nx ny nz : nx > 0 -> ny > 0 -> nz > 0 ->
    (forall st, gi_stl o = Some st -> exists so mats rot tra sca c, prepare so mats rot tra sca c = Ok st) ->
    (forall st, gi_stl o = Some st -> forall k, In k (map fst (st_solids st)) -> exists surf, read_stl file st k = Ok surf) ->
    exists g, init file edges round5 lsq inside (gather_args a o lo hi nx ny nz) = Ok g /\ gi_stl g = gi_stl o /\
      gx (gi_grid g) = linspace (px lo) (px hi) nx /\ gy (gi_grid g) = linspace (py lo) (py hi) ny /\
      gz (gi_grid g) = linspace (pz lo) (pz hi) nz.
  Proof.
    intros Px Py Pz Hp Hr. unfold GridInitModel.init, first_axes. cbn [gather_args ga_axes ga_min ga_max ga_N ga_refine ga_mpi ga_solids ga_mats ga_rotate
      ga_translate ga_scale ga_colors ga_tol ga_snaps bind].
    assert (L : forall u v n, List.length (@linspace T NT u v n) = n + 1) by (intros; apply tab_length).
    destruct (compute_grid_spec (linspace (px lo) (px hi) nx) (linspace (py lo) (py hi) ny) (linspace (pz lo) (pz hi) nz)) as (g & Eg & Gx & Gy & Gz & _);
      try (rewrite L; lia).
    assert (D : forall u v n, n > 0 -> exists m, np_min (diff (@linspace T NT u v n)) = Ok m).
    { intros u v n Pn. apply SolverTime.np_min_ok. intros E. apply (f_equal (@List.length T)) in E. unfold diff in E. rewrite tab_length, L in E. cbn in E. lia. }
    destruct (gi_stl o) as [st|] eqn:Es.
    - destruct (Hp st eq_refl) as (so & mats & rot & tra & sca & c & E). rewrite (prepare_again _ _ _ _ _ _ _ E). cbn [bind px py pz fst snd]. rewrite Eg. cbn [bind].
      destruct (D (px lo) (px hi) nx Px) as [mx ->]. destruct (D (py lo) (py hi) ny Py) as [my ->]. destruct (D (pz lo) (pz hi) nz Pz) as [mz ->]. cbn [bind].
      destruct (SolverTime.np_min_ok [mx; my; mz]) as [m ->]; [discriminate|]. cbn [bind].
      match goal with |- context [collect ?f ?l] => destruct (collect_ok f l) as [masks Em] end.
      { intros k Hk. destruct (Hr st eq_refl k Hk) as [surf ->]. eexists. reflexivity. }
      rewrite Em. eexists. split; [reflexivity|]. cbn [gi_stl gi_grid]. auto.
    - cbn [bind px py pz fst snd]. rewrite Eg. cbn [bind]. eexists. split; [reflexivity|]. cbn [gi_stl gi_grid]. auto.
  Qed.
End Gather_proofs.

(** ** C136 *)
(** On rank 0 the gathered grid always comes back.  It spans the whole domain with equal cells along every axis: as many
    as the rank has along x and y, and along z the layers that all ranks own together.  Solids, materials, placement and
    colours are those of the tile. *)
Theorem C136_gathered : forall (T : Type) (NT : Num T) (LT : NumLaws T) (OT : NumOrd T) (TR : NumTr T) file edges round5 lsq inside (a : GiArgs T) o size,
  char0 T -> 0 < size -> ga_mpi a = Some (0, size) -> init file edges round5 lsq inside a = Ok o ->
  exists x0 x1 y0 y1 z0 z1 g NZ,
    ga_min a = (Some x0, Some y0, Some z0) /\ ga_max a = (Some x1, Some y1, Some z1) /\
    gather file edges round5 lsq inside a = Ok (Some g) /\ gi_stl g = gi_stl o /\
    gx (gi_grid g) = linspace x0 x1 (List.length (gx (gi_grid o)) - 1) /\
    gy (gi_grid g) = linspace y0 y1 (List.length (gy (gi_grid o)) - 1) /\
    gz (gi_grid g) = linspace z0 z1 NZ /\ List.length (gz (gi_grid o)) = NZ / size + 2 /\ NZ mod size = 0 /\ 0 < NZ.
Proof.
  intros T NT LT OT TR file edges round5 lsq inside a o size C0 Ps Hm H.
  destruct (init_before _ _ _ _ _ a o H) as (lo & hi & x & y & z & B & Gx & Gy & Gt). destruct (Gt _ _ Hm) as (t & Et & Gz). clear Gt.
  destruct (init_inv file edges round5 lsq inside a o H) as (lo' & hi' & x' & y' & z' & A & S & _).
  assert (Elo : lo' = lo /\ hi' = hi).
  { unfold before_mpi in B. rewrite A in B. cbn [bind] in B. binv B st Hst. binv B sn Hsn. destruct (ga_refine a).
    - binv B sn' Hq. destruct sn' as [[sx sy] sz]. binv B xx Hx. binv B yy Hy. binv B zz Hz. injection B as -> -> _ _ _. auto.
    - injection B as -> -> _ _ _. auto. }
  destruct Elo as [-> ->].
  assert (Ext : ga_min a = (Some (px lo), Some (py lo), Some (pz lo)) /\ ga_max a = (Some (px hi), Some (py hi), Some (pz hi))).
  { unfold first_axes in A. rewrite Hm in A.
    destruct (ga_axes a) as [[[u|] [v|]] [w|]];
      try (destruct (ga_min a) as [[[?|] [?|]] [?|]]; try discriminate A; destruct (ga_max a) as [[[?|] [?|]] [?|]]; try discriminate A;
           destruct (ga_N a) as [[[?|] [?|]] [?|]]; try discriminate A; injection A as <- <- _ _ _; split; reflexivity).
    binv A u0 U0. binv A u1 U1. binv A v0 V0. binv A v1 V1. binv A w0 W0. binv A w1 W1. discriminate. }
  assert (Hz : size <= List.length z - 1). { unfold mpi_tile in Et. destruct (Nat.ltb_spec (List.length z - 1) size); [discriminate|lia]. }
  destruct (tile_spec (pz lo) (pz hi) (List.length z - 1) size 0 C0 Hz Ps) as (t' & Et' & ENZ & _ & Lz & _). rewrite Et in Et'. injection Et' as <-.
  destruct (NZ_facts (List.length z - 1) size Ps Hz) as (F1 & F2 & F3 & F4 & F5). set (NZ := List.length z - 1 - (List.length z - 1) mod size) in *.
  assert (Sz : 2 <= List.length (gx (gi_grid o)) /\ 2 <= List.length (gy (gi_grid o))).
  { clear - H. unfold GridInitModel.init in H. binv H b Hb. destruct b as [[lo hi] [[x y] z]].
    binv H st Hst. binv H sn Hsn. binv H ax Hax. destruct ax as [[x1 y1] z1]. binv H z2 Hz. binv H g Hg. binv H masks Hm. injection H as <-. cbn [gi_grid].
    unfold compute_grid in Hg.
    destruct (Nat.leb_spec 2 (List.length x1)); [|discriminate]. destruct (Nat.leb_spec 2 (List.length y1)); [|discriminate].
    destruct (Nat.leb_spec 2 (List.length z2)); [|discriminate]. cbn [andb] in Hg.
    binv Hg L HL. binv Hg iA HiA. binv Hg tL HtL. binv Hg itA HitA. injection Hg as <-. cbn [gx gy]. auto. }
  destruct (init_plain file edges round5 lsq inside a o lo hi (List.length x - 1) (List.length y - 1) NZ) as (g & Eg & Es & Ex & Ey & Ez); try (subst x y; lia).
  { intros st E. destruct (ga_solids a); [|congruence]. destruct S as (st' & E' & P & _). rewrite E in E'. injection E' as <-. do 6 eexists. exact P. }
  { intros st E. destruct (ga_solids a); [|congruence]. destruct S as (st' & E' & _ & P). rewrite E in E'. injection E' as <-. exact P. }
  exists (px lo), (px hi), (py lo), (py hi), (pz lo), (pz hi), g, NZ. destruct Ext as [X1 X2].
  split; [exact X1|]. split; [exact X2|]. split.
  { unfold gather. rewrite H. cbn [bind]. rewrite Hm. cbn [Nat.eqb]. rewrite B. cbn [bind]. rewrite Et. cbn [bind]. rewrite ENZ, Eg. reflexivity. }
  split; [exact Es|]. rewrite Gx, Gy. split; [exact Ex|]. split; [exact Ey|]. split; [exact Ez|]. split.
  { rewrite Gz, Lz. unfold lay, own, glo, ghi. cbn [Nat.ltb Nat.leb].
    destruct size as [|[|n]]; [lia| |]; cbn; lia. }
  split; [|lia]. rewrite F1, Nat.mul_comm. apply Nat.mod_mul. lia.
Qed.
Print Assumptions C136_gathered.
(** Without refinement it is the grid - nodes, metrics, solids, cell masks - that the same arguments give without MPI,
    with Nz rounded down to a multiple of the number of ranks; so exactly the grid of the serial script when Nz is such a
    multiple. *)
Theorem C136_serial_partial : forall (T : Type) (NT : Num T) (LT : NumLaws T) (OT : NumOrd T) (TR : NumTr T) file edges round5 lsq inside (a : GiArgs T) o size nx ny nz,
  char0 T -> 0 < size -> ga_mpi a = Some (0, size) -> ga_refine a = false -> ga_N a = (Some nx, Some ny, Some nz) ->
  init file edges round5 lsq inside a = Ok o ->
  exists g, gather file edges round5 lsq inside a = Ok (Some g) /\ init file edges round5 lsq inside (serial a (nz - nz mod size)) = Ok g /\
    (nz mod size = 0 -> init file edges round5 lsq inside (serial a nz) = Ok g).
Proof.
  intros T NT LT OT TR file edges round5 lsq inside a o size nx ny nz C0 Ps Hm Hr Hn H.
  assert (G := C136_gathered T NT LT OT TR file edges round5 lsq inside a o size C0 Ps Hm H).
  destruct G as (x0 & x1 & y0 & y1 & z0 & z1 & g & _ & X1 & X2 & G & _).
  enough (E : init file edges round5 lsq inside (serial a (nz - nz mod size)) = Ok g).
  { exists g. split; [exact G|]. split; [exact E|]. intros E0. rewrite E0, Nat.sub_0_r in E. exact E. }
  destruct (init_inv file edges round5 lsq inside a o H) as (lo & hi & x & y & z & A & S & _).
  assert (Ax : let '(u, v, w) := ga_axes a in u = None \/ v = None \/ w = None).
  { unfold first_axes in A. rewrite Hm in A. destruct (ga_axes a) as [[[u|] [v|]] [w|]]; auto.
    binv A u0 U0. binv A u1 U1. binv A v0 V0. binv A v1 V1. binv A w0 W0. binv A w1 W1. discriminate. }
  assert (FA : forall b : GiArgs T, ga_axes b = ga_axes a -> ga_min b = ga_min a -> ga_max b = ga_max a -> forall n, ga_N b = (Some nx, Some ny, Some n) ->
    first_axes b = Ok ((x0, y0, z0), (x1, y1, z1), (linspace x0 x1 nx, linspace y0 y1 ny, linspace z0 z1 n))).
  { intros b E1 E2 E3 n E4. unfold first_axes. rewrite E1, E2, E3, E4, X1, X2.
    destruct (ga_axes a) as [[[u|] [v|]] [w|]]; try reflexivity. destruct Ax as [?|[?|?]]; discriminate. }
  assert (A' := FA a eq_refl eq_refl eq_refl nz Hn). rewrite A in A'. injection A' as -> -> -> -> ->.
  unfold gather in G. rewrite H in G. cbn [bind] in G. rewrite Hm in G. cbn [Nat.eqb] in G. binv G b Hb.
  unfold before_mpi in Hb. rewrite A in Hb. cbn [bind] in Hb. binv Hb st Hst. rewrite Hr in Hb. cbn [bind] in Hb. injection Hb as <-.
  binv G t Ht. binv G g' Hg. injection G as ->.
  assert (L : forall u v n, List.length (@linspace T NT u v n) - 1 = n) by (intros; unfold linspace; rewrite tab_length; lia).
  rewrite L in Ht. do 2 rewrite L in Hg.
  assert (EN : tl_NZ t = nz - nz mod size).
  { assert (Hz : size <= nz). { unfold mpi_tile in Ht. destruct (Nat.ltb_spec nz size); [discriminate|lia]. }
    destruct (tile_spec (pz (x0, y0, z0)) (pz (x1, y1, z1)) nz size 0 C0 Hz Ps) as (t' & Et' & ENZ & _). rewrite Ht in Et'. injection Et' as <-. exact ENZ. }
  rewrite EN in Hg. set (NZ := nz - nz mod size) in *.
  rewrite <- Hg. unfold GridInitModel.init.
  rewrite (FA (serial a NZ) eq_refl eq_refl eq_refl NZ) by (cbn [serial ga_N]; rewrite Hn; reflexivity).
  unfold first_axes at 1. cbn [gather_args ga_axes ga_min ga_max ga_N ga_refine ga_mpi ga_solids ga_mats ga_rotate
      ga_translate ga_scale ga_colors ga_tol ga_snaps bind px py pz fst snd serial].
  rewrite Hr.
  destruct (ga_solids a) as [so|].
  - destruct S as (st' & E' & P & _). rewrite E', P. rewrite (prepare_again _ _ _ _ _ _ _ P). reflexivity.
  - rewrite S. reflexivity.
Qed.
Print Assumptions C136_serial_partial.
(** Every node of every tile is a node of the gathered grid, and the tiles have its x and y nodes. *)
Theorem C136_tiles_partial : forall (T : Type) (NT : Num T) (LT : NumLaws T) (OT : NumOrd T) (TR : NumTr T) file edges round5 lsq inside (a : nat -> GiArgs T) o g size r,
  char0 T -> 1 < size -> r < size ->
  (forall r, a r = {| ga_min := ga_min (a 0); ga_max := ga_max (a 0); ga_N := ga_N (a 0); ga_axes := ga_axes (a 0); ga_mpi := Some (r, size);
     ga_refine := false; ga_method := ga_method (a 0); ga_snaps := ga_snaps (a 0); ga_snap_tol := ga_snap_tol (a 0); ga_snap_solids := ga_snap_solids (a 0);
     ga_solids := ga_solids (a 0); ga_mats := ga_mats (a 0); ga_rotate := ga_rotate (a 0); ga_translate := ga_translate (a 0);
     ga_scale := ga_scale (a 0); ga_colors := ga_colors (a 0); ga_tol := ga_tol (a 0) |}) ->
  gather file edges round5 lsq inside (a 0) = Ok (Some g) -> init file edges round5 lsq inside (a r) = Ok o ->
  gx (gi_grid g) = gx (gi_grid o) /\ gy (gi_grid g) = gy (gi_grid o) /\
  let nz := (List.length (gz (gi_grid g)) - 1) / size in
  forall i, i < List.length (gz (gi_grid o)) ->
    let j := r * nz + i - (if 0 <? r then 1 else 0) in
    j < List.length (gz (gi_grid g)) /\ nth i (gz (gi_grid o)) nzero = nth j (gz (gi_grid g)) nzero.
Proof.
  intros T NT LT OT TR file edges round5 lsq inside a o g size r C0 Ps Hr Ha G H.
  assert (R0 : ga_refine (a 0) = false) by (rewrite (Ha 0); reflexivity).
  assert (Rr : ga_refine (a r) = false) by (rewrite (Ha r); reflexivity).
  assert (M0 : ga_mpi (a 0) = Some (0, size)) by (rewrite (Ha 0); reflexivity).
  assert (Mr : ga_mpi (a r) = Some (r, size)) by (rewrite (Ha r); reflexivity).
  assert (FA : first_axes (a r) = first_axes (a 0)).
  { rewrite (Ha r). unfold first_axes. cbn [ga_axes ga_min ga_max ga_N ga_mpi]. rewrite M0.
    destruct (ga_axes (a 0)) as [[[u|] [v|]] [w|]]; try reflexivity. }
  destruct (init file edges round5 lsq inside (a 0)) as [o0|] eqn:H0; [|unfold gather in G; rewrite H0 in G; discriminate].
  destruct (C136_gathered T NT LT OT TR file edges round5 lsq inside (a 0) o0 size C0 ltac:(lia) M0 H0)
    as (x0 & x1 & y0 & y1 & z0 & z1 & g' & NZ & X1 & X2 & G' & _ & Gx & Gy & Gz & Lz & Md & Pz). rewrite G in G'. injection G' as <-.
  destruct (init_inv file edges round5 lsq inside (a 0) o0 H0) as (lo & hi & x & y & z & A & _ & B). rewrite R0, M0 in B. destruct B as (Bx & By & t0 & Et0 & Bz).
  destruct (init_inv file edges round5 lsq inside (a r) o H) as (lo' & hi' & x' & y' & z' & A' & _ & B'). rewrite Rr, Mr in B'. destruct B' as (Bx' & By' & t & Et & Bz').
  rewrite FA, A in A'. injection A' as <- <- <- <- <-.
  assert (Pl : lo = (x0, y0, z0) /\ hi = (x1, y1, z1) /\ exists nx ny nz, x = linspace x0 x1 nx /\ y = linspace y0 y1 ny /\ z = linspace z0 z1 nz).
  { unfold first_axes in A. rewrite X1, X2, M0 in A.
    destruct (ga_axes (a 0)) as [[[u|] [v|]] [w|]];
      try (destruct (ga_N (a 0)) as [[[nx|] [ny|]] [nz|]]; try discriminate A; injection A as <- <- <- <- <-; split; [reflexivity|]; split; [reflexivity|]; exists nx, ny, nz; auto).
    binv A u0 U0. binv A u1 U1. binv A v0 V0. binv A v1 V1. binv A w0 W0. binv A w1 W1. discriminate. }
  destruct Pl as (-> & -> & nx & ny & nz & -> & -> & ->).
  assert (L : forall u v n, List.length (@linspace T NT u v n) = n + 1) by (intros; apply tab_length).
  rewrite L in *. replace (nz + 1 - 1) with nz in * by lia.
  rewrite Bx in Gx. rewrite By in Gy. rewrite L in Gx, Gy. replace (nx + 1 - 1) with nx in Gx by lia. replace (ny + 1 - 1) with ny in Gy by lia.
  split; [congruence|]. split; [congruence|]. rewrite Gz, L. replace (NZ + 1 - 1) with NZ by lia.
  assert (Hz : size <= nz). { unfold mpi_tile in Et. destruct (Nat.ltb_spec nz size); [discriminate|lia]. }
  destruct (NZ_facts nz size ltac:(lia) Hz) as (F1 & F2 & F3 & F4 & F5). set (N := nz - nz mod size) in *.
  destruct (tile_spec z0 z1 nz size 0 C0 Hz ltac:(lia)) as (t' & Et' & _ & _ & L0 & _). unfold pz in Et0. cbn [snd] in Et0. rewrite Et0 in Et'. injection Et' as <-.
  destruct (tile_spec z0 z1 nz size r C0 Hz Hr) as (t' & Et' & _ & _ & Lr & Ar & _). unfold pz in Et. cbn [snd] in Et. rewrite Et in Et'. injection Et' as <-.
  fold N in L0, Lr, Ar.
  assert (EN : NZ = N).
  { rewrite Bz, L0 in Lz. assert (X : NZ / size = own N size).
    { revert Lz. unfold lay, glo, ghi. cbn [Nat.ltb Nat.leb]. destruct size as [|[|n]]; [lia|lia|]. cbn; lia. }
    assert (Y := Nat.div_mod NZ size ltac:(lia)). rewrite X, Md in Y. lia. }
  subst NZ. fold (own N size). intros nz' i Hi. rewrite Bz', Lr in Hi. subst nz'.
  assert (Ej : r * own N size + i - (if 0 <? r then 1 else 0) = glob N size r i).
  { unfold glob, glo. reflexivity. }
  rewrite Ej. rewrite Bz'. fold (get (tl_z t) i). fold (get (linspace z0 z1 N) (glob N size r i)).
  assert (Hj : glob N size r i <= N).
  { revert Hi. unfold glob, lay, glo, ghi. intros Hi. clearbody N. revert F1 F2 Hi. generalize (own N size). intros w F1 F2 Hi.
    destruct (Nat.ltb_spec 0 r), (Nat.ltb_spec r (size - 1)); cbn in Hi |- *; destruct size as [|[|n]]; try lia; cbn [Nat.eqb orb andb] in Hi; rewrite ?orb_false_r, ?andb_false_r in Hi;
      try (assert (r = S n) by lia; subst r); rewrite F1; nia. }
  split; [lia|]. rewrite Ar by lia.
  assert (Q : get (linspace z0 z1 N) (glob N size r i) = nadd z0 (nmul (nofnat (glob N size r i)) (ndiv (nsub z1 z0) (nofnat N))))
    by (unfold linspace; rewrite get_tab by lia; reflexivity).
  symmetry. exact Q.
Qed.
Print Assumptions C136_tiles_partial.
(** The other ranks get None; a grid that was not cut into tiles has no rank. *)
Theorem C136_other_ranks : forall (T : Type) (NT : Num T) (OT : NumOrd T) (TR : NumTr T) file edges round5 lsq inside (a : GiArgs T) o,
  init file edges round5 lsq inside a = Ok o ->
  (forall r size, ga_mpi a = Some (r, size) -> 0 < r -> gather file edges round5 lsq inside a = Ok None) /\
  (ga_mpi a = None -> gather file edges round5 lsq inside a = Err AttributeError).
Proof.
  intros T NT OT TR file edges round5 lsq inside a o H. unfold gather. rewrite H. cbn [bind]. split.
  - intros r size -> Hr. destruct r; [lia|]. reflexivity.
  - intros ->. reflexivity.
Qed.
Print Assumptions C136_other_ranks.

(** *** The demo box on two ranks *)
Definition gather0 : GiArgs Qc -> result (option (GridObj Qc)) :=
  @gather Qc Num_Qc NumOrd_Qc NumTr_flat files0 (@List.concat (vec3 Qc)) (fun x => x) (fun x0 _ => x0) inside0.
Definition args136 (refine : bool) (nz r : nat) : GiArgs Qc :=
  let a := args0 refine None in
  {| ga_min := ga_min a; ga_max := ga_max a; ga_N := (Some 4, Some 4, Some nz); ga_axes := ga_axes a; ga_mpi := Some (r, 2);
     ga_refine := refine; ga_method := MInsert; ga_snaps := None; ga_snap_tol := ga_snap_tol a; ga_snap_solids := None;
     ga_solids := ga_solids a; ga_mats := ga_mats a; ga_rotate := ga_rotate a; ga_translate := ga_translate a;
     ga_scale := ga_scale a; ga_colors := ga_colors a; ga_tol := ga_tol a |}.
Definition nodes136 (r : result (GridObj Qc)) : list (list Q) :=
  match r with Ok o => [map this (gx (gi_grid o)); map this (gz (gi_grid o))] | Err _ => [] end.
Definition nodes136' (r : result (option (GridObj Qc))) : list (list Q) :=
  match r with Ok (Some o) => nodes136 (Ok o) | _ => [] end.
Example C136_case : nodes136' (gather0 (args136 false 4 0)) = [[0; 2; 4; 6; 8]; [0; 2; 4; 6; 8]]%Q /\
  nodes136 (init0 (args136 false 4 0)) = [[0; 2; 4; 6; 8]; [0; 2; 4; 6]]%Q /\
  nodes136 (init0 (args136 false 4 1)) = [[0; 2; 4; 6; 8]; [2; 4; 6; 8]]%Q /\
  nodes136 (init0 (serial (args136 false 4 0) 4)) = nodes136' (gather0 (args136 false 4 0)).
Proof. vm_compute. repeat split; reflexivity. Qed.
(** A refined grid is not given back: rank 0 works with a node at 5 on the edge of the rod, the gathered grid has none. *)
Theorem C136_refined_refuted : exists (a : GiArgs Qc) o g s,
  init0 a = Ok o /\ gather0 a = Ok (Some g) /\ init0 (serial a 4) = Ok s /\
  In (q 5 1) (gx (gi_grid o)) /\ In (q 5 1) (gx (gi_grid s)) /\ ~ In (q 5 1) (gx (gi_grid g)).
Proof.
  set (a := args136 true 4 0).
  assert (B : match init0 a, gather0 a, init0 (serial a 4) with
    | Ok o, Ok (Some g), Ok s => (existsb (Qc_eq_bool (q 5 1)) (gx (gi_grid o)), existsb (Qc_eq_bool (q 5 1)) (gx (gi_grid s)), existsb (Qc_eq_bool (q 5 1)) (gx (gi_grid g)))
    | _, _, _ => (false, false, true) end = (true, true, false)) by (vm_compute; reflexivity).
  clearbody a.
  destruct (init0 a) as [o|] eqn:E1; [|discriminate]. destruct (gather0 a) as [[g|]|] eqn:E2; try discriminate. destruct (init0 (serial a 4)) as [s|] eqn:E3; [|discriminate].
  injection B as B1 B2 B3. exists a, o, g, s. split; [exact E1|]. split; [exact E2|]. split; [exact E3|].
  assert (X : forall l, existsb (Qc_eq_bool (q 5 1)) l = true -> In (q 5 1) l).
  { intros l H. apply existsb_exists in H. destruct H as (y & I & Q). apply Qc_eq_bool_correct in Q. subst y. exact I. }
  split; [apply X, B1|]. split; [apply X, B2|]. intros I.
  assert (Y : existsb (Qc_eq_bool (q 5 1)) (gx (gi_grid g)) = true).
  { apply existsb_exists. exists (q 5 1). split; [exact I|]. vm_compute. reflexivity. }
  rewrite B3 in Y. discriminate.
Qed.
Print Assumptions C136_refined_refuted.
(** Nor the number of layers asked for: five layers on two ranks come back as four. *)
Theorem C136_layers_refuted : exists (a : GiArgs Qc) g s,
  ga_refine a = false /\ snd (ga_N a) = Some 5 /\ gather0 a = Ok (Some g) /\ init0 (serial a 5) = Ok s /\
  List.length (gz (gi_grid g)) = 5 /\ List.length (gz (gi_grid s)) = 6.
Proof.
  set (a := args136 false 5 0).
  assert (B : match gather0 a, init0 (serial a 5) with
    | Ok (Some g), Ok s => (List.length (gz (gi_grid g)), List.length (gz (gi_grid s)))
    | _, _ => (0, 0) end = (5, 6)) by (vm_compute; reflexivity).
  assert (B0 : ga_refine a = false /\ snd (ga_N a) = Some 5) by (split; reflexivity). clearbody a. destruct B0 as [B3 B4].
  destruct (gather0 a) as [[g|]|] eqn:E2; try discriminate. destruct (init0 (serial a 5)) as [s|] eqn:E3; [|discriminate].
  injection B as B1 B2. exists a, g, s. split; [exact B3|]. split; [exact B4|]. split; [exact E2|]. split; [exact E3|]. split; [exact B1|exact B2].
Qed.
Print Assumptions C136_layers_refuted.
