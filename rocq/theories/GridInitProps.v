(** Properties C94-C98: building a grid object from the caller's arguments. *)
From Coq Require Import List Arith ZArith NArith Bool String Lia QArith Qcanon Reals Lra.
From Verif Require Import Num Vec FieldModel GridModel SolverModel SolverCons SolverBuild SolverTime GridFileModel GridProofs GridProofs2
  GridRefineProofs MpiModel MpiSolverModel MpiTiles WakeModel WakeNum SourceModel SolverKit GridInitModel GridInitProofs.
Import ListNotations.
Open Scope string_scope.
Open Scope nat_scope.

(** ** Demo setting over the rationals: rotations by zero degrees only. *)
Definition NumTr_flat : NumTr Qc := {| nexp := fun _ => 1%Qc; ncos := fun _ => 1%Qc; nsin := fun _ => 0%Qc; npi := 0%Qc |}.
Definition v3 (a b c : Z) : vec3 Qc := (q a 1, q b 1, q c 1).
(** A box with corners (2,0,1), (4,0,1), (2,6,3), (4,6,0). *)
Definition files0 (f : string) : option (list (vec3 Qc)) :=
  if String.eqb f "box.stl" then Some [v3 2 0 1; v3 4 0 1; v3 2 6 3; v3 4 6 0]
  else if String.eqb f "rod.stl" then Some [v3 5 0 7] else None.
Definition inside0 (ax : list Qc * list Qc * list Qc) (s : list (vec3 Qc)) (tol : Qc) : list bool := [true].
Definition init0 : GiArgs Qc -> result (GridObj Qc) :=
  @init Qc Num_Qc NumOrd_Qc NumTr_flat files0 (@List.concat (vec3 Qc)) (fun x => x) (fun x0 _ => x0) inside0.
Definition args0 (refine : bool) (snaps : option (list (vec3 Qc))) : GiArgs Qc :=
  {| ga_min := (Some (q 0 1), Some (q 0 1), Some (q 0 1)); ga_max := (Some (q 8 1), Some (q 8 1), Some (q 8 1));
     ga_N := (Some 4, Some 4, Some 4); ga_axes := (None, None, None); ga_mpi := None;
     ga_refine := refine; ga_method := MInsert; ga_snaps := snaps; ga_snap_tol := q 1 10; ga_snap_solids := None;
     ga_solids := Some (SoDict [("box", "box.stl"); ("rod", "rod.stl")]%string);
     ga_mats := Some [("rod", PName "copper"); ("box", PList [NpInf; PFin (q 1 1)])]%string;
     ga_rotate := Same (v3 0 0 0); ga_translate := Same (v3 0 0 0); ga_scale := Same (Sc1 (q 1 1));
     ga_colors := ColList [CName "red"; CName "blue"]; ga_tol := q 1 1000 |}.

(** ** C94 *)
(** Whatever the other arguments are, snap points given by the caller never lead to a grid: _refine_xyz_axis
    reads x_snaps, which only _compute_snap_points sets. *)
Theorem C94_given_snaps_fail : forall (T : Type) (NT : Num T) (OT : NumOrd T) (TR : NumTr T) file edges round5 lsq inside
    (a : GiArgs T) ps, ga_refine a = true -> ga_snaps a = Some ps ->
  forall o, init file edges round5 lsq inside a <> Ok o.
Proof.
  intros T NT OT TR file edges round5 lsq inside a ps Hr Hs o H.
  destruct (init_inv file edges round5 lsq inside a o H) as (lo & hi & x & y & z & _ & _ & K).
  rewrite Hr in K. destruct K as [K _]. rewrite Hs in K. discriminate.
Qed.
Print Assumptions C94_given_snaps_fail.
(** Nor does refinement without any solid. *)
Theorem C94_no_solids_fail : forall (T : Type) (NT : Num T) (OT : NumOrd T) (TR : NumTr T) file edges round5 lsq inside
    (a : GiArgs T), ga_refine a = true -> ga_solids a = None ->
  forall o, init file edges round5 lsq inside a <> Ok o.
Proof.
  intros T NT OT TR file edges round5 lsq inside a Hr Hs o H.
  destruct (init_inv file edges round5 lsq inside a o H) as (lo & hi & x & y & z & _ & S & K).
  rewrite Hs in S. rewrite Hr in K. destruct K as (_ & st & sx & sy & sz & x' & y' & z' & E & _). congruence.
Qed.
Print Assumptions C94_no_solids_fail.
(** A grid that can be built, and refined, but not with the caller's own snap points inside the domain. *)
Theorem C94_given_snaps_refuted : exists (a b : GiArgs Qc) ps,
  ga_refine a = true /\ ga_snaps a = Some ps /\ b = args0 true None /\ a = args0 true (Some ps) /\
  (forall p, In p ps -> (q 0 1 < px p)%Qc /\ (px p < q 8 1)%Qc) /\
  (exists o, init0 b = Ok o) /\ init0 a = Err AttributeError.
Proof.
  exists (args0 true (Some [v3 3 2 5])), (args0 true None), [v3 3 2 5].
  split; [reflexivity|]. split; [reflexivity|]. split; [reflexivity|]. split; [reflexivity|].
  split; [intros p [<-|[]]; split; reflexivity|]. split.
  - destruct (init0 (args0 true None)) as [o|e] eqn:E; [exists o; reflexivity|exfalso].
    assert (B : match init0 (args0 true None) with Ok _ => true | Err _ => false end = true) by (vm_compute; reflexivity).
    rewrite E in B. discriminate.
  - vm_compute. reflexivity.
Qed.
Print Assumptions C94_given_snaps_refuted.
(** The corners of the domain: the ends of the three node arrays when these are given, else the extents. *)
Definition domain {T} (a : GiArgs T) (lo hi : vec3 T) : Prop :=
  match ga_axes a with
  | (Some x, Some y, Some z) =>
      hd_error x = Some (px lo) /\ hd_error (rev x) = Some (px hi) /\ hd_error y = Some (py lo) /\ hd_error (rev y) = Some (py hi) /\
      hd_error z = Some (pz lo) /\ hd_error (rev z) = Some (pz hi)
  | _ => ga_min a = (Some (px lo), Some (py lo), Some (pz lo)) /\ ga_max a = (Some (px hi), Some (py hi), Some (pz hi))
  end.
(** With snap points taken from the solids and the 'insert' method, the ends of the domain and every coordinate of a
    feature point lying in one of the three planes are nodes of the axis, provided the optimiser leaves the marked
    nodes in place. *)
Lemma domain_bounds {T} {NT : Num T} (a : GiArgs T) lo hi lo' hi' x y z : domain a lo hi ->
  first_axes a = Ok (lo', hi', (x, y, z)) -> lo' = lo /\ hi' = hi.
Proof.
  assert (L : forall (v : list T) u, item v (List.length v - 1) = Ok u -> hd_error (rev v) = Some u).
  { intros v u H. destruct v as [|b v] using rev_ind; [discriminate|]. rewrite rev_app_distr. cbn. rewrite app_length in H. cbn in H.
    unfold item in H. rewrite nth_error_app2 in H by lia. replace (_ - _) with 0 in H by lia. cbn in H. congruence. }
  assert (L0 : forall (v : list T) u, item v 0 = Ok u -> hd_error v = Some u).
  { intros [|b v] u H; [discriminate|]. cbn in *. congruence. }
  intros D H. unfold domain in D. unfold first_axes in H. destruct lo as [[l1 l2] l3], hi as [[h1 h2] h3].
  unfold px, py, pz in D. cbn [fst snd] in D.
  destruct (ga_axes a) as [[[u|] [v|]] [w|]];
    try (destruct D as [D1 D2]; rewrite D1, D2 in H; destruct (ga_N a) as [[[n1|] [n2|]] [n3|]]; try discriminate H; injection H as <- <- _ _ _; auto).
  binv H u0 U0. binv H u1 U1. binv H v0 V0. binv H v1 V1. binv H w0 W0. binv H w1 W1.
  apply L0 in U0, V0, W0. apply L in U1, V1, W1. destruct (ga_mpi a); [discriminate|]. injection H as <- <- _ _ _.
  destruct D as (D1 & D2 & D3 & D4 & D5 & D6). split; congruence.
Qed.
Theorem C94_solids_partial : forall (T : Type) (NT : Num T) (LT : NumLaws T) (OT : NumOrd T) (FT : NumFl T) (FL : NumFlLaws T) (TR : NumTr T)
    file edges round5 (lsq : list T -> list bool -> list T) inside (a : GiArgs T) o st lo hi,
  init file edges round5 lsq inside a = Ok o -> ga_refine a = true -> ga_method a = MInsert -> ga_mpi a = None ->
  domain a lo hi -> px lo <> px hi -> py lo <> py hi -> pz lo <> pz hi ->
  (forall v b i, nth_error b i = Some true -> nth_error (lsq v b) i = nth_error v i) ->
  gi_stl o = Some st ->
  (In (px lo) (gx (gi_grid o)) /\ In (px hi) (gx (gi_grid o)) /\ In (py lo) (gy (gi_grid o)) /\ In (py hi) (gy (gi_grid o)) /\
   In (pz lo) (gz (gi_grid o)) /\ In (pz hi) (gz (gi_grid o))) /\
  forall surfs p,
  Forall2 (fun k s => read_stl file st k = Ok s) (match ga_snap_solids a with Some l => l | None => map fst (st_solids st) end) surfs ->
  In p (edges surfs) ->
  nltb (nabs (px p)) (ga_snap_tol a) = true \/ nltb (nabs (py p)) (ga_snap_tol a) = true \/ nltb (nabs (pz p)) (ga_snap_tol a) = true ->
  In (round5 (px p)) (gx (gi_grid o)) /\ In (round5 (py p)) (gy (gi_grid o)) /\ In (round5 (pz p)) (gz (gi_grid o)).
Proof.
  intros T NT LT OT FT FL TR file edges round5 lsq inside a o st lo hi H Hr Hm Hp Hd Nx Ny Nz K S.
  destruct (init_inv file edges round5 lsq inside a o H) as (lo' & hi' & x & y & z & A & _ & B).
  assert (D : lo' = lo /\ hi' = hi) by exact (domain_bounds a lo hi lo' hi' x y z Hd A). destruct D as [-> ->].
  rewrite Hr in B. destruct B as (_ & st' & sx & sy & sz & x' & y' & z' & S' & _ & Cs & Rx & Ry & Rz & Gx & Gy & Gz).
  rewrite Hm in Rx, Ry, Rz. rewrite Hp in Gz. rewrite S in S'. injection S' as <-. rewrite Gx, Gy, Gz.
  assert (KX := refine_keeps _ _ _ _ _ _ K Nx Rx). assert (KY := refine_keeps _ _ _ _ _ _ K Ny Ry). assert (KZ := refine_keeps _ _ _ _ _ _ K Nz Rz).
  split.
  - destruct (snaps_bounds file edges round5 st _ _ _ _ _ _ _ Cs) as (I1 & I2 & I3 & I4 & I5 & I6). auto 10.
  - intros surfs p F I C. destruct (snaps_in file edges round5 st _ _ _ _ _ _ _ surfs p Cs F I C) as (I1 & I2 & I3). auto.
Qed.
Print Assumptions C94_solids_partial.
Example C94_case : match init0 (args0 true None) with
  | Ok o => map this (gx (gi_grid o)) = [0; 2; 4; 5; 8]%Q /\
            map this (gz (gi_grid o)) = [0; 1; 7; 8]%Q
  | Err _ => False end.
Proof. vm_compute. split; reflexivity. Qed.

(** ** C95 *)
(** A value given once is the value of every solid. *)
Theorem C95_same_for_all : forall (T : Type) (NT : Num T) (OT : NumOrd T) so mats (rot tra : per (vec3 T)) sca c (st : Stl T),
  prepare so mats rot tra sca c = Ok st ->
  forall k, In k (map fst (st_solids st)) ->
  (forall r, rot = Same r -> dget (st_rotate st) k = Ok r) /\ (forall t, tra = Same t -> dget (st_translate st) k = Ok t) /\
  (forall s, sca = Same s -> dget (st_scale st) k = Ok s) /\
  (forall d, rot = Each d -> st_rotate st = d) /\ (forall d, tra = Each d -> st_translate st = d) /\ (forall d, sca = Each d -> st_scale st = d).
Proof.
  intros T NT OT so mats rot tra sca c st H k Hk. destruct (prepare_inv _ _ _ _ _ _ _ H) as (R & Tr & S & _ & _).
  rewrite R, Tr, S. repeat split; intros ? ->; try (cbn; apply dget_map; exact Hk); reflexivity.
Qed.
Print Assumptions C95_same_for_all.
(** A single file name becomes the solid "Solid 1"; a list of colours is dealt out in the order of the solids. *)
Theorem C95_colour_list : forall (T : Type) (NT : Num T) (OT : NumOrd T) so mats (rot tra : per (vec3 T)) sca l (st : Stl T) i k col,
  prepare so mats rot tra sca (ColList l) = Ok st -> NoDup (map fst (st_solids st)) -> List.length (st_solids st) <= List.length l ->
  nth_error (map fst (st_solids st)) i = Some k -> nth_error l i = Some col ->
  exists d, st_colors st = ColDict d /\ dget d k = Ok col /\ map fst d = map fst (st_solids st).
Proof.
  intros T NT OT so mats rot tra sca l st i k col H N L Hk Hc. destruct (prepare_inv _ _ _ _ _ _ _ H) as (_ & _ & _ & P & _).
  cbn in P. unfold list_colors in P. rewrite map_length in P.
  destruct (Nat.leb_spec (List.length (st_solids st)) (List.length l)) as [_|B]; [|lia]. injection P as P. rewrite <- P.
  eexists. split; [reflexivity|]. split; [exact (dget_combine _ l i k col N Hk Hc)|].
  clear - L. generalize (st_solids st) L. intros d. revert l L. clear.
  intros l _. revert l. induction d as [|[a b] d IH]; intros l L; [reflexivity|]. destruct l as [|c l]; [cbn in L; lia|]. cbn. f_equal. apply IH. cbn in L. lia.
Qed.
Print Assumptions C95_colour_list.
(** With too few colours the list is dropped altogether. *)
Theorem C95_short_list : forall (T : Type) (NT : Num T) (OT : NumOrd T) d mats (rot tra : per (vec3 T)) (sca : per (scale_ T)) l,
  List.length l < List.length d ->
  prepare (SoDict d) mats rot tra sca (ColList l) = prepare (SoDict d) mats rot tra sca ColNone.
Proof.
  intros T NT OT d mats rot tra sca l L. unfold prepare. cbn. unfold list_colors. rewrite map_length.
  destruct (Nat.leb_spec (List.length d) (List.length l)) as [B|_]; [lia|]. reflexivity.
Qed.
Print Assumptions C95_short_list.
(** A single colour for all solids is documented (str); it is left as a bare string instead. *)
Theorem C95_one_colour_refuted : exists so mats (rot tra : per (vec3 Qc)) sca s st,
  prepare so mats rot tra sca (ColStr s) = Ok st /\ List.length (st_solids st) = 2 /\ forall d, st_colors st <> ColDict d.
Proof.
  exists (SoDict [("a", "a.stl"); ("b", "b.stl")]%string), None, (Same (v3 0 0 0)), (Same (v3 0 0 0)), (Same (Sc1 (q 1 1))), "red"%string.
  eexists. split; [reflexivity|]. split; [reflexivity|]. discriminate.
Qed.
Print Assumptions C95_one_colour_refuted.
(** A dict that misses a solid makes the construction fail. *)
Theorem C95_missing_entry_fails : forall (T : Type) (NT : Num T) (OT : NumOrd T) (TR : NumTr T) file edges round5 lsq inside (a : GiArgs T) d k,
  ga_solids a = Some (SoDict d) -> In k (map fst d) ->
  (exists r, ga_rotate a = Each r /\ ~ In k (map fst r)) \/ (exists t, ga_translate a = Each t /\ ~ In k (map fst t)) \/
  (exists s, ga_scale a = Each s /\ ~ In k (map fst s)) ->
  forall o, init file edges round5 lsq inside a <> Ok o.
Proof.
  intros T NT OT TR file edges round5 lsq inside a d k Hd Hk M o H.
  destruct (init_inv file edges round5 lsq inside a o H) as (lo & hi & x & y & z & _ & S & _).
  rewrite Hd in S. destruct S as (st & _ & P & R). destruct (prepare_inv _ _ _ _ _ _ _ P) as (Er & Et & Es & _ & E).
  rewrite <- E in Hk. destruct (R k Hk) as [surf Hs]. destruct (read_stl_keys file st k surf Hs) as ([r Hr] & [t Ht] & [s Hs']).
  rewrite Er in Hr. rewrite Et in Ht. rewrite Es in Hs'.
  destruct M as [(m & Em & N)|[(m & Em & N)|(m & Em & N)]]; rewrite Em in *; cbn in *; rewrite (dget_none m k N) in *; discriminate.
Qed.
Print Assumptions C95_missing_entry_fails.
Example C95_case : match init0 (args0 false None) with
  | Ok o => match gi_stl o with
            | Some st => st_colors st = ColDict [("box", CName "red"); ("rod", CName "blue")]%string /\
                         dget (st_scale st) "rod" = Ok (Sc1 (q 1 1)) /\ map fst (gi_masks o) = ["box"; "rod"]%string
            | None => False end
  | Err _ => False end.
Proof. vm_compute. repeat split. Qed.

(** ** C96 *)
(** Every solid with a material gets a colour that depends on its material alone. *)
Theorem C96_every_solid : forall (T : Type) (NT : Num T) (OT : NumOrd T) (ms : dict (pymat T)) ks,
  NoDup ks -> (forall k, In k ks -> exists m, dget ms k = Ok m) ->
  exists d, assign_colors ks (Some ms) = Ok d /\ map fst d = ks /\
    forall k m, In k ks -> dget ms k = Ok m -> dget d k = Ok (auto_colour m).
Proof. exact (fun T NT OT => @assign_ok T NT OT). Qed.
Print Assumptions C96_every_solid.
(** The same material written in two ways gets two colours: an upper-case name, and an infinite permittivity that
    is not the object np.inf.  The solver treats both alike. *)
Theorem C96_same_material_refuted : exists m1 m2 m3 m4 : pymat Qc,
  material_of m1 <> None /\ (exists e, option_map find_material (material_of m1) = Some (Ok e) /\ option_map find_material (material_of m2) = Some (Ok e)) /\
  auto_colour m1 <> auto_colour m2 /\
  option_map find_material (material_of m3) = option_map find_material (material_of m4) /\ auto_colour m3 <> auto_colour m4.
Proof.
  exists (PName "PEC"), (PName "pec"), (PList [FloatInf; PFin (q 1 1)]), (PList [NpInf; PFin (q 1 1)]).
  split; [discriminate|]. split; [eexists; split; reflexivity|]. split; [discriminate|]. split; [reflexivity|discriminate].
Qed.
Print Assumptions C96_same_material_refuted.
(** Lower-case names and np.inf: colour and material agree between a library name and its list. *)
Theorem C96_same_material_partial : forall (T : Type) (NT : Num T) (LT : NumLaws T) (OT : NumOrd T) (FT : NumFl T) (FL : NumFlLaws T),
  (forall u : T, auto_colour (PList [NpInf; PFin u]) = auto_colour (PName (T := T) "pec")) /\
  (forall e u : T, nltb none_ e = true -> auto_colour (PList [PFin e; PFin u]) = auto_colour (PName (T := T) "dielectric")) /\
  (forall u : T, auto_colour (PList [PFin none_; PFin u]) = auto_colour (PName (T := T) "vacuum")) /\
  (forall e u s : pynum T, auto_colour (PList [e; u; s]) = auto_colour (PName (T := T) "lossy metal")).
Proof.
  intros T NT LT OT FT FL. split; [reflexivity|]. split; [intros e u H; cbn; rewrite H; reflexivity|].
  split; [intros u; cbn; rewrite ol_irr; reflexivity|reflexivity].
Qed.
Print Assumptions C96_same_material_partial.
Example C96_case : assign_colors ["rod"; "box"]%string (ga_mats (args0 false None)) =
  Ok [("rod", CRgb 82745099 69803900 49019599); ("box", CName "white")]%string.
Proof. reflexivity. Qed.

(** ** C97 *)
Definition minus (p q : vec3 R) : vec3 R := (px p - px q, py p - py q, pz p - pz q)%R.
Definition dot (p q : vec3 R) : R := (px p * px q + py p * py q + pz p * pz q)%R.
Definition triple (u v w : vec3 R) : R :=
  (px u * (py v * pz w - pz v * py w) + py u * (pz v * px w - px v * pz w) + pz u * (px v * py w - py v * px w))%R.
Lemma trig a : (cos a * cos a = 1 - sin a * sin a)%R.
Proof. pose proof (sin2_cos2 a) as H. unfold Rsqr in H. lra. Qed.

Section Place.
  Open Scope R_scope.
  Definition mv (t : vec3 R) (s : R) (p : vec3 R) : vec3 R := scale (Sc1 s) (translate t p).
  Lemma rx a p1 p2 p3 : rot_x a (p1, p2, p3) = (p1, cos (rad a) * p2 - sin (rad a) * p3, sin (rad a) * p2 + cos (rad a) * p3). Proof. reflexivity. Qed.
  Lemma ry a p1 p2 p3 : rot_y a (p1, p2, p3) = (cos (rad a) * p1 + sin (rad a) * p3, p2, - sin (rad a) * p1 + cos (rad a) * p3). Proof. reflexivity. Qed.
  Lemma rz a p1 p2 p3 : rot_z a (p1, p2, p3) = (cos (rad a) * p1 - sin (rad a) * p2, sin (rad a) * p1 + cos (rad a) * p2, p3). Proof. reflexivity. Qed.
  Lemma mvd t1 t2 t3 s p1 p2 p3 : mv (t1, t2, t3) s (p1, p2, p3) = (s * (p1 + t1), s * (p2 + t2), s * (p3 + t3)). Proof. reflexivity. Qed.
  Lemma pl a b c t s p : place (a, b, c) t (Sc1 s) p = mv t s (rot_z c (rot_y b (rot_x a p))). Proof. reflexivity. Qed.
  Lemma mi p1 p2 p3 q1 q2 q3 : minus (p1, p2, p3) (q1, q2, q3) = (p1 - q1, p2 - q2, p3 - q3). Proof. reflexivity. Qed.
  Lemma dt p1 p2 p3 q1 q2 q3 : dot (p1, p2, p3) (q1, q2, q3) = p1 * q1 + p2 * q2 + p3 * q3. Proof. reflexivity. Qed.
  Ltac expand := rewrite ?pl, ?rx, ?ry, ?rz, ?mvd.
  Lemma place_dot (r t : vec3 R) s p q p' q' :
    dot (minus (place r t (Sc1 s) p) (place r t (Sc1 s) q)) (minus (place r t (Sc1 s) p') (place r t (Sc1 s) q')) =
    s * s * dot (minus p q) (minus p' q').
  Proof.
    destruct r as [[ax ay] az], t as [[t1 t2] t3], p as [[p1 p2] p3], q as [[q1 q2] q3], p' as [[u1 u2] u3], q' as [[v1 v2] v3].
    expand. rewrite !mi, dt, dt.
    set (cx := cos (rad ax)); set (sx := sin (rad ax)); set (cy := cos (rad ay)); set (sy := sin (rad ay)); set (cz := cos (rad az)); set (sz := sin (rad az)).
    assert (X : cx * cx = 1 - sx * sx) by apply trig. assert (Y : cy * cy = 1 - sy * sy) by apply trig. assert (Z : cz * cz = 1 - sz * sz) by apply trig.
    clearbody cx sx cy sy cz sz.
    ring [X Y Z].
  Qed.
  Lemma place_triple (r t : vec3 R) s o p q w :
    triple (minus (place r t (Sc1 s) p) (place r t (Sc1 s) o)) (minus (place r t (Sc1 s) q) (place r t (Sc1 s) o)) (minus (place r t (Sc1 s) w) (place r t (Sc1 s) o)) =
    s * s * s * triple (minus p o) (minus q o) (minus w o).
  Proof.
    destruct r as [[ax ay] az], t as [[t1 t2] t3], p as [[p1 p2] p3], q as [[q1 q2] q3], o as [[u1 u2] u3], w as [[v1 v2] v3].
    expand. rewrite !mi. unfold triple, px, py, pz. cbn [fst snd].
    set (cx := cos (rad ax)); set (sx := sin (rad ax)); set (cy := cos (rad ay)); set (sy := sin (rad ay)); set (cz := cos (rad az)); set (sz := sin (rad az)).
    assert (X : cx * cx = 1 - sx * sx) by apply trig. assert (Y : cy * cy = 1 - sy * sy) by apply trig. assert (Z : cz * cz = 1 - sz * sz) by apply trig.
    clearbody cx sx cy sy cz sz.
    ring [X Y Z].
  Qed.
End Place.
(** A uniform scale [s]: angles are kept and lengths multiplied by s, without mirroring; the translation acts before the
    scale, so it moves the solid by s times its value; each angle turns the solid counter-clockwise
    seen from the tip of its axis, angles about one axis add up, and x is turned first, z last; the defaults do nothing. *)
Theorem C97_placement : forall (r t : vec3 R) (s : R) o p q w, let f := place r t (Sc1 s) in
  dot (minus (f p) (f o)) (minus (f q) (f o)) = (s * s * dot (minus p o) (minus q o))%R /\
  triple (minus (f p) (f o)) (minus (f q) (f o)) (minus (f w) (f o)) = (s * s * s * triple (minus p o) (minus q o) (minus w o))%R /\
  minus (f p) (place r (0, 0, 0)%R (Sc1 s) p) = (s * px t, s * py t, s * pz t)%R /\
  place (90, 0, 0)%R (0, 0, 0)%R (Sc1 1%R) p = (px p, - pz p, py p)%R /\
  place (0, 90, 0)%R (0, 0, 0)%R (Sc1 1%R) p = (pz p, py p, - px p)%R /\
  place (0, 0, 90)%R (0, 0, 0)%R (Sc1 1%R) p = (- py p, px p, pz p)%R /\
  (forall a b e, In e [(1, 0, 0); (0, 1, 0); (0, 0, 1)]%R -> let turn d := place (d * px e, d * py e, d * pz e)%R (0, 0, 0)%R (Sc1 1%R) in
     turn (a + b)%R p = turn a (turn b p)) /\
  place r (0, 0, 0)%R (Sc1 1%R) p =
    place (0, 0, pz r)%R (0, 0, 0)%R (Sc1 1%R) (place (0, py r, 0)%R (0, 0, 0)%R (Sc1 1%R) (place (px r, 0, 0)%R (0, 0, 0)%R (Sc1 1%R) p)) /\
  place (0, 0, 0)%R (0, 0, 0)%R (Sc1 1%R) p = p.
Proof.
  intros r t s o p q w f. split; [apply place_dot|]. split; [apply place_triple|].
  assert (E0 : @rad R _ _ 0%R = 0%R) by (unfold rad; cbn; unfold Rdiv; ring).
  assert (E90 : @rad R _ _ 90%R = (PI / 2)%R).
  { unfold rad. rewrite nofnat_INR. replace (INR 180) with 180%R by (rewrite INR_IZR_INZ; reflexivity).
    cbn [ndiv nmul npi Num_R NumTr_R]. field. }
  destruct p as [[p1 p2] p3], r as [[r1 r2] r3]. split.
  { destruct t as [[t1 t2] t3]. unfold f. rewrite !pl, rx, ry, rz, !mvd, mi. unfold px, py, pz. cbn [fst snd]. f_equal; [f_equal|]; ring. }
  assert (EA : forall a b, @rad R _ _ (a + b)%R = (@rad R _ _ a + @rad R _ _ b)%R) by (intros; unfold rad; cbn; unfold Rdiv; ring).
  unfold px, py, pz. cbn [fst snd].
  split; [rewrite pl, rx, ry, rz, mvd, E0, E90, cos_0, sin_0, cos_PI2, sin_PI2; f_equal; [f_equal|]; ring|].
  split; [rewrite pl, rx, ry, rz, mvd, E0, E90, cos_0, sin_0, cos_PI2, sin_PI2; f_equal; [f_equal|]; ring|].
  split; [rewrite pl, rx, ry, rz, mvd, E0, E90, cos_0, sin_0, cos_PI2, sin_PI2; f_equal; [f_equal|]; ring|].
  split; [|split].
  - intros a b e He. destruct He as [<-|[<-|[<-|[]]]]; cbn [fst snd];
      rewrite !Rmult_0_r, !Rmult_1_r, !pl, !rx, !ry, !rz, !mvd, !rx, !ry, !rz, !mvd, EA, E0, cos_0, sin_0, cos_plus, sin_plus; (f_equal; [f_equal|]; ring).
  - rewrite !pl, !rx, !ry, !rz, !mvd. rewrite !rx, !ry, !rz, !mvd. rewrite !rx, !ry, !rz, !mvd. rewrite E0, cos_0, sin_0. f_equal; [f_equal|]; ring.
  - rewrite pl, rx, ry, rz, mvd, E0, cos_0, sin_0. f_equal; [f_equal|]; ring.
Qed.
Print Assumptions C97_placement.

(** The cells of each solid are those that pyvista finds inside its placed surface, with a tolerance of [tol] times the
    smallest distance of two neighbouring nodes of the grid. *)
Theorem C97_masks : forall file edges round5 lsq inside (a : GiArgs R) o st,
  init file edges round5 lsq inside a = Ok o -> gi_stl o = Some st -> let g := gi_grid o in
  exists h, (exists v i, In v [gx g; gy g; gz g] /\ S i < List.length v /\ h = (nth (S i) v 0 - nth i v 0)%R) /\
    (forall v i, In v [gx g; gy g; gz g] -> S i < List.length v -> (h <= nth (S i) v 0 - nth i v 0)%R) /\
    map fst (gi_masks o) = map fst (st_solids st) /\
    forall k m, In (k, m) (gi_masks o) -> exists f pts r t s,
      dget (st_solids st) k = Ok f /\ file f = Some pts /\ dget (st_rotate st) k = Ok r /\ dget (st_translate st) k = Ok t /\ dget (st_scale st) k = Ok s /\
      m = inside (gx g, gy g, gz g) (map (place r t s) pts) (h * ga_tol a)%R.
Proof.
  intros file edges round5 lsq inside a o st H Hs. cbn zeta. destruct (init_masks file edges round5 lsq inside a o st H Hs) as (mx & my & mz & m & Ex & Ey & Ez & Em & C).
  destruct (np_min_R _ _ Ex) as [Ix Lx]. destruct (np_min_R _ _ Ey) as [Iy Ly]. destruct (np_min_R _ _ Ez) as [Iz Lz]. destruct (np_min_R _ _ Em) as [Im Lm].
  assert (DI : forall (v : list R) d, In d (diff v) -> exists i, S i < List.length v /\ d = (nth (S i) v 0 - nth i v 0)%R).
  { intros v d Hd. unfold diff, tab in Hd. apply in_map_iff in Hd. destruct Hd as (i & <- & Hi). apply in_seq in Hi. exists i. split; [lia|].
    rewrite Nat.add_comm. reflexivity. }
  assert (DN : forall (v : list R) i, S i < List.length v -> In (nth (S i) v 0 - nth i v 0)%R (diff v)).
  { intros v i Hi. unfold diff, tab. apply in_map_iff. exists i. rewrite Nat.add_comm. split; [reflexivity|apply in_seq; lia]. }
  exists m. split; [|split; [|split]].
  - destruct Im as [<-|[<-|[<-|[]]]]; [apply DI in Ix; destruct Ix as (i & Hi & E); exists (gx (gi_grid o)), i|
      apply DI in Iy; destruct Iy as (i & Hi & E); exists (gy (gi_grid o)), i|apply DI in Iz; destruct Iz as (i & Hi & E); exists (gz (gi_grid o)), i];
      (split; [cbn; auto|split; assumption]).
  - intros v i Hv Hi. apply DN in Hi. destruct Hv as [<-|[<-|[<-|[]]]]; [apply Lx in Hi; specialize (Lm mx)|apply Ly in Hi; specialize (Lm my)|apply Lz in Hi; specialize (Lm mz)];
      cbn in Lm; (eapply Rle_trans; [apply Lm; auto|exact Hi]).
  - apply collect_forall2 in C. clear - C. induction C as [|u v l l' E C IH]; [reflexivity|]. cbn. rewrite <- IH. f_equal. binv E surf Hs. injection E as <-. reflexivity.
  - intros k m0 Hin. apply collect_forall2 in C.
    assert (X : exists k', (do surf <- read_stl file st k'; Ok (k', inside (gx (gi_grid o), gy (gi_grid o), gz (gi_grid o)) surf (m * ga_tol a)%R)) = Ok (k, m0)).
    { clear - C Hin. induction C as [|u v l l' E C IH]; [destruct Hin|]. destruct Hin as [->|Hin]; [exists u; exact E|exact (IH Hin)]. }
    destruct X as [k' X]. binv X surf Hr0. injection X as -> <-. unfold read_stl in Hr0. binv Hr0 fn Hf. binv Hr0 pts Hpts. binv Hr0 r Hr. binv Hr0 t Ht. binv Hr0 s Hsc.
    injection Hr0 as <-. exists fn, pts, r, t, s. unfold some in Hpts. destruct (file fn); [injection Hpts as ->|discriminate]. auto 10.
Qed.
Print Assumptions C97_masks.
Example C97_masks_case : match @init Qc Num_Qc NumOrd_Qc NumTr_flat files0 (@List.concat (vec3 Qc)) (fun x => x) (fun x0 _ => x0)
    (fun _ s tol => [Qc_eq_bool tol (q 2 1000); List.length s =? 4]) (args0 false None) with
  | Ok o => gi_masks o = [("box", [true; true]); ("rod", [true; false])]%string
  | Err _ => False end.
Proof. vm_compute. reflexivity. Qed.

(** ** C98 *)
(** Extents and cell counts: equally spaced nodes that start and end exactly at the given extents. *)
Theorem C98_extents : forall file edges round5 lsq inside (a : GiArgs R) o x0 x1 y0 y1 z0 z1 nx ny nz,
  init file edges round5 lsq inside a = Ok o -> ga_refine a = false -> ga_mpi a = None -> ga_axes a = (None, None, None) ->
  ga_min a = (Some x0, Some y0, Some z0) -> ga_max a = (Some x1, Some y1, Some z1) -> ga_N a = (Some nx, Some ny, Some nz) ->
  nx > 0 -> ny > 0 -> nz > 0 -> (x0 < x1)%R -> (y0 < y1)%R -> (z0 < z1)%R ->
  Forall (fun c : list R * (R * R) * nat => let '(v, (lo, hi), n) := c in
            List.length v = n + 1 /\ nth 0 v 0%R = lo /\ nth n v 0%R = hi /\
            forall i, i < n -> (nth (i + 1) v 0 - nth i v 0 = (hi - lo) / INR n)%R)
    [(gx (gi_grid o), (x0, x1), nx); (gy (gi_grid o), (y0, y1), ny); (gz (gi_grid o), (z0, z1), nz)].
Proof.
  intros file edges round5 lsq inside a o x0 x1 y0 y1 z0 z1 nx ny nz H Hr Hm Ha Hlo Hhi Hn Px Py Pz Lx Ly Lz.
  destruct (init_inv file edges round5 lsq inside a o H) as (lo & hi & x & y & z & A & _ & B).
  rewrite Hr, Hm in B. destruct B as (Gx & Gy & Gz). unfold first_axes in A. rewrite Ha, Hlo, Hhi, Hn in A.
  injection A as <- <- <- <- <-. rewrite Gx, Gy, Gz.
  assert (U : forall lo hi n, n > 0 -> (lo < hi)%R -> List.length (linspace lo hi n) = n + 1 /\ nth 0 (linspace lo hi n) 0%R = lo /\
    nth n (linspace lo hi n) 0%R = hi /\ forall i, i < n -> (nth (i + 1) (linspace lo hi n) 0 - nth i (linspace lo hi n) 0 = (hi - lo) / INR n)%R).
  { intros lo hi n Pn L. destruct (uniform_axis lo hi n Pn L) as (U1 & _ & U3 & U4 & U5).
    split; [exact U1|]. split; [exact U3|]. split; [exact U4|]. intros i Hi. rewrite <- (U5 i Hi).
    unfold diff. rewrite U1. rewrite get_tab by lia. reflexivity. }
  repeat constructor; apply U; assumption.
Qed.
Print Assumptions C98_extents.
(** Three node arrays: the grid uses them as they are, and the extents are ignored; not with MPI. *)
Theorem C98_custom : forall (T : Type) (NT : Num T) (OT : NumOrd T) (TR : NumTr T) file edges round5 lsq inside (a : GiArgs T) o x y z,
  init file edges round5 lsq inside a = Ok o -> ga_axes a = (Some x, Some y, Some z) ->
  ga_mpi a = None /\ (ga_refine a = false -> gx (gi_grid o) = x /\ gy (gi_grid o) = y /\ gz (gi_grid o) = z).
Proof.
  intros T NT OT TR file edges round5 lsq inside a o x y z H Ha.
  destruct (init_inv file edges round5 lsq inside a o H) as (lo & hi & x' & y' & z' & A & _ & B).
  unfold first_axes in A. rewrite Ha in A.
  binv A xa Xa. binv A xb Xb. binv A ya Ya. binv A yb Yb. binv A za Za. binv A zb Zb. destruct (ga_mpi a); [discriminate|].
  split; [reflexivity|]. intros Hr. rewrite Hr in B. injection A as _ _ <- <- <-. exact B.
Qed.
Print Assumptions C98_custom.
(** An extent is missing and an array is missing: ValueError; a cell count is missing: TypeError. *)
Theorem C98_incomplete : forall (T : Type) (NT : Num T) (OT : NumOrd T) (TR : NumTr T) file edges round5 lsq inside (a : GiArgs T),
  (let '(x, y, z) := ga_axes a in x = None \/ y = None \/ z = None) ->
  ((let '(x0, y0, z0) := ga_min a in let '(x1, y1, z1) := ga_max a in
    x0 = None \/ y0 = None \/ z0 = None \/ x1 = None \/ y1 = None \/ z1 = None) ->
     init file edges round5 lsq inside a = Err ValueError) /\
  ((let '(x0, y0, z0) := ga_min a in let '(x1, y1, z1) := ga_max a in let '(nx, ny, nz) := ga_N a in
    ~ (x0 = None \/ y0 = None \/ z0 = None \/ x1 = None \/ y1 = None \/ z1 = None) /\ (nx = None \/ ny = None \/ nz = None)) ->
     init file edges round5 lsq inside a = Err TypeError).
Proof.
  intros T NT OT TR file edges round5 lsq inside a H.
  assert (E : forall e, first_axes a = Err e -> init file edges round5 lsq inside a = Err e) by (intros e X; unfold init; rewrite X; reflexivity).
  assert (F : first_axes a = match ga_min a, ga_max a with
    | (Some x0, Some y0, Some z0), (Some x1, Some y1, Some z1) =>
        match ga_N a with
        | (Some nx, Some ny, Some nz) => Ok ((x0, y0, z0), (x1, y1, z1), (linspace x0 x1 nx, linspace y0 y1 ny, linspace z0 z1 nz))
        | _ => Err TypeError
        end
    | _, _ => Err ValueError end).
  { unfold first_axes. destruct (ga_axes a) as [[[x|] [y|]] [z|]]; try reflexivity. destruct H as [?|[?|?]]; discriminate. }
  rewrite F in E. clear F H.
  destruct (ga_min a) as [[x0 y0] z0]. destruct (ga_max a) as [[x1 y1] z1]. split.
  - intros K. apply E. clear E. destruct K as [->|[->|[->|[->|[->| ->]]]]];
      repeat match goal with |- context [match ?o with Some _ => _ | None => _ end] => is_var o; destruct o end; reflexivity.
  - destruct (ga_N a) as [[nx ny] nz]. intros [K N]. apply E. clear E.
    destruct x0; [|exfalso; tauto]. destruct y0; [|exfalso; tauto]. destruct z0; [|exfalso; tauto].
    destruct x1; [|exfalso; tauto]. destruct y1; [|exfalso; tauto]. destruct z1; [|exfalso; tauto]. clear K.
    destruct nx; [|reflexivity]. destruct ny; [|reflexivity]. destruct nz; [|reflexivity].
    destruct N as [N|[N|N]]; discriminate.
Qed.
Print Assumptions C98_incomplete.
(** One custom axis together with all extents: silently replaced by equally spaced nodes. *)
Definition args_one : GiArgs Qc :=
  {| ga_min := (Some (q 0 1), Some (q 0 1), Some (q 0 1)); ga_max := (Some (q 4 1), Some (q 4 1), Some (q 4 1));
     ga_N := (Some 2, Some 2, Some 2); ga_axes := (None, None, Some [q 0 1; q 1 1; q 4 1]); ga_mpi := None;
     ga_refine := false; ga_method := MInsert; ga_snaps := None; ga_snap_tol := q 1 10; ga_snap_solids := None;
     ga_solids := None; ga_mats := None; ga_rotate := Same (v3 0 0 0); ga_translate := Same (v3 0 0 0); ga_scale := Same (Sc1 (q 1 1));
     ga_colors := ColNone; ga_tol := q 1 1000 |}.
Theorem C98_one_axis_refuted : exists (a : GiArgs Qc) z o,
  snd (ga_axes a) = Some z /\ init0 a = Ok o /\ gz (gi_grid o) <> z.
Proof.
  destruct (init0 args_one) as [o|e] eqn:E.
  - exists args_one, [q 0 1; q 1 1; q 4 1], o. split; [reflexivity|]. split; [exact E|]. intros K.
    assert (B : match init0 args_one with Ok o => neqb (nth 1 (gz (gi_grid o)) (q 0 1)) (q 1 1) | Err _ => true end = false) by (vm_compute; reflexivity).
    rewrite E, K in B. vm_compute in B. discriminate.
  - exfalso. assert (B : match init0 args_one with Ok _ => true | Err _ => false end = true) by (vm_compute; reflexivity).
    rewrite E in B. discriminate.
Qed.
Print Assumptions C98_one_axis_refuted.
Section Step98.
  Context {T : Type} {NT : Num T} {LT : NumLaws T}.
  Add Field fld98 : (@num_field T NT LT).
  Local Open Scope num_scope.
  Lemma step98 (a h : T) n : a + nofnat (S n) * h - (a + nofnat n * h) = h.
  Proof. cbn [nofnat]. ring. Qed.
End Step98.
(** With MPI the z nodes of the tile are equally spaced whether or not refinement was asked for: the snapped axis
    only decides how many cells there are. *)
Theorem C98_mpi_uniform : forall (T : Type) (NT : Num T) (LT : NumLaws T) (OT : NumOrd T) (TR : NumTr T) file edges round5 lsq inside (a : GiArgs T) o r size,
  char0 T -> init file edges round5 lsq inside a = Ok o -> ga_mpi a = Some (r, size) -> r < size ->
  exists h, forall i, i + 1 < List.length (gz (gi_grid o)) -> nsub (nth (i + 1) (gz (gi_grid o)) nzero) (nth i (gz (gi_grid o)) nzero) = h.
Proof.
  intros T NT LT OT TR file edges round5 lsq inside a o r size C0 H Hm Hr.
  destruct (init_inv file edges round5 lsq inside a o H) as (lo & hi & x & y & z & _ & _ & B). rewrite Hm in B.
  assert (M : exists Nz t, mpi_tile (pz lo) (pz hi) Nz size r = Ok t /\ gz (gi_grid o) = tl_z t).
  { destruct (ga_refine a).
    - destruct B as (_ & st & sx & sy & sz & x' & y' & z' & _ & _ & _ & _ & _ & _ & _ & _ & t & Et & Gz). exists (List.length z' - 1), t. split; assumption.
    - destruct B as (_ & _ & t & Et & Gz). exists (List.length z - 1), t. split; assumption. }
  destruct M as (Nz & t & Et & Gz). rewrite Gz.
  assert (Hs : size <= Nz). { unfold mpi_tile in Et. destruct (Nat.ltb_spec Nz size); [discriminate|lia]. }
  destruct (tile_spec (pz lo) (pz hi) Nz size r C0 Hs Hr) as (t' & E' & _ & _ & L & G & _). rewrite Et in E'. injection E' as <-.
  set (NZ := Nz - Nz mod size) in *. exists (ndiv (nsub (pz hi) (pz lo)) (nofnat NZ)).
  intros i Hi. rewrite L in Hi. fold (get (tl_z t) (i + 1)). fold (get (tl_z t) i). rewrite !G by lia.
  assert (Eg : glob NZ size r (i + 1) = S (glob NZ size r i)).
  { assert (O : 0 < own NZ size) by (apply (NZ_facts Nz size); lia).
    clear - O. unfold glob, glo. generalize dependent (own NZ size). intros w O. destruct r as [|r']; cbn [Nat.ltb Nat.leb]; nia. }
  rewrite Eg. apply step98.
Qed.
Print Assumptions C98_mpi_uniform.
(** The snapped axis of the demo box, and the uniform one each of two ranks works with. *)
Definition args_mpi (r : nat) : GiArgs Qc :=
  let a := args0 true None in
  {| ga_min := ga_min a; ga_max := ga_max a; ga_N := ga_N a; ga_axes := ga_axes a; ga_mpi := Some (r, 2);
     ga_refine := true; ga_method := MInsert; ga_snaps := None; ga_snap_tol := ga_snap_tol a; ga_snap_solids := None;
     ga_solids := ga_solids a; ga_mats := ga_mats a; ga_rotate := ga_rotate a; ga_translate := ga_translate a;
     ga_scale := ga_scale a; ga_colors := ga_colors a; ga_tol := ga_tol a |}.
Example C98_case : match init0 (args0 true None), init0 (args_mpi 0) with
  | Ok o, Ok o1 => (map this (gz (gi_grid o)), map this (gz (gi_grid o1)), map this (gx (gi_grid o1))) =
                   ([0; 1; 7; 8], [0; 4; 8], [0; 2; 4; 5; 8])%Q
  | _, _ => False end.
Proof. vm_compute. repeat split. Qed.
