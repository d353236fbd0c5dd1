(** Properties C120-C122: the three-dimensional conformal grid. *)
From Coq Require Import List Arith ZArith Bool String Lia QArith Qcanon Reals Lra Psatz.
From Coquelicot Require Import Coquelicot.
From Verif Require Import Num Vec FieldModel GridModel GridProofs2 SolverModel SolverCons WakeModel WakeNum Grid2DModel Grid2DProofs Grid2DArea Grid2DCut Grid3DModel Grid3DProofs Grid3DArea.
Import ListNotations.
Open Scope nat_scope.

(** ** C120 *)
(** Along a line parallel to an axis the intersection returned is a place where the line enters or leaves the conductor,
    and no such place is nearer to the point asked about. *)
Definition true3_x (c : @cond3 R) (x y z : R) : Prop := nearest_crossing (fun t => in3 c t y z) x (ix3 c x y z).
Definition true3_y (c : @cond3 R) (x y z : R) : Prop := nearest_crossing (fun t => in3 c x t z) y (iy3 c x y z).
Definition true3_z (c : @cond3 R) (x y z : R) : Prop := nearest_crossing (fun t => in3 c x y t) z (iz3 c x y z).
Theorem C120_plane : forall far p0 p1 p2 n0 n1 n2 x y z : R, let c := plane3 far p0 p1 p2 n0 n1 n2 in
  (n0 <> 0%R -> true3_x c x y z) /\ (n1 <> 0%R -> true3_y c x y z) /\ (n2 <> 0%R -> true3_z c x y z).
Proof.
  intros far p0 p1 p2 n0 n1 n2 x y z c. repeat split; intros N.
  - unfold true3_x. unfold c at 2. rewrite plane3_ix by exact N. apply half_crossing; [exact N|]. intros t. unfold c. rewrite plane3_in. lra.
  - unfold true3_y. unfold c at 2. rewrite plane3_iy by exact N. apply half_crossing; [exact N|]. intros t. unfold c. rewrite plane3_in. lra.
  - unfold true3_z. unfold c at 2. rewrite plane3_iz by exact N. apply half_crossing; [exact N|]. intros t. unfold c. rewrite plane3_in. lra.
Qed.
Print Assumptions C120_plane.
(** On the lines that pass through the box. *)
Theorem C120_cube : forall lx ly lz xc yc zc x y z : R, (0 < lx)%R -> (0 < ly)%R -> (0 < lz)%R -> let c := in_cube lx ly lz xc yc zc in
  let X := (xc - lx / 2 < x < xc + lx / 2)%R in let Y := (yc - ly / 2 < y < yc + ly / 2)%R in let Z := (zc - lz / 2 < z < zc + lz / 2)%R in
  (Y -> Z -> true3_x c x y z) /\ (X -> Z -> true3_y c x y z) /\ (X -> Y -> true3_z c x y z).
Proof.
  intros lx ly lz xc yc zc x y z Lx Ly Lz c X Y Z. unfold true3_x, true3_y, true3_z, c. rewrite cube_ix, cube_iy, cube_iz.
  subst X Y Z. repeat split; intros K L; (apply (nearest_gap _ false); [lra| |]); intros t Ht;
    first [apply cube_out; unfold in_box; lra|apply cube_in; unfold in_box; lra].
Qed.
Print Assumptions C120_cube.
(** Spheres whose centre is on the plane through the origin across the line, conducting inside or outside. *)
Theorem C120_sphere_partial : forall (inside : bool) (r a b c x y z : R), let s := (if inside then in_sphere sqrt r a b c else out_sphere sqrt r a b c) in
  let u := (x - a)%R in let v := (y - b)%R in let w := (z - c)%R in
  (a = 0%R -> (v * v + w * w < r * r)%R -> true3_x s x y z) /\
  (b = 0%R -> (u * u + w * w < r * r)%R -> true3_y s x y z) /\
  (c = 0%R -> (u * u + v * v < r * r)%R -> true3_z s x y z).
Proof.
  assert (G : forall (inn : R -> bool) (k : bool) r u v x, (u * u + v * v < r * r)%R ->
    (forall t, (t * t + u * u + v * v < r * r)%R -> inn t = k) -> (forall t, (r * r < t * t + u * u + v * v)%R -> inn t = negb k) ->
    nearest_crossing inn x (sphere_cut sqrt r 0%R u v x)).
  { intros inn k r u v x H I O. rewrite cut_R by exact H. pose proof (fun t => chord3 r u v t H) as C. cbn zeta in C. set (w := sqrt (r * r - u * u - v * v)) in *.
    destruct (C 0%R) as [W _]. apply (nearest_gap' _ k); [lra| |]; intros t Ht; destruct (C t) as (_ & C1 & C2).
    - apply I, C1. exact Ht.
    - apply O, C2. exact Ht. }
  intros inside r a b c x y z s u v w. unfold true3_x, true3_y, true3_z.
  split; [|split]; intros E H; subst; destruct inside; cbn [s ix3 iy3 iz3 in3 in_sphere out_sphere]; unfold dist2, sq; cbn [nmul nsub nadd Num_R];
    [apply (G _ true)|apply (G _ false)|apply (G _ true)|apply (G _ false)|apply (G _ true)|apply (G _ false)]; try exact H; intros t Ht; cbn [negb];
    first [apply nleb_R|apply nleb_Rf]; subst u v w; nra.
Qed.
Print Assumptions C120_sphere_partial.
(** Radius 1 about (3, 0, 0): on the x axis the intersection is offered at 4 or at -4, where nothing is. *)
Theorem C120_sphere_refuted : forall inside : bool, exists r a b c x y z : R, let s := (if inside then in_sphere sqrt r a b c else out_sphere sqrt r a b c) in
  ((y - b) * (y - b) + (z - c) * (z - c) < r * r)%R /\ ~ true3_x s x y z.
Proof.
  intros inside. exists 1%R, 3%R, 0%R, 0%R, (- 1)%R, 0%R, 0%R. split; [lra|]. intros (v & E & C & _).
  assert (E' : sphere_cut sqrt 1%R 3%R (0 - 0)%R (0 - 0)%R (- 1)%R = Some v) by (destruct inside; exact E). clear E. rename E' into E.
  unfold sphere_cut, sq in E. cbn [nmul nsub nadd nopp nzero Num_R] in E. replace (1 * 1 - (0 - 0) * (0 - 0) - (0 - 0) * (0 - 0))%R with 1%R in E by ring.
  destruct (nltb _ _) eqn:L in E; [discriminate|]. rewrite sqrt_1 in E. injection E as E.
  assert (V : v = (-4)%R).
  { rewrite <- E. unfold nearer. rewrite !nabs_R. cbn [nsub Num_R]. rewrite Rabs_left, Rabs_pos_eq by lra. match goal with |- context [nltb ?a ?b] => destruct (nltb a b) eqn:K end; [apply R_ltb in K; lra|lra]. }
  destruct (C 1%R) as (p & q & P & Q & I & O); [lra|]. apply Rabs_def2 in P. apply Rabs_def2 in Q.
  destruct inside; cbn [in3 in_sphere out_sphere] in I, O; unfold dist2, sq in I, O; cbn [nmul nsub nadd Num_R] in I, O.
  - apply nleb_R in I. nra.
  - apply nleb_Rf in O. nra.
Qed.
Print Assumptions C120_sphere_refuted.
(** Several conductors: a point is inside when it is inside one of them, and when every conductor gives an intersection
    the one nearest to the point is returned. *)
Lemma argmin3_spec (p : R) : forall l b, let v := argmin3 p (Some b) (map Some l) in
  exists v', v = Some v' /\ (v' = b \/ In v' l) /\ forall w, (w = b \/ In w l) -> (Rabs (v' - p) <= Rabs (w - p))%R.
Proof.
  induction l as [|u l IH]; intros b v.
  - exists b. split; [reflexivity|]. split; [left; reflexivity|]. intros w [->|[]]. lra.
  - unfold v, argmin3. cbn [map fold_left]. unfold less3 at 2. rewrite !nabs_R. cbn [nsub Num_R].
    destruct (nltb (Rabs (u - p)) (Rabs (b - p))) eqn:E.
    + apply R_ltb in E. destruct (IH u) as (v' & V & I & M). exists v'. split; [exact V|]. split; [destruct I as [->|I]; right; [left; reflexivity|right; exact I]|].
      intros w [->|[->|W]]; [specialize (M u (or_introl eq_refl)); cbn in E; lra|apply M; left; reflexivity|apply M; right; exact W].
    + apply R_ltb_f in E. destruct (IH b) as (v' & V & I & M). exists v'. split; [exact V|]. split; [destruct I as [->|I]; [left; reflexivity|right; right; exact I]|].
      intros w [->|[->|W]]; [apply M; left; reflexivity|specialize (M b (or_introl eq_refl)); cbn in E; lra|apply M; right; exact W].
Qed.
Definition best_of (f : @cond3 R -> option R) (p : R) (cs : list (@cond3 R)) (o : option R) : Prop :=
  (forall c, In c cs -> f c <> None) -> exists v, o = Some v /\ (exists c, In c cs /\ f c = Some v) /\
    forall c w, In c cs -> f c = Some w -> (Rabs (v - p) <= Rabs (w - p))%R.
Lemma argmin3_best (f : @cond3 R -> option R) p c cs : best_of f p (c :: cs) (argmin3 p (f c) (map f cs)).
Proof.
  intros H. destruct (f c) as [b|] eqn:Eb; [|exfalso; exact (H c (or_introl eq_refl) Eb)].
  assert (L : exists l, map f cs = map Some l /\ forall w, In w l <-> exists c, In c cs /\ f c = Some w).
  { assert (H' : forall c, In c cs -> f c <> None) by (intros c' K; apply H; right; exact K). clear H Eb. induction cs as [|d cs IH].
    - exists []. split; [reflexivity|]. intros w. split; [intros []|intros (c' & [] & _)].
    - destruct (f d) as [u|] eqn:E; [|exfalso; exact (H' d (or_introl eq_refl) E)]. destruct IH as (l & E1 & E2); [intros c' K; apply H'; right; exact K|].
      exists (u :: l). split; [cbn; rewrite E, E1; reflexivity|]. intros w. split.
      + intros [->|W]; [exists d; split; [left; reflexivity|exact E]|]. apply E2 in W. destruct W as (c' & C1 & C2). exists c'. split; [right; exact C1|exact C2].
      + intros (c' & [->|C1] & C2); [left; congruence|right; apply E2; exists c'; auto]. }
  destruct L as (l & -> & L). destruct (argmin3_spec p l b) as (v & V & I & M). exists v. split; [exact V|]. split.
  - destruct I as [->|I]; [exists c; split; [left; reflexivity|exact Eb]|]. apply L in I. destruct I as (c' & C1 & C2). exists c'. split; [right; exact C1|exact C2].
  - intros c' w [<-|K] E; apply M; [left; congruence|right; apply L; exists c'; auto].
Qed.
Theorem C120_assembly_partial : forall (c : @cond3 R) cs x y z, let a := assembly3 c cs in
  (in3 a x y z = true <-> exists c', In c' (c :: cs) /\ in3 c' x y z = true) /\ out3 a x y z = Ok (negb (in3 a x y z)) /\
  best_of (fun c => ix3 c x y z) x (c :: cs) (ix3 a x y z) /\ best_of (fun c => iy3 c x y z) y (c :: cs) (iy3 a x y z) /\
  best_of (fun c => iz3 c x y z) z (c :: cs) (iz3 a x y z).
Proof.
  intros c cs x y z a. split; [unfold a, assembly3; cbn [in3]; rewrite existsb_exists; reflexivity|]. split; [reflexivity|].
  repeat split; [apply (argmin3_best (fun c => ix3 c x y z))|apply (argmin3_best (fun c => iy3 c x y z))|apply (argmin3_best (fun c => iz3 c x y z))].
Qed.
Print Assumptions C120_assembly_partial.
(** A sphere that the line misses, listed first, hides the plane that the line crosses: the answer is nan. *)
Theorem C120_assembly_refuted : exists (c d : @cond3 R) (x y z v : R), in3 (assembly3 c [d]) x y z = false /\ in3 (assembly3 c [d]) (x - 1)%R y z = true /\
  ix3 d x y z = Some v /\ true3_x d x y z /\ ix3 (assembly3 c [d]) x y z = None.
Proof.
  exists (in_sphere sqrt 1%R 0%R 0%R 0%R), (plane3 1000%R 0%R 0%R 0%R 1%R 0%R 0%R), (1/2)%R, 5%R, 0%R.
  assert (N : (1 <> 0)%R) by lra. eexists. split; [|split; [|split; [|split]]].
  - cbn [in3 assembly3]. apply not_true_is_false. rewrite existsb_exists. intros (c & [<-|[<-|[]]] & K).
    + apply nleb_R in K. unfold dist2, sq in K. cbn in K. lra.
    + apply plane3_in in K. lra.
  - cbn [in3 assembly3]. rewrite existsb_exists. eexists. split; [right; left; reflexivity|]. apply plane3_in. lra.
  - apply plane3_ix. exact N.
  - apply (C120_plane 1000 0 0 0 1 0 0). exact N.
  - cbn [assembly3 ix3 in_sphere map]. unfold sphere_cut, sq. cbn [nmul nsub nadd nzero Num_R].
    replace (nltb _ _) with true by (symmetry; apply R_ltb; lra). pose proof (plane3_ix 1000 0 0 0 1 0 0 (1/2) 5 0 N) as E. cbn [ix3 plane3] in *. rewrite E. reflexivity.
Qed.
Print Assumptions C120_assembly_refuted.
(** out_conductor is the opposite of in_conductor, except that the conducting sphere never answers. *)
Theorem C120_out_partial : forall (c : @cond3 R) x y z,
  (exists lx ly lz a b d, c = in_cube lx ly lz a b d) \/ (exists r a b d, c = out_sphere sqrt r a b d) \/ (exists far, c = no_conductor3 far) \/
  (exists far p0 p1 p2 n0 n1 n2, c = plane3 far p0 p1 p2 n0 n1 n2) -> out3 c x y z = Ok (negb (in3 c x y z)).
Proof.
  intros c x y z [H|[H|[H|H]]]; decompose [ex] H; subst; try reflexivity. cbn [out3 in3 in_cube]. rewrite negb_involutive. reflexivity.
Qed.
Print Assumptions C120_out_partial.
Theorem C120_out_refuted : exists c : @cond3 R, (exists r, (0 < r)%R /\ c = in_sphere sqrt r 0%R 0%R 0%R) /\ forall x y z, exists e, out3 c x y z = Err e.
Proof. exists (in_sphere sqrt 1%R 0%R 0%R 0%R). split; [exists 1%R; split; [lra|reflexivity]|]. intros. eexists. reflexivity. Qed.
Print Assumptions C120_out_refuted.
Example C120_case : true3_z (in_sphere sqrt 3%R 1%R 0%R 0%R) 2%R 2%R 7%R /\ iz3 (in_sphere sqrt 3%R 1%R 0%R 0%R) 2%R 2%R 7%R = Some 2%R.
Proof.
  split; [apply (C120_sphere_partial true 3 1 0 0 2 2 7); [reflexivity|lra]|].
  cbn [iz3 in_sphere]. change (nsub 2%R 1%R) with (2 - 1)%R. change (nsub 2%R 0%R) with (2 - 0)%R. rewrite cut_R by lra.
  replace (3 * 3 - (2 - 1) * (2 - 1) - (2 - 0) * (2 - 0))%R with (2 * 2)%R by ring. rewrite sqrt_square by lra. f_equal.
  unfold nearer. rewrite !nabs_R. cbn [nsub Num_R]. rewrite !Rabs_pos_eq by lra. replace (nltb _ _) with true; [reflexivity|]. symmetry. apply R_ltb. lra.
Qed.

(** ** C121 *)
(** Every stored edge length is the length of the part of the edge outside the conductor, up to [tol] of a cell.  The edges
    are those of the box and cell counts given to Grid3D. *)
Definition pos (lo hi : R) (n i : nat) : R := (lo + INR i * ((hi - lo) / INR n))%R.
Definition cell (lo hi : R) (n : nat) : R := ((hi - lo) / INR n)%R.
Definition edges_of3 (c : @cond3 R) (g : @grid3 R) (tol xmin xmax ymin ymax zmin zmax : R) (nx ny nz : nat) : Prop :=
  let x := pos xmin xmax nx in let y := pos ymin ymax ny in let z := pos zmin zmax nz in forall i j k,
  (exists l, free_len (fun t => in3 c t (y j) (z k)) (x i) (x (S i)) l /\ (Rabs (q_lx g i j k - l) <= tol * cell xmin xmax nx)%R) /\
  (exists l, free_len (fun t => in3 c (x i) t (z k)) (y j) (y (S j)) l /\ (Rabs (q_ly g i j k - l) <= tol * cell ymin ymax ny)%R) /\
  (exists l, free_len (fun t => in3 c (x i) (y j) t) (z k) (z (S k)) l /\ (Rabs (q_lz g i j k - l) <= tol * cell zmin zmax nz)%R).
(** half spaces, boxes more than two cells wide, and no conductor *)
Definition smooth3 (dx dy dz : R) (c : @cond3 R) : Prop :=
  (exists far p0 p1 p2 n0 n1 n2, c = plane3 far p0 p1 p2 n0 n1 n2) \/
  (exists lx ly lz xc yc zc, c = in_cube lx ly lz xc yc zc /\ (2 * dx < lx)%R /\ (2 * dy < ly)%R /\ (2 * dz < lz)%R) \/
  (exists far, c = no_conductor3 far).
Lemma smooth_edges dx dy dz (c : @cond3 R) x y z : (0 < dx)%R -> (0 < dy)%R -> (0 < dz)%R -> smooth3 dx dy dz c ->
  edge_ok (fun t => in3 c t y z) (fun t => ix3 c t y z) x dx /\ edge_ok (fun t => in3 c x t z) (fun t => iy3 c x t z) y dy /\
  edge_ok (fun t => in3 c x y t) (fun t => iz3 c x y t) z dz.
Proof.
  intros Hx Hy Hz [(far & p0 & p1 & p2 & n0 & n1 & n2 & ->)|[(lx & ly & lz & xc & yc & zc & -> & Lx & Ly & Lz)|(far & ->)]].
  - split; [|split].
    + apply (half_line _ _ n0 p0 (n1 * (y - p1) + n2 * (z - p2))%R); [exact Hx|intros t; rewrite plane3_in; lra|intros N t; apply plane3_ix; exact N].
    + apply (half_line _ _ n1 p1 (n0 * (x - p0) + n2 * (z - p2))%R); [exact Hy|intros t; rewrite plane3_in; lra|intros N t; apply plane3_iy; exact N].
    + apply (half_line _ _ n2 p2 (n0 * (x - p0) + n1 * (y - p1))%R); [exact Hz|intros t; rewrite plane3_in; lra|intros N t; apply plane3_iz; exact N].
  - assert (D : forall a b c d e f : R, ((a < b < c) /\ (d < e < f))%R \/ ~ ((a < b < c) /\ (d < e < f))%R).
    { intros. destruct (Rlt_dec a b), (Rlt_dec b c), (Rlt_dec d e), (Rlt_dec e f); tauto. }
    split; [|split].
    + destruct (D (yc - ly / 2)%R y (yc + ly / 2)%R (zc - lz / 2)%R z (zc + lz / 2)%R) as [K|K].
      * apply edge_gap with (a := (xc - lx / 2)%R) (b := (xc + lx / 2)%R); [exact Hx|lra| |intros t; apply cube_ix]. intros t. rewrite cube_out. unfold in_box. tauto.
      * apply edge_full; [exact Hx|]. intros t. apply cube_in. unfold in_box. tauto.
    + destruct (D (xc - lx / 2)%R x (xc + lx / 2)%R (zc - lz / 2)%R z (zc + lz / 2)%R) as [K|K].
      * apply edge_gap with (a := (yc - ly / 2)%R) (b := (yc + ly / 2)%R); [exact Hy|lra| |intros t; apply cube_iy]. intros t. rewrite cube_out. unfold in_box. tauto.
      * apply edge_full; [exact Hy|]. intros t. apply cube_in. unfold in_box. tauto.
    + destruct (D (xc - lx / 2)%R x (xc + lx / 2)%R (yc - ly / 2)%R y (yc + ly / 2)%R) as [K|K].
      * apply edge_gap with (a := (zc - lz / 2)%R) (b := (zc + lz / 2)%R); [exact Hz|lra| |intros t; apply cube_iz]. intros t. rewrite cube_out. unfold in_box. tauto.
      * apply edge_full; [exact Hz|]. intros t. apply cube_in. unfold in_box. tauto.
  - repeat split; (apply edge_free; [assumption|reflexivity]).
Qed.
(** the grid that new_grid3 returns *)
Lemma new_grid3_base tol xmin xmax ymin ymax zmin zmax nx ny nz (c : @cond3 R) sol g o : (zmax - zmin = ymax - ymin)%R ->
  new_grid3 tol xmin xmax ymin ymax zmin zmax nx ny nz c sol = Ok (g, o) ->
  g = base_grid3 c tol (cell xmin xmax nx) (cell ymin ymax ny) (cell zmin zmax nz) xmin ymin zmin.
Proof.
  intros E H. unfold new_grid3 in H. cbn zeta in H. rewrite !nofnat_INR in H. unfold cell. rewrite E.
  destruct (_ || _); [injection H as <- _; reflexivity|]. destruct (String.eqb _ _); [|discriminate].
  destruct (planes _ _ _ _); [|discriminate]. cbn [bind] in H. destruct (planes _ _ _ _); [|discriminate]. cbn [bind] in H. destruct (planes _ _ _ _); [|discriminate]. cbn [bind] in H. injection H as <- _. reflexivity.
Qed.
Lemma node_pos lo hi n i : node (cell lo hi n) lo i = pos lo hi n i.
Proof. unfold node, pos, cell. rewrite nofnat_INR. cbn [nmul nadd Num_R]. ring. Qed.
Lemma pos_S lo hi n i : pos lo hi n (S i) = (pos lo hi n i + cell lo hi n)%R.
Proof. unfold pos, cell. rewrite S_INR. ring. Qed.
Lemma cell_pos lo hi n : (lo < hi)%R -> 0 < n -> (0 < cell lo hi n)%R.
Proof. intros H N. apply Rdiv_lt_0_compat; [lra|apply lt_0_INR; exact N]. Qed.
Theorem C121_built_partial : forall (c : @cond3 R) (tol xmin xmax ymin ymax zmin zmax : R) nx ny nz sol g o,
  (0 < tol <= / 4)%R -> (xmin < xmax)%R -> (ymin < ymax)%R -> (zmax - zmin = ymax - ymin)%R -> 0 < nx -> 0 < ny -> 0 < nz ->
  smooth3 (cell xmin xmax nx) (cell ymin ymax ny) (cell zmin zmax nz) c ->
  new_grid3 tol xmin xmax ymin ymax zmin zmax nx ny nz c sol = Ok (g, o) ->
  pos xmin xmax nx nx = xmax /\ pos ymin ymax ny ny = ymax /\ pos zmin zmax nz nz = zmax /\ edges_of3 c g tol xmin xmax ymin ymax zmin zmax nx ny nz.
Proof.
  intros c tol xmin xmax ymin ymax zmin zmax nx ny nz sol g o Ht Hx Hy E Nx Ny Nz Hc H.
  assert (P : forall lo hi n, 0 < n -> pos lo hi n n = hi).
  { intros lo hi n N. unfold pos. assert (0 < INR n)%R by (apply lt_0_INR; exact N). field. lra. }
  split; [apply P; exact Nx|]. split; [apply P; exact Ny|]. split; [apply P; exact Nz|].
  apply new_grid3_base in H; [|exact E]. subst g.
  assert (Dx : (0 < cell xmin xmax nx)%R) by (apply cell_pos; assumption). assert (Dy : (0 < cell ymin ymax ny)%R) by (apply cell_pos; assumption).
  assert (Dz : (0 < cell zmin zmax nz)%R) by (apply cell_pos; [lra|assumption]).
  intros i j k. destruct (smooth_edges _ _ _ c (pos xmin xmax nx i) (pos ymin ymax ny j) (pos zmin zmax nz k) Dx Dy Dz Hc) as (A & B & C).
  rewrite !pos_S. cbn [q_lx q_ly q_lz base_grid3]. unfold edge3_x, edge3_y, edge3_z. rewrite !node_pos, !pos_S.
  split; [exact (edge_stored tol _ _ _ _ Ht Dx A)|]. split; [exact (edge_stored tol _ _ _ _ Ht Dy B)|exact (edge_stored tol _ _ _ _ Ht Dz C)].
Qed.
Print Assumptions C121_built_partial.
(** Spheres about the origin: edges with an end in a conducting ball, and edges on a line whose way through a cavity is more
    than two cells.  [stored tol d inn p v]: v is, up to tol d, the length of the free part of the edge from p to p + d. *)
Lemma ball_line r u v p d (inn : R -> bool) f : (0 < d)%R -> (u * u + v * v < r * r)%R -> (forall t, inn t = true <-> (t * t + u * u + v * v <= r * r)%R) ->
  (forall t, f t = sphere_cut sqrt r 0%R u v t) -> inn p = true \/ inn (p + d)%R = true -> edge_ok inn f p d.
Proof.
  intros Hd H I F E. pose proof (fun t => chord3 r u v t H) as C. cbn zeta in C. set (w := sqrt (r * r - u * u - v * v)) in *. destruct (C 0%R) as [W _].
  apply (edge_ball _ _ w); [exact Hd|exact W| | |exact E].
  - intros t. rewrite I. destruct (C t) as (_ & C1 & C2). split; intros K.
    + split; apply Rnot_lt_le; intros L; (assert (M : (t < - w \/ w < t)%R) by lra); apply C2 in M; lra.
    + apply Rnot_lt_le. intros L. apply C2 in L. lra.
  - intros t. rewrite F. apply cut_R. exact H.
Qed.
Lemma cave_line r u v p d (inn : R -> bool) f : (0 < d)%R -> (d * d + u * u + v * v < r * r)%R -> (forall t, inn t = false <-> (t * t + u * u + v * v < r * r)%R) ->
  (forall t, f t = sphere_cut sqrt r 0%R u v t) -> edge_ok inn f p d.
Proof.
  intros Hd H I F. assert (H' : (u * u + v * v < r * r)%R) by nra. pose proof (fun t => chord3 r u v t H') as C. cbn zeta in C.
  set (w := sqrt (r * r - u * u - v * v)) in *. destruct (C d) as (W & C1 & _).
  apply (edge_cavity _ _ w); [exact Hd|apply C1; lra| |].
  - intros t. rewrite I. apply C.
  - intros t. rewrite F. apply cut_R. exact H'.
Qed.
Lemma ball_in r x y z : in3 (in_sphere sqrt r 0%R 0%R 0%R) x y z = true <-> (x * x + y * y + z * z <= r * r)%R.
Proof. unfold in_sphere, dist2, sq. cbn [in3 nmul nsub nadd Num_R]. rewrite nleb_R, !Rminus_0_r. reflexivity. Qed.
Lemma cave_out r x y z : in3 (out_sphere sqrt r 0%R 0%R 0%R) x y z = false <-> (x * x + y * y + z * z < r * r)%R.
Proof. unfold out_sphere, dist2, sq. cbn [in3 nmul nsub nadd Num_R]. rewrite nleb_Rf, !Rminus_0_r. reflexivity. Qed.
Lemma cut_0 r u v t : sphere_cut sqrt r 0%R (nsub u 0%R) (nsub v 0%R) t = sphere_cut sqrt r 0%R u v t.
Proof. cbn [nsub Num_R]. rewrite !Rminus_0_r. reflexivity. Qed.
Theorem C121_sphere_partial : forall (tol r xmin ymin zmin dx dy dz : R) i j k, (0 < tol <= / 4)%R -> (0 < dx)%R -> (0 < dy)%R -> (0 < dz)%R ->
  let x := (INR i * dx + xmin)%R in let y := (INR j * dy + ymin)%R in let z := (INR k * dz + zmin)%R in
  let ball := in_sphere sqrt r 0%R 0%R 0%R in let cave := out_sphere sqrt r 0%R 0%R 0%R in
  let gb := base_grid3 ball tol dx dy dz xmin ymin zmin in let gc := base_grid3 cave tol dx dy dz xmin ymin zmin in
  (((y * y + z * z < r * r)%R -> in3 ball x y z = true \/ in3 ball (x + dx)%R y z = true -> stored tol dx (fun t => in3 ball t y z) x (q_lx gb i j k)) /\
   ((x * x + z * z < r * r)%R -> in3 ball x y z = true \/ in3 ball x (y + dy)%R z = true -> stored tol dy (fun t => in3 ball x t z) y (q_ly gb i j k)) /\
   ((x * x + y * y < r * r)%R -> in3 ball x y z = true \/ in3 ball x y (z + dz)%R = true -> stored tol dz (fun t => in3 ball x y t) z (q_lz gb i j k))) /\
  (((dx * dx + y * y + z * z < r * r)%R -> stored tol dx (fun t => in3 cave t y z) x (q_lx gc i j k)) /\
   ((dy * dy + x * x + z * z < r * r)%R -> stored tol dy (fun t => in3 cave x t z) y (q_ly gc i j k)) /\
   ((dz * dz + x * x + y * y < r * r)%R -> stored tol dz (fun t => in3 cave x y t) z (q_lz gc i j k))).
Proof.
  intros tol r xmin ymin zmin dx dy dz i j k Ht Hx Hy Hz x y z ball cave gb gc.
  assert (N : forall d lo i, node d lo i = (INR i * d + lo)%R) by (intros; unfold node; rewrite nofnat_INR; reflexivity).
  assert (NS : forall d lo i, node d lo (S i) = (INR i * d + lo + d)%R) by (intros; rewrite N, S_INR; ring).
  unfold gb, gc. cbn [q_lx q_ly q_lz base_grid3]. unfold edge3_x, edge3_y, edge3_z. rewrite !NS, !N. fold x y z.
  split; (split; [|split]).
  - intros H E. refine (edge_stored tol _ _ (fun t => ix3 ball t y z) _ Ht Hx _). apply (ball_line r y z); [exact Hx|exact H| | |exact E].
    + intros t. unfold ball. rewrite ball_in. lra.
    + intros t. apply cut_0.
  - intros H E. refine (edge_stored tol _ _ (fun t => iy3 ball x t z) _ Ht Hy _). apply (ball_line r x z); [exact Hy|exact H| | |exact E].
    + intros t. unfold ball. rewrite ball_in. lra.
    + intros t. apply cut_0.
  - intros H E. refine (edge_stored tol _ _ (fun t => iz3 ball x y t) _ Ht Hz _). apply (ball_line r x y); [exact Hz|exact H| | |exact E].
    + intros t. unfold ball. rewrite ball_in. lra.
    + intros t. apply cut_0.
  - intros H. refine (edge_stored tol _ _ (fun t => ix3 cave t y z) _ Ht Hx _). apply (cave_line r y z); [exact Hx|exact H| |].
    + intros t. unfold cave. rewrite cave_out. lra.
    + intros t. apply cut_0.
  - intros H. refine (edge_stored tol _ _ (fun t => iy3 cave x t z) _ Ht Hy _). apply (cave_line r x z); [exact Hy|exact H| |].
    + intros t. unfold cave. rewrite cave_out. lra.
    + intros t. apply cut_0.
  - intros H. refine (edge_stored tol _ _ (fun t => iz3 cave x y t) _ Ht Hz _). apply (cave_line r x y); [exact Hz|exact H| |].
    + intros t. unfold cave. rewrite cave_out. lra.
    + intros t. apply cut_0.
Qed.
Print Assumptions C121_sphere_partial.
(** An empty box twice as long in z as in y, with one cell along each axis: its edges along z get half their length. *)
Theorem C121_refuted : exists (c : @cond3 R) (tol xmin xmax ymin ymax zmin zmax : R) nx ny nz sol g o,
  (0 < tol <= / 4)%R /\ (xmin < xmax)%R /\ (ymin < ymax)%R /\ (zmin < zmax)%R /\ 0 < nx /\ 0 < ny /\ 0 < nz /\
  smooth3 (cell xmin xmax nx) (cell ymin ymax ny) (cell zmin zmax nz) c /\
  new_grid3 tol xmin xmax ymin ymax zmin zmax nx ny nz c sol = Ok (g, o) /\ ~ edges_of3 c g tol xmin xmax ymin ymax zmin zmax nx ny nz.
Proof.
  exists (no_conductor3 1000%R), (/ 8)%R, 0%R, 1%R, 0%R, 1%R, 0%R, 2%R, 1, 1, 1, "FDTD"%string. eexists. eexists.
  do 4 (split; [lra|]). do 3 (split; [lia|]). split; [right; right; eexists; reflexivity|]. split; [reflexivity|].
  intros H. destruct (H 0 0 0) as (_ & _ & l & (p & q & P1 & P2 & -> & P3 & P4) & B).
  cbn [in3 no_conductor3] in P4. unfold pos, cell in *. cbn [INR] in *.
  assert (p = 0)%R. { destruct (Rlt_dec 0 p) as [K|K]; [|lra]. discriminate (P4 0%R ltac:(lra) ltac:(lra)). }
  assert (q = 2)%R. { destruct (Rlt_dec q 2) as [K|K]; [|lra]. discriminate (P4 2%R ltac:(lra) ltac:(lra)). }
  subst. cbn [q_lz base_grid3] in B. unfold renorm, edge3_z, edge_len in B. cbn [in3 no_conductor3] in B. rewrite snap_sn in B.
  cbn [nofnat ndiv nmul nsub nadd nzero none_ Num_R] in B. unfold sn in B.
  replace ((1 - 0) / (1 + 0))%R with 1%R in B by field. replace ((1 - 0) / (0 + 1))%R with 1%R in B by field. unfold Rdiv in B. rewrite Rinv_1, !Rmult_1_r in B.
  repeat match type of B with context [Rlt_dec ?a ?b] => destruct (Rlt_dec a b) end; unfold Rabs in *; repeat (destruct (Rcase_abs _) in *); lra.
Qed.
Print Assumptions C121_refuted.
(** Two by two by two cells on [0, 4]^3 and a conductor below z = 1: half of each lowest edge along z is free. *)
Example C121_case : (exists g o, new_grid3 (/ 8)%R 0%R 4%R 0%R 4%R 0%R 4%R 2 2 2 (plane3 1000%R 0%R 0%R 1%R 0%R 0%R 1%R) "FDTD" = Ok (g, o)) /\
  match new_grid3 (Q2Qc (1 # 8)) (Q2Qc 0) (Q2Qc 4) (Q2Qc 0) (Q2Qc 4) (Q2Qc 0) (Q2Qc 4) 2 2 2 (plane3 (Q2Qc 1000) (Q2Qc 0) (Q2Qc 0) (Q2Qc 1) (Q2Qc 0) (Q2Qc 0) (Q2Qc 1)) "FDTD" with
  | Ok (g, _) => (this (q_lz g 1 1 0), this (q_lz g 1 1 1), this (q_lx g 1 1 0), this (q_lx g 1 1 1)) = (1#1, 2#1, 0#1, 2#1)%Q | Err _ => False end.
Proof. split; [eexists; eexists; reflexivity|vm_compute; reflexivity]. Qed.

(** ** C122 *)
(** The number stored for a face, times the area of a whole face, is the area of its free part up to [tol] of a face.
    [face_area inn u0 v0 du dv A]: A is the integral over u of the length of the free part of the line from v0 to v0 + dv. *)
Theorem C122_plane_partial : forall (far p0 p1 p2 n0 n1 n2 tol xmin xmax ymin ymax zmin zmax : R) nx ny nz sol g o,
  (0 < tol <= / 4)%R -> (xmin < xmax)%R -> (ymin < ymax)%R -> (zmax - zmin = ymax - ymin)%R -> 0 < nx -> 0 < ny -> 0 < nz ->
  let c := plane3 far p0 p1 p2 n0 n1 n2 in
  new_grid3 tol xmin xmax ymin ymax zmin zmax nx ny nz c sol = Ok (g, o) ->
  let x := pos xmin xmax nx in let y := pos ymin ymax ny in let z := pos zmin zmax nz in
  let dx := cell xmin xmax nx in let dy := cell ymin ymax ny in let dz := cell zmin zmax nz in forall i j k,
  (exists A, face_area (fun u v => in3 c u v (z k)) (x i) (y j) dx dy A /\ (Rabs (g_S (q_xy g k) i j * (dx * dy) - A) <= tol * (dx * dy))%R) /\
  (exists A, face_area (fun u v => in3 c (x i) u v) (y j) (z k) dy dz A /\ (Rabs (g_S (q_yz g i) j k * (dy * dz) - A) <= tol * (dy * dz))%R) /\
  (exists A, face_area (fun u v => in3 c u (y j) v) (x i) (z k) dx dz A /\ (Rabs (g_S (q_zx g j) i k * (dx * dz) - A) <= tol * (dx * dz))%R).
Proof.
  intros far p0 p1 p2 n0 n1 n2 tol xmin xmax ymin ymax zmin zmax nx ny nz sol g o Ht Hx Hy E Nx Ny Nz c H x y z dx dy dz i j k.
  apply new_grid3_base in H; [|exact E]. subst g. fold dx dy dz.
  assert (Dx : (0 < dx)%R) by (apply cell_pos; assumption). assert (Dy : (0 < dy)%R) by (apply cell_pos; assumption).
  assert (Dz : (0 < dz)%R) by (apply cell_pos; [lra|assumption]).
  assert (R0 : forall d v, (0 < d)%R -> (renorm d (v * d) / d = v)%R) by (intros d v Hd; unfold renorm; cbn [ndiv nmul Num_R]; field; lra).
  assert (R1 : forall d v, (0 < d)%R -> (v * d / d = v)%R) by (intros d v Hd; field; lra).
  assert (Xs : forall i, node dx xmin i = x i) by (intros; apply node_pos). assert (Ys : forall i, node dy ymin i = y i) by (intros; apply node_pos).
  assert (Zs : forall i, node dz zmin i = z i) by (intros; apply node_pos).
  assert (X1 : x (S i) = (x i + dx)%R) by apply pos_S. assert (Y1 : y (S j) = (y j + dy)%R) by apply pos_S. assert (Z1 : z (S k) = (z k + dz)%R) by apply pos_S.
  cbn [q_xy q_yz q_zx base_grid3 g_S faces]. rewrite !snap_sn. cbn [ndiv Num_R].
  assert (L : forall m p s t, m <> 0%R -> (- (s + t) / m + p = - (s + (t - m * p)) / m)%R) by (intros; field; assumption).
  split; [|split].
  - rewrite !R1 by assumption. unfold edge3_x, edge3_y. rewrite !Xs, !Ys, !Zs, X1, Y1.
    apply (half_face tol dx dy n0 n1 (- n0 * p0 - n1 * p1 + n2 * (z k - p2))%R (fun u v => in3 c u v (z k)) (fun u v => ix3 c u v (z k)) (fun u v => iy3 c u v (z k)) Ht Dx Dy).
    + intros u v. unfold c. rewrite plane3_in. lra.
    + intros N u v. unfold c. rewrite plane3_ix by exact N. f_equal. field. exact N.
    + intros N u v. unfold c. rewrite plane3_iy by exact N. f_equal. field. exact N.
  - rewrite !R0, !R1 by assumption. unfold edge3_z, edge3_y. rewrite !Xs, !Ys, !Zs, Z1, Y1.
    apply (half_face tol dy dz n1 n2 (- n1 * p1 - n2 * p2 + n0 * (x i - p0))%R (fun u v => in3 c (x i) u v) (fun u v => iy3 c (x i) u v) (fun u v => iz3 c (x i) u v) Ht Dy Dz).
    + intros u v. unfold c. rewrite plane3_in. lra.
    + intros N u v. unfold c. rewrite plane3_iy by exact N. f_equal. field. exact N.
    + intros N u v. unfold c. rewrite plane3_iz by exact N. f_equal. field. exact N.
  - rewrite !R0 by assumption. unfold edge3_z, edge3_x. rewrite !Xs, !Ys, !Zs, Z1, X1.
    apply (half_face tol dx dz n0 n2 (- n0 * p0 - n2 * p2 + n1 * (y j - p1))%R (fun u v => in3 c u (y j) v) (fun u v => ix3 c u (y j) v) (fun u v => iz3 c u (y j) v) Ht Dx Dz).
    + intros u v. unfold c. rewrite plane3_in. lra.
    + intros N u v. unfold c. rewrite plane3_ix by exact N. f_equal. field. exact N.
    + intros N u v. unfold c. rewrite plane3_iz by exact N. f_equal. field. exact N.
Qed.
Print Assumptions C122_plane_partial.
Example C122_case : match new_grid3 (Q2Qc (1 # 8)) (Q2Qc 0) (Q2Qc 4) (Q2Qc 0) (Q2Qc 4) (Q2Qc 0) (Q2Qc 4) 2 2 2 (plane3 (Q2Qc 1000) (Q2Qc 0) (Q2Qc 0) (Q2Qc 1) (Q2Qc 0) (Q2Qc 0) (Q2Qc 1)) "FDTD" with
  | Ok (g, _) => (this (g_S (q_yz g 1) 0 0), this (g_S (q_zx g 0) 1 0), this (g_S (q_xy g 0) 1 1), this (g_S (q_xy g 1) 1 1)) = (1#2, 1#2, 0#1, 1#1)%Q | Err _ => False end.
Proof. vm_compute. reflexivity. Qed.
(** One cell on [1, 2] x [1, 2] x [0, 1] and a free box of side 3 about the origin: the free part of the face z = 0 is the square
    of side 1/2, the number stored is 1/8. *)
Theorem C122_cube_refuted : exists (lx ly lz tol xmin xmax ymin ymax zmin zmax : R) g o, (0 < tol <= / 4)%R /\ (zmax - zmin = ymax - ymin)%R /\
  new_grid3 tol xmin xmax ymin ymax zmin zmax 1 1 1 (in_cube lx ly lz 0%R 0%R 0%R) "FDTD" = Ok (g, o) /\
  (xmin = 1 /\ xmax = 2 /\ ymin = 1 /\ ymax = 2 /\ zmin = 0)%R /\
  (forall x y, (1 <= x <= 2)%R -> (1 <= y <= 2)%R -> (in3 (in_cube lx ly lz 0%R 0%R 0%R) x y 0%R = false <-> (x < 3/2 /\ y < 3/2)%R)) /\
  g_S (q_xy g 0) 0 0 = (1/8)%R.
Proof.
  set (c := in_cube 3%R 3%R 3%R 0%R 0%R 0%R).
  assert (I : forall x y z, in3 c x y z = false <-> (-3/2 < x < 3/2 /\ -3/2 < y < 3/2 /\ -3/2 < z < 3/2)%R).
  { intros x y z. unfold c. rewrite cube_out. unfold in_box. lra. }
  exists 3%R, 3%R, 3%R, (/ 1000)%R, 1%R, 2%R, 1%R, 2%R, 0%R, 1%R. eexists. eexists.
  split; [lra|]. split; [lra|]. split; [reflexivity|]. split; [repeat split|]. fold c. split; [intros x y Hx Hy; rewrite I; lra|].
  cbn [q_xy base_grid3 g_S faces]. rewrite !snap_sn. cbn [nofnat ndiv nsub nadd none_ nzero Num_R].
  replace ((2 - 1) / (1 + 0))%R with 1%R by field. replace ((2 - 1) / (0 + 1))%R with 1%R by field.
  unfold edge3_x, edge3_y. rewrite !node_S. unfold node. cbn [nofnat nmul nadd nzero Num_R].
  replace (0 * 1 + 1 + 1)%R with 2%R by ring. replace (0 * 1 + 1)%R with 1%R by ring. replace (0 * 1 + 0)%R with 0%R by ring.
  assert (T : forall x y z, ~ (-3/2 < x < 3/2 /\ -3/2 < y < 3/2 /\ -3/2 < z < 3/2)%R -> in3 c x y z = true).
  { intros x y z N. apply not_false_is_true. rewrite I. exact N. }
  rewrite (T 2%R 1%R 0%R), (T 1%R 2%R 0%R), (T 2%R 2%R 0%R) by lra. rewrite (proj2 (I 1%R 1%R 0%R)) by lra.
  assert (S1 : sn (/ 1000) (1 / 2) = (1/2)%R).
  { unfold sn. destruct (Rlt_dec _ _) as [D|D]; [rewrite Rabs_pos_eq in D; lra|]. destruct (Rlt_dec _ _) as [D'|D']; [rewrite Rabs_left1 in D'; lra|]. reflexivity. }
  assert (S0 : sn (/ 1000) (0 / 1) = 0%R).
  { unfold sn. destruct (Rlt_dec _ _) as [D|D]; [reflexivity|]. rewrite Rabs_pos_eq in D; lra. }
  unfold c. rewrite !cube_ix, !cube_iy. cbn [fin]. rewrite (nearer_hi 1 (0 - 3/2) (0 + 3/2)) by lra. unfold edge_len.
  rewrite nabs_R. cbn [nsub nzero Num_R]. rewrite Rabs_left1 by lra. replace (- (1 - (0 + 3 / 2)) / 1)%R with (1 / 2)%R by field.
  rewrite S1, S0. replace (1 / 2 * 1 / 1)%R with (1/2)%R by field. replace (0 * 1 / 1)%R with 0%R by field.
  rewrite (area_classes (/ 1000) (1/2) (1/2) 0 0 M M Z0 Z0); cbn; lra.
Qed.
Print Assumptions C122_cube_refuted.
