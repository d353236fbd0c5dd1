(** Properties C104-C108: the two-dimensional conformal grid. *)
From Coq Require Import List Arith ZArith Bool String Lia QArith Qcanon Reals Lra Psatz.
From Coquelicot Require Import Coquelicot.
From Verif Require Import Num Vec FieldModel GridModel GridProofs2 SolverModel SolverCons WakeModel WakeNum Grid2DModel Grid2DProofs Grid2DArea Grid2DCut.
Import ListNotations.
Open Scope nat_scope.

(** ** C104 *)
(** Along a grid line the intersection returned is a place where the line enters or leaves the conductor, and no such
    place is nearer to the point asked about. *)
Definition true_x (c : @cond R) (x y : R) : Prop := nearest_crossing (fun z => in_cond c z y) x (int_x c x y).
Definition true_y (c : @cond R) (x y : R) : Prop := nearest_crossing (fun z => in_cond c x z) y (int_y c x y).
Theorem C104_plane : forall (m q : R) up x y, true_y (plane m q 0%R up) x y /\ (m <> 0%R -> true_x (plane m q 0%R up) x y).
Proof.
  intros m q up x y. split.
  - destruct up; [apply (nearest_step _ false)|apply (nearest_step _ true)]; intros z Hz.
    + apply (up_out m q). exact Hz.
    + apply (up_in m q). cbn in Hz. lra.
    + apply (dn_in m q). cbn in Hz. lra.
    + apply (dn_out m q). exact Hz.
  - intros Hm. unfold true_x. cbn [int_x plane ndiv nsub Num_R].
    assert (E : (m * (y / m - q / m) + q = y)%R) by (field; exact Hm). set (v := (y / m - q / m)%R) in *.
    destruct (Rlt_dec 0 m) as [P|P]; destruct up.
    + apply (nearest_step _ true); intros z Hz; [apply (up_in m q)|apply (up_out m q)]; nra.
    + apply (nearest_step _ false); intros z Hz; [apply (dn_out m q)|apply (dn_in m q)]; nra.
    + apply (nearest_step _ false); intros z Hz; [apply (up_out m q)|apply (up_in m q)]; nra.
    + apply (nearest_step _ true); intros z Hz; [apply (dn_in m q)|apply (dn_out m q)]; nra.
Qed.
Print Assumptions C104_plane.
Theorem C104_rect : forall (w h xc yc x y : R), (0 < w)%R -> (0 < h)%R ->
  ((yc - h / 2 < y < yc + h / 2)%R -> true_x (out_rect w h xc yc) x y) /\ ((xc - w / 2 < x < xc + w / 2)%R -> true_y (out_rect w h xc yc) x y).
Proof.
  intros w h xc yc x y Hw Hh. unfold true_x, true_y. rewrite rect_ix, rect_iy. split; intros K; (apply (nearest_gap _ false); [lra| |]); intros z Hz;
    first [apply rect_out; lra|apply rect_in; lra].
Qed.
Print Assumptions C104_rect.
Theorem C104_out_circle : forall (r xc yc x y : R), (0 < r)%R ->
  ((Rabs (y - yc) < r)%R -> true_x (out_circle sqrt r xc yc) x y) /\ ((Rabs (x - xc) < r)%R -> true_y (out_circle sqrt r xc yc) x y).
Proof.
  intros r xc yc x y Hr. unfold true_x, true_y, out_circle. cbn [int_x int_y in_cond]. unfold sq. cbn [nmul nsub nadd nopp Num_R]. split; intros K.
  - set (w := sqrt (r * r - (y - yc) * (y - yc))). pose proof (fun z => chord r (y - yc) z Hr K) as C. cbn zeta in C. fold w in C. destruct (C 0%R) as [W _].
    apply (nearest_gap' _ false); [lra| |]; intros z Hz; destruct (C (z - xc)%R) as (_ & C1 & C2); [apply nleb_Rf|apply nleb_R].
    + apply C1. lra.
    + left. apply C2. lra.
  - set (w := sqrt (r * r - (x - xc) * (x - xc))). pose proof (fun z => chord r (x - xc) z Hr K) as C. cbn zeta in C. fold w in C. destruct (C 0%R) as [W _].
    apply (nearest_gap' _ false); [lra| |]; intros z Hz; destruct (C (z - yc)%R) as (_ & C1 & C2); [apply nleb_Rf|apply nleb_R].
    + rewrite Rplus_comm. apply C1. lra.
    + rewrite Rplus_comm. left. apply C2. lra.
Qed.
Print Assumptions C104_out_circle.
(** A conducting disc whose centre has equal coordinates. *)
Theorem C104_in_circle_partial : forall (r a x y : R), (0 < r)%R ->
  ((Rabs (y - a) < r)%R -> true_x (in_circle sqrt r a a) x y) /\ ((Rabs (x - a) < r)%R -> true_y (in_circle sqrt r a a) x y).
Proof.
  intros r a x y Hr. unfold true_x, true_y, in_circle. cbn [int_x int_y in_cond]. unfold sq. rewrite !nabs_R. cbn [nmul nsub nadd nopp Num_R]. split; intros K.
  - replace (nleb (Rabs (y - a)) r) with true by (symmetry; apply nleb_R; lra).
    set (w := sqrt (r * r - (y - a) * (y - a))). pose proof (fun z => chord r (y - a) z Hr K) as C. cbn zeta in C. fold w in C. destruct (C 0%R) as [W _].
    apply (nearest_gap' _ true); [lra| |]; intros z Hz; destruct (C (z - a)%R) as (_ & C1 & C2); [apply nleb_R|apply nleb_Rf].
    + left. apply C1. lra.
    + apply C2. lra.
  - replace (nleb (Rabs (x - a)) r) with true by (symmetry; apply nleb_R; lra).
    set (w := sqrt (r * r - (x - a) * (x - a))). pose proof (fun z => chord r (x - a) z Hr K) as C. cbn zeta in C. fold w in C. destruct (C 0%R) as [W _].
    apply (nearest_gap' _ true); [lra| |]; intros z Hz; destruct (C (z - a)%R) as (_ & C1 & C2); [apply nleb_R|apply nleb_Rf].
    + rewrite Rplus_comm. left. apply C1. lra.
    + rewrite Rplus_comm. apply C2. lra.
Qed.
Print Assumptions C104_in_circle_partial.
(** A disc of radius 1 about (3, 0): the intersection on the line y = 0 is offered at 1 or -1. *)
Theorem C104_in_circle_refuted : exists (r xc yc x y : R), (0 < r)%R /\ (Rabs (y - yc) < r)%R /\ ~ true_x (in_circle sqrt r xc yc) x y.
Proof.
  exists 1%R, 3%R, 0%R, 4%R, 0%R. split; [lra|]. split; [rewrite Rabs_pos_eq; lra|]. intros (v & E & C & _).
  unfold in_circle in E. cbn [int_x] in E. unfold sq in E. rewrite nabs_R in E. cbn [nmul nsub nadd nopp Num_R] in E.
  replace (nleb (Rabs (0 - 0)) 1%R) with true in E by (symmetry; apply nleb_R; rewrite Rabs_pos_eq; lra).
  replace (1 * 1 - (0 - 0) * (0 - 0))%R with 1%R in E by ring. rewrite sqrt_1 in E. injection E as E.
  destruct (nearer_best 4 (1 + 0) (- (1) + 0)) as [B _]. rewrite E in B. destruct (C (1/2)%R) as (a & b & A & _ & I & _); [lra|].
  apply Rabs_def2 in A. cbn [in_cond] in I. apply nleb_R in I. cbn in I. destruct B; nra.
Qed.
Print Assumptions C104_in_circle_refuted.
(** Of several conductors the nearest answer is taken. *)
Lemma closest_spec (p : R) : forall l best v, closest p best l = Some v ->
  (best = Some v \/ In (Some v) l) /\ (forall w, best = Some w \/ In (Some w) l -> (Rabs (v - p) <= Rabs (w - p))%R).
Proof.
  induction l as [|[u|] l IH]; intros best v H.
  - cbn in H. subst. split; [left; reflexivity|]. intros w [W|[]]. injection W as ->. lra.
  - cbn in H. destruct best as [b|].
    + rewrite !nabs_R in H. cbn [nsub Num_R] in H. destruct (Rlt_dec (Rabs (u - p)) (Rabs (b - p))) as [E|E]; destruct (IH _ _ H) as [I M]; split.
      * right. destruct I as [I|I]; [left; exact I|right; exact I].
      * intros w [W|[W|W]]; [injection W as ->; specialize (M u (or_introl eq_refl)); lra|apply M; left; exact W|apply M; right; exact W].
      * destruct I as [I|I]; [left; exact I|right; right; exact I].
      * intros w [W|[W|W]]; [apply M; left; exact W|injection W as ->; specialize (M b (or_introl eq_refl)); lra|apply M; right; exact W].
    + destruct (IH _ _ H) as [I M]. split.
      * right. destruct I as [I|I]; [left; exact I|right; exact I].
      * intros w [W|[W|W]]; [discriminate|apply M; left; exact W|apply M; right; exact W].
  - cbn in H. destruct (IH _ _ H) as [I M]. split; [destruct I; [left|right; right]; assumption|]. intros w [W|[W|W]]; [apply M; left; exact W|discriminate|apply M; right; exact W].
Qed.
Theorem C104_assembly : forall (cs : list (@cond R)) x y,
  (in_cond (assembly cs) x y = true <-> exists c, In c cs /\ in_cond c x y = true) /\
  (forall v, int_x (assembly cs) x y = Some v -> (exists c, In c cs /\ int_x c x y = Some v) /\
    forall c w, In c cs -> int_x c x y = Some w -> (Rabs (v - x) <= Rabs (w - x))%R) /\
  (forall v, int_y (assembly cs) x y = Some v -> (exists c, In c cs /\ int_y c x y = Some v) /\
    forall c w, In c cs -> int_y c x y = Some w -> (Rabs (v - y) <= Rabs (w - y))%R).
Proof.
  intros cs x y. split; [cbn; rewrite existsb_exists; reflexivity|].
  split; intros v H; cbn in H; apply closest_spec in H; (destruct H as [[H|H] M]; [discriminate|]); split.
  - apply in_map_iff in H. destruct H as (c & E & Hc). exists c. auto.
  - intros c w Hc E. apply M. right. rewrite <- E. exact (in_map (fun c => int_x c x y) cs c Hc).
  - apply in_map_iff in H. destruct H as (c & E & Hc). exists c. auto.
  - intros c w Hc E. apply M. right. rewrite <- E. exact (in_map (fun c => int_y c x y) cs c Hc).
Qed.
Print Assumptions C104_assembly.
Example C104_case : true_x (out_circle sqrt 5%R 0%R 0%R) 2%R 4%R /\ int_x (out_circle sqrt 5%R 0%R 0%R) 2%R 4%R = Some 3%R.
Proof.
  split; [apply (C104_out_circle 5 0 0 2 4); [lra|rewrite Rabs_pos_eq; lra]|]. unfold out_circle; cbn [int_x]. unfold sq. cbn [nmul nsub nadd nopp Num_R].
  replace (5 * 5 - (4 - 0) * (4 - 0))%R with (3 * 3)%R by ring. rewrite sqrt_square by lra. unfold nearer. rewrite !nabs_R.
  replace (nltb _ _) with true; [f_equal; ring|]. symmetry. apply R_ltb. cbn. rewrite Rabs_left1, Rabs_pos_eq; lra.
Qed.

(** ** C105 *)
(** Every stored edge length is the length of the part of the edge outside the conductor, up to [tol] of a cell. *)
Definition edges_true (c : @cond R) (tol dx dy xmin ymin : R) : Prop := forall i j,
  (exists l, free_len (fun x => in_cond c x (node dy ymin j)) (node dx xmin i) (node dx xmin (S i)) l /\
    (Rabs (g_lx (base_grid c tol dx dy xmin ymin) i j - l) <= tol * dx)%R) /\
  (exists l, free_len (fun y => in_cond c (node dx xmin i) y) (node dy ymin j) (node dy ymin (S j)) l /\
    (Rabs (g_ly (base_grid c tol dx dy xmin ymin) i j - l) <= tol * dy)%R).
Theorem C105_plane : forall (m q tol dx dy xmin ymin : R) up, (0 < tol <= / 4)%R -> (0 < dx)%R -> (0 < dy)%R ->
  edges_true (plane m q 0%R up) tol dx dy xmin ymin.
Proof. intros m q tol dx dy xmin ymin up Ht Hx Hy i j. split; [apply plane_x|apply plane_y]; assumption. Qed.
Print Assumptions C105_plane.
Theorem C105_rect : forall (w h xc yc tol dx dy xmin ymin : R), (0 < tol <= / 4)%R -> (0 < dx)%R -> (0 < dy)%R ->
  (2 * dx < w)%R -> (2 * dy < h)%R -> edges_true (out_rect w h xc yc) tol dx dy xmin ymin.
Proof. intros w h xc yc tol dx dy xmin ymin Ht Hx Hy Hw Hh i j. split; [apply rect_x|apply rect_y]; assumption. Qed.
Print Assumptions C105_rect.
(** The same for a grid built from extents and cell counts: cell (i, j) is the one that the counts ask for. *)
Definition edges_of (c : @cond R) (g : @grid2 R) (tol xmin xmax ymin ymax : R) (nx ny : nat) : Prop :=
  let x i := (xmin + INR i * ((xmax - xmin) / INR nx))%R in let y j := (ymin + INR j * ((ymax - ymin) / INR ny))%R in
  x nx = xmax /\ y ny = ymax /\ forall i j,
  (exists l, free_len (fun t => in_cond c t (y j)) (x i) (x (S i)) l /\ (Rabs (g_lx g i j - l) <= tol * ((xmax - xmin) / INR nx))%R) /\
  (exists l, free_len (fun t => in_cond c (x i) t) (y j) (y (S j)) l /\ (Rabs (g_ly g i j - l) <= tol * ((ymax - ymin) / INR ny))%R).
Theorem C105_built : forall (c : @cond R) (tol xmin xmax ymin ymax : R) nx ny sol g o,
  (0 < tol <= / 4)%R -> (xmin < xmax)%R -> (ymin < ymax)%R -> 0 < nx -> 0 < ny ->
  (exists m q up, c = plane m q 0%R up) \/
  (exists w h xc yc, c = out_rect w h xc yc /\ (2 * ((xmax - xmin) / INR nx) < w)%R /\ (2 * ((ymax - ymin) / INR ny) < h)%R) ->
  new_grid tol xmin xmax ymin ymax nx ny c sol = Ok (g, o) -> edges_of c g tol xmin xmax ymin ymax nx ny.
Proof.
  intros c tol xmin xmax ymin ymax nx ny sol g o Ht Hx Hy Nx Ny Hc H.
  assert (Px : (0 < INR nx)%R) by (apply lt_0_INR; exact Nx). assert (Py : (0 < INR ny)%R) by (apply lt_0_INR; exact Ny).
  set (dx := ((xmax - xmin) / INR nx)%R) in *. set (dy := ((ymax - ymin) / INR ny)%R) in *.
  assert (Dx : (0 < dx)%R) by (apply Rdiv_lt_0_compat; lra). assert (Dy : (0 < dy)%R) by (apply Rdiv_lt_0_compat; lra).
  assert (E : g = base_grid c tol dx dy xmin ymin).
  { unfold new_grid in H. cbn zeta in H. rewrite !nofnat_INR in H. change (@ndiv R Num_R (nsub xmax xmin) (INR nx)) with dx in H.
    change (@ndiv R Num_R (nsub ymax ymin) (INR ny)) with dy in H. destruct (_ || _); [congruence|]. destruct (String.eqb _ _); [|discriminate].
    destruct (extensions _ _ _); [|discriminate]. cbn in H. congruence. }
  assert (X : edges_true c tol dx dy xmin ymin).
  { destruct Hc as [(m & q & up & ->)|(w & h & xc & yc & -> & Hw & Hh)]; [apply C105_plane|apply C105_rect]; assumption. }
  assert (N : forall d lo i, node d lo i = (lo + INR i * d)%R) by (intros; unfold node; rewrite nofnat_INR; cbn; ring).
  unfold edges_of. fold dx dy. split; [unfold dx; field; lra|]. split; [unfold dy; field; lra|].
  intros i j. rewrite E, <- !N. exact (X i j).
Qed.
Print Assumptions C105_built.
(** Three by four cells on [0, 3] x [0, 8], a conductor above y = 5/2: half a unit of the second vertical edge is free. *)
Example C105_built_case : (exists g o, new_grid (/ 8)%R 0%R 3%R 0%R 8%R 3 4 (plane 0%R (5/2)%R 0%R true) "FDTD" = Ok (g, o)) /\
  match new_grid (Q2Qc (1 # 8)) (Q2Qc 0) (Q2Qc (3 # 1)) (Q2Qc 0) (Q2Qc (8 # 1)) 3 4 (plane (Q2Qc 0) (Q2Qc (5 # 2)) (Q2Qc 0) true) "FDTD" with
  | Ok (g, _) => this (g_ly g 1 1) = (1 # 2) | Err _ => False end.
Proof. split; [eexists; eexists; reflexivity|vm_compute; reflexivity]. Qed.

(** Inside a circle of radius 5 the edge from (-4, 4) to (2, 4) is free from -3 on, but gets length 1. *)
Theorem C105_circle_refuted : exists (r xc yc tol dx dy xmin ymin : R), (0 < r)%R /\ (0 < tol <= / 4)%R /\ (0 < dx)%R /\ (0 < dy)%R /\
  ~ edges_true (out_circle sqrt r xc yc) tol dx dy xmin ymin.
Proof.
  exists 5%R, 0%R, 0%R, (/ 1000)%R, 6%R, 6%R, (-4)%R, 4%R. repeat split; try lra. intros H. destruct (H 0 0) as [(l & (p & q & Hp & Hq & El & _ & I) & N) _].
  rewrite node_S in Hq, I. unfold node in Hp, Hq, I. cbn [nofnat] in Hp, Hq, I. cbn [nmul nadd nzero Num_R] in Hp, Hq, I.
  assert (P : forall z, (Rabs z < 3)%R -> in_cond (out_circle sqrt 5%R 0%R 0%R) z (0 * 6 + 4)%R = false).
  { intros z Hz. apply Rabs_def2 in Hz. apply nleb_Rf. unfold sq. cbn. nra. }
  assert (P1 : (p <= - (29/10))%R).
  { apply Rnot_lt_le. intros K. assert (Z := I (- (29/10))%R ltac:(lra) ltac:(lra)). rewrite P in Z; [discriminate|]. rewrite Rabs_left1; lra. }
  assert (P2 : (19/10 <= q)%R).
  { apply Rnot_lt_le. intros K. assert (Z := I (19/10)%R ltac:(lra) ltac:(lra)). rewrite P in Z; [discriminate|]. rewrite Rabs_pos_eq; lra. }
  rewrite grid_lx in N by lra. unfold edge_x in N. rewrite node_S in N. unfold node in N. cbn [nofnat] in N. cbn [nmul nadd nzero Num_R] in N.
  assert (E1 : in_cond (out_circle sqrt 5%R 0%R 0%R) (0 * 6 + -4)%R (0 * 6 + 4)%R = true) by (apply nleb_R; unfold sq; cbn; nra).
  rewrite E1, P in N by (rewrite Rabs_pos_eq; lra). unfold edge_len, out_circle in N. cbn [int_x fin] in N. unfold sq in N. cbn [nmul nsub nadd nopp Num_R] in N.
  replace (5 * 5 - (0 * 6 + 4 - 0) * (0 * 6 + 4 - 0))%R with (3 * 3)%R in N by ring. rewrite sqrt_square in N by lra.
  assert (E2 : nearer (0 * 6 + -4 + 6)%R (3 + 0)%R (- (3) + 0)%R = 3%R).
  { unfold nearer. rewrite !nabs_R. replace (nltb _ _) with true; [ring|]. symmetry. apply R_ltb. cbn. rewrite Rabs_left1, Rabs_pos_eq; lra. }
  rewrite E2, nabs_R in N. cbn [nsub Num_R] in N. rewrite (Rabs_pos_eq (3 - _)) in N by lra. unfold sn in N.
  destruct (Rlt_dec _ _) as [D|D] in N; [rewrite Rabs_pos_eq in D; lra|]. destruct (Rlt_dec _ _) as [D'|D'] in N; [rewrite Rabs_left1 in D'; lra|].
  rewrite Rabs_left1 in N by lra. lra.
Qed.
Print Assumptions C105_circle_refuted.

(** ** C106 *)
(** S dx dy is the area of the part of the cell outside the conductor, up to [tol] of a cell: on each vertical line the
    free part has length h x, and the area is the integral of h over the cell. *)
Definition cell_area (c : @cond R) (dx dy xmin ymin : R) (i j : nat) (A : R) : Prop :=
  exists h, (forall x, free_len (fun y => in_cond c x y) (node dy ymin j) (node dy ymin (S j)) (h x)) /\
    is_RInt h (node dx xmin i) (node dx xmin (S i)) A.
Theorem C106_plane : forall (m q tol dx dy xmin ymin : R) up i j, (0 < tol <= / 4)%R -> (0 < dx)%R -> (0 < dy)%R ->
  exists A, cell_area (plane m q 0%R up) dx dy xmin ymin i j A /\
    (Rabs (g_S (base_grid (plane m q 0%R up) tol dx dy xmin ymin) i j * (dx * dy) - A) <= tol * (dx * dy))%R.
Proof.
  intros m q tol dx dy xmin ymin up i j Ht Hx Hy. destruct (plane_area m q up tol dx dy xmin ymin i j Ht Hx Hy) as (h & A & H1 & H2 & H3).
  exists A. split; [exists h; split; assumption|exact H3].
Qed.
Print Assumptions C106_plane.
(** A corner of a rectangle: the free part of the cell from (1, 1) to (2, 2) is the square of side 1/2, S is 1/8. *)
Theorem C106_rect_refuted : exists (w h xc yc tol dx dy xmin ymin : R) i j, (0 < tol <= / 4)%R /\ (0 < dx)%R /\ (0 < dy)%R /\ (2 * dx < w)%R /\ (2 * dy < h)%R /\
  (node dx xmin i = 1 /\ node dx xmin (S i) = 2 /\ node dy ymin j = 1 /\ node dy ymin (S j) = 2)%R /\
  (forall x y, (1 <= x <= 2)%R -> (1 <= y <= 2)%R -> (in_cond (out_rect w h xc yc) x y = false <-> (x < 3/2 /\ y < 3/2)%R)) /\
  g_S (base_grid (out_rect w h xc yc) tol dx dy xmin ymin) i j = (1/8)%R.
Proof.
  exists 3%R, 3%R, 0%R, 0%R, (/ 1000)%R, 1%R, 1%R, 1%R, 1%R, 0, 0. repeat split; try lra; try (cbn; lra).
  - apply rect_out in H1. lra.
  - apply rect_out in H1. lra.
  - intros [K1 K2]. apply rect_out. lra.
  - rewrite grid_S by lra. unfold edge_x, edge_y. set (c := out_rect 3%R 3%R 0%R 0%R). rewrite !node_S. unfold node. cbn [nofnat nmul nadd nzero Num_R].
    replace (0 * 1 + 1 + 1)%R with 2%R by ring. replace (0 * 1 + 1)%R with 1%R by ring.
    assert (E11 : in_cond c 1%R 1%R = false) by (apply rect_out; lra).
    assert (E12 : in_cond c 1%R 2%R = true) by (apply rect_in; lra).
    assert (E21 : in_cond c 2%R 1%R = true) by (apply rect_in; lra).
    assert (E22 : in_cond c 2%R 2%R = true) by (apply rect_in; lra).
    rewrite E11, E12, E21, E22. unfold c. rewrite !rect_ix, !rect_iy. cbn [fin]. rewrite (nearer_hi 1 (0 - 3/2) (0 + 3/2)) by lra. unfold edge_len.
    rewrite nabs_R. cbn [nsub nzero Num_R]. rewrite Rabs_left1 by lra.
    assert (S1 : sn (/ 1000) (- (1 - (0 + 3/2)) / 1) = (1/2)%R).
    { unfold sn. destruct (Rlt_dec _ _) as [D|D]; [rewrite Rabs_pos_eq in D; lra|]. destruct (Rlt_dec _ _) as [D'|D']; [rewrite Rabs_left1 in D'; lra|]. field. }
    assert (S0 : sn (/ 1000) (0 / 1) = 0%R).
    { unfold sn. destruct (Rlt_dec _ _) as [D|D]; [reflexivity|]. rewrite Rabs_pos_eq in D; lra. }
    rewrite S1, S0. rewrite (area_classes (/ 1000) (1/2) (1/2) 0 0 M M Z0 Z0); cbn; lra.
Qed.
Print Assumptions C106_rect_refuted.
(** The line y = 1/2 - x and a 3 x 3 rectangle, cells of size 1. *)
Example C106_case : let g := base_grid (plane (Q2Qc (-1 # 1)) (Q2Qc (1 # 2)) (Q2Qc 0) true) (Q2Qc (1 # 1000)) (Q2Qc 1) (Q2Qc 1) (Q2Qc 0) (Q2Qc 0) in
  let r := base_grid (out_rect (Q2Qc (3 # 1)) (Q2Qc (3 # 1)) (Q2Qc 0) (Q2Qc 0)) (Q2Qc (1 # 1000)) (Q2Qc 1) (Q2Qc 1) (Q2Qc (-2 # 1)) (Q2Qc (-2 # 1)) in
  (g_lx g 0 0, g_ly g 0 0, g_lx g 0 1, g_S g 0 0, g_S g 1 0) = (Q2Qc (1 # 2), Q2Qc (1 # 2), Q2Qc 0, Q2Qc (1 # 8), Q2Qc 0) /\
  (g_lx r 0 1, g_lx r 0 0, g_lx r 3 1, g_S r 0 1, g_S r 1 1) = (Q2Qc (1 # 2), Q2Qc 0, Q2Qc (1 # 2), Q2Qc (1 # 2), Q2Qc 1).
Proof. vm_compute. split; reflexivity. Qed.

(** ** C107 *)
(** Marking a cell as unstable should not depend on the unit of length. *)
Theorem C107_refuted : exists (m q tol k : Qc), (0 < k)%Qc /\
  g_unst (base_grid (plane m q (Q2Qc 0) true) tol (Q2Qc 1) (Q2Qc 1) (Q2Qc 0) (Q2Qc 0)) 0 0 = true /\
  g_unst (base_grid (plane m (k * q)%Qc (Q2Qc 0) true) tol (k * Q2Qc 1)%Qc (k * Q2Qc 1)%Qc (k * Q2Qc 0)%Qc (k * Q2Qc 0)%Qc) 0 0 = false.
Proof. exists (Q2Qc (-1 # 1)), (Q2Qc (1 # 2)), (Q2Qc (1 # 1000)), (Q2Qc (1 # 10)). vm_compute. auto. Qed.
Print Assumptions C107_refuted.
(** When a cell of the full grid has area at most 1, only cells smaller than half the largest rectangle on their edges
    are marked. *)
Theorem C107_partial : forall (m q tol dx dy xmin ymin : R) up i j, (0 < tol <= / 4)%R -> (0 < dx)%R -> (0 < dy)%R -> (dx * dy <= 1)%R ->
  let g := base_grid (plane m q 0%R up) tol dx dy xmin ymin in g_unst g i j = true ->
  exists A, cell_area (plane m q 0%R up) dx dy xmin ymin i j A /\
    (A < / 2 * Rmax (Rmax (g_lx g i j * dy) (g_lx g i (S j) * dy)) (Rmax (g_ly g i j * dx) (g_ly g (S i) j * dx)) + tol * (dx * dy))%R.
Proof.
  intros m q tol dx dy xmin ymin up i j Ht Hx Hy Hd g H. destruct (C106_plane m q tol dx dy xmin ymin up i j Ht Hx Hy) as (A & HA & N). fold g in N. exists A. split; [exact HA|].
  assert (M2 : forall a b : R, max2 a b = Rmax a b).
  { intros a b. unfold max2. destruct (nltb a b) eqn:E; [apply R_ltb in E|apply R_ltb_f in E]; symmetry; [apply Rmax_right|apply Rmax_left]; lra. }
  assert (P0 : (0 <= g_lx g i j)%R).
  { unfold g. rewrite grid_lx by assumption. apply Rmult_le_pos; [|lra].
    assert (V : (0 <= edge_x (plane m q 0 up) dx dy xmin ymin i j / dx <= 1)%R).
    { destruct up; [pose proof (up_edge_x m q dx dy xmin ymin Hx Hy i j 0) as E|pose proof (dn_edge_x m q dx dy xmin ymin Hx Hy i j 0) as E];
        unfold upc, dnc in E; rewrite E; apply frac_01. }
    destruct (sn_cls tol _ Ht V) as (_ & _ & _ & B & _). exact B. }
  set (mx := Rmax _ _). assert (P1 : (0 <= mx)%R).
  { eapply Rle_trans; [|apply Rmax_l]. eapply Rle_trans; [|apply Rmax_l]. apply Rmult_le_pos; lra. }
  assert (U : (g_S g i j < 0)%R \/ (0 < g_S g i j)%R /\ (g_S g i j < / 2 * mx)%R).
  { unfold mx, g in H |- *. cbn [g_unst base_grid] in H. apply R_ltb in H. cbn [g_S g_lx g_ly base_grid]. destruct (nltb nzero _) eqn:E in H.
    - right. apply R_ltb in E. split; [exact E|]. rewrite !M2 in H. eapply Rlt_le_trans; [exact H|]. apply Req_le. unfold half, two. cbn [nmul ndiv nadd none_ Num_R]. f_equal. field.
    - left. exact H. }
  apply Rabs_le_between in N. destruct U as [U|[U1 U2]]; [assert (0 < dx * dy)%R by nra; assert (g_S g i j * (dx * dy) < 0)%R by nra; lra|]. assert (g_S g i j * (dx * dy) <= g_S g i j)%R by nra. lra.
Qed.
Print Assumptions C107_partial.

(** ** C108 *)
Theorem C108_ect : forall (T : Type) (NT : Num T) (LT : NumLaws T) (OT : NumOrd T) (FT : NumFl T) (FL : NumFlLaws T)
  (tol xmin xmax ymin ymax : T) nx ny (c : @cond T),
  let unstable := exists g o i j, new_grid tol xmin xmax ymin ymax nx ny c "FDTD" = Ok (g, o) /\ i < nx /\ j < ny /\ g_unst g i j = true in
  (unstable -> exists e, new_grid tol xmin xmax ymin ymax nx ny c "ECT" = Err e) /\
  (~ unstable -> exists g s, new_grid tol xmin xmax ymin ymax nx ny c "FDTD" = Ok (g, None) /\
    new_grid tol xmin xmax ymin ymax nx ny c "ECT" = Ok (g, Some s) /\
    (forall i j, e_bor s i j = [] /\ e_intr s i j = false /\ e_red s i j = nzero)).
Proof.
  intros T NT LT OT FT FL tol xmin xmax ymin ymax nx ny c. cbn zeta. unfold new_grid. cbn -[base_grid extensions].
  set (g := base_grid _ _ _ _ _ _).
  assert (Un : forall i j, g_unst g i j = nltb (g_S g i j) (g_Sstab g i j)) by reflexivity.
  assert (Av : forall i j, g_avail g i j = true -> nltb nzero (g_S g i j) = true) by (intros i j H; cbn in H; apply andb_true_iff in H; apply H).
  clearbody g. split.
  - intros (g' & o & i & j & E & Hi & Hj & U). injection E as <- <-. destruct (extensions g nx ny) as [s|e] eqn:X; [|exists e; reflexivity].
    destruct (extensions_idle g nx ny Un Av s X) as [N _]. rewrite N in U by assumption. discriminate.
  - intros N. assert (N' : forall i j, i < nx -> j < ny -> g_unst g i j = false).
    { intros i j Hi Hj. destruct (g_unst g i j) eqn:U; [|reflexivity]. exfalso. apply N. exists g, None, i, j. auto. }
    destruct (extensions_ok g nx ny Un Av N') as [s X].
    exists g, s. rewrite X. split; [reflexivity|]. split; [reflexivity|]. destruct (extensions_idle g nx ny Un Av s X) as [_ (I1 & _ & I3 & I4)]. auto.
Qed.
Print Assumptions C108_ect.
Example C108_case : let q0 := Q2Qc 0 in let q2 := Q2Qc (2 # 1) in let t := Q2Qc (1 # 1000) in
  let made c := match new_grid t q0 q2 q0 q2 2 2 c "ECT" with Ok (g, _) => Some (this (g_S g 0 1)) | Err _ => None end in
  made (plane (Q2Qc (-1 # 1)) (Q2Qc (1 # 2)) q0 true) = None /\ made (plane q0 (Q2Qc (3 # 2)) q0 true) = Some (1 # 2).
Proof. vm_compute. split; reflexivity. Qed.
