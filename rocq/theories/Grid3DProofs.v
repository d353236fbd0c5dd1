(** Conductors and edges of the three-dimensional grid, line by line. *)
From Coq Require Import List Arith ZArith Bool String Lia Reals Lra Psatz.
From Verif Require Import Num Vec FieldModel GridModel SolverModel SolverCons WakeModel WakeNum Grid2DModel Grid2DArea Grid2DCut Grid3DModel.
Import ListNotations.
Local Open Scope R_scope.

(** ** Lines *)
(** half a chord of a sphere on a line that passes the centre at u, v *)
Lemma chord3 r u v z : u * u + v * v < r * r -> let w := sqrt (r * r - u * u - v * v) in
  0 < w /\ (z * z + u * u + v * v < r * r <-> - w < z < w) /\ (r * r < z * z + u * u + v * v <-> z < - w \/ w < z).
Proof.
  intros Hu w. assert (W : w * w = r * r - u * u - v * v) by (apply sqrt_sqrt; lra).
  assert (P : 0 < w) by (apply sqrt_lt_R0; lra). split; [exact P|].
  split; split; intros K.
  - split; apply Rnot_le_lt; intros L; nra.
  - destruct K. nra.
  - destruct (Rlt_dec z (- w)); [left; assumption|]. right. apply Rnot_le_lt. intros L. nra.
  - destruct K; nra.
Qed.
Lemma cut_R r u v p : u * u + v * v < r * r -> sphere_cut sqrt r 0 u v p = Some (nearer p (sqrt (r * r - u * u - v * v)) (- sqrt (r * r - u * u - v * v))).
Proof.
  intros H. unfold sphere_cut, sq. cbn [nmul nsub nadd nopp nzero Num_R]. destruct (nltb _ _) eqn:E; [apply R_ltb in E; cbn in E; lra|]. f_equal. f_equal; ring.
Qed.
(** an edge from p to p + d; f is the intersection asked for at a point of the line *)
Definition edge1 (inn : R -> bool) (f : R -> option R) (p d : R) : R := edge_len (inn p) (inn (p + d)) p (p + d) (fin (f (p + d))) (fin (f p)) d.
Definition edge_ok (inn : R -> bool) (f : R -> option R) (p d : R) : Prop :=
  free_len inn p (p + d) (edge1 inn f p d) /\ 0 <= edge1 inn f p d <= d.
Lemma edge_gap inn f a b p d : 0 < d -> 2 * d < b - a -> (forall z, inn z = false <-> a < z < b) -> (forall z, f z = Some (nearer z a b)) -> edge_ok inn f p d.
Proof.
  intros Hd Hb O F. unfold edge_ok, edge1. apply (gap_edge inn a b p d (fun z => fin (f z))); try assumption. intros z. rewrite F. reflexivity.
Qed.
Lemma edge_full inn f p d : 0 < d -> (forall z, inn z = true) -> edge_ok inn f p d.
Proof. intros Hd O. apply full_edge; assumption. Qed.
Lemma edge_free inn f p d : 0 < d -> (forall z, inn z = false) -> edge_ok inn f p d.
Proof.
  intros Hd O. unfold edge_ok, edge1, edge_len. rewrite !O. split; [|lra]. exists p, (p + d). repeat split; try lra; intros z Hz; [apply O|]. intros K. lra.
Qed.
(** the conductor is all of the line on one side of v *)
Lemma edge_below inn f v p d : 0 < d -> (forall z, inn z = true <-> z <= v) -> (forall z, f z = Some v) -> edge_ok inn f p d.
Proof.
  intros Hd I F. unfold edge_ok, edge1, edge_len. rewrite !F. cbn [fin].
  assert (O : forall z, inn z = false <-> v < z).
  { intros z. split; intros K; [apply Rnot_le_lt; intros L; apply I in L; congruence|]. destruct (inn z) eqn:E; [apply I in E; lra|reflexivity]. }
  destruct (inn p) eqn:E1; destruct (inn (p + d)) eqn:E2; first [apply I in E1|apply O in E1]; first [apply I in E2|apply O in E2]; try lra.
  - split; [|cbn; lra]. exists p, p. cbn [nzero Num_R]. repeat split; try lra; intros z Hz; [lra|]. intros K. apply I. lra.
  - rewrite nabs_R. cbn [nsub Num_R]. rewrite Rabs_left1 by lra. split; [|lra].
    exists v, (p + d). repeat split; try lra; intros z Hz; [apply O; lra|]. intros K. apply I. lra.
  - split; [|lra]. exists p, (p + d). repeat split; try lra; intros z Hz; [apply O; lra|]. intros K. lra.
Qed.
Lemma edge_above inn f v p d : 0 < d -> (forall z, inn z = true <-> v <= z) -> (forall z, f z = Some v) -> edge_ok inn f p d.
Proof.
  intros Hd I F. unfold edge_ok, edge1, edge_len. rewrite !F. cbn [fin].
  assert (O : forall z, inn z = false <-> z < v).
  { intros z. split; intros K; [apply Rnot_le_lt; intros L; apply I in L; congruence|]. destruct (inn z) eqn:E; [apply I in E; lra|reflexivity]. }
  destruct (inn p) eqn:E1; destruct (inn (p + d)) eqn:E2; first [apply I in E1|apply O in E1]; first [apply I in E2|apply O in E2]; try lra.
  - split; [|cbn; lra]. exists p, p. cbn [nzero Num_R]. repeat split; try lra; intros z Hz; [lra|]. intros K. apply I. lra.
  - rewrite nabs_R. cbn [nsub Num_R]. rewrite Rabs_left1 by lra. split; [|lra].
    exists p, v. repeat split; try lra; intros z Hz; [apply O; lra|]. intros K. apply I. lra.
  - split; [|lra]. exists p, (p + d). repeat split; try lra; intros z Hz; [apply O; lra|]. intros K. lra.
Qed.
(** the conductor is the part of the line from -w to w, and one end of the edge is in it *)
Lemma edge_ball inn f w p d : 0 < d -> 0 < w -> (forall z, inn z = true <-> - w <= z <= w) -> (forall z, f z = Some (nearer z w (- w))) ->
  inn p = true \/ inn (p + d) = true -> edge_ok inn f p d.
Proof.
  intros Hd Hw I F E. unfold edge_ok, edge1, edge_len. rewrite !F. cbn [fin].
  assert (O : forall z, inn z = false <-> ~ (- w <= z <= w)).
  { intros z. rewrite <- I. destruct (inn z); split; intros; congruence. }
  assert (Hi : forall z, w < z -> nearer z w (- w) = w).
  { intros z Hz. unfold nearer. rewrite !nabs_R. cbn [nsub Num_R]. rewrite !Rabs_pos_eq by lra. replace (nltb _ _) with true; [reflexivity|]. symmetry. apply R_ltb. lra. }
  assert (Lo : forall z, z < - w -> nearer z w (- w) = - w).
  { intros z Hz. unfold nearer. rewrite !nabs_R. cbn [nsub Num_R]. rewrite !Rabs_left by lra. destruct (nltb _ _) eqn:L; [apply R_ltb in L; cbn in L; lra|reflexivity]. }
  destruct (inn p) eqn:E1; destruct (inn (p + d)) eqn:E2; first [apply I in E1|apply O in E1]; first [apply I in E2|apply O in E2].
  - split; [|cbn; lra]. exists p, p. cbn [nzero Num_R]. repeat split; try lra; intros z Hz; [lra|]. intros K. apply I. lra.
  - rewrite Hi by lra. rewrite nabs_R. cbn [nsub Num_R]. rewrite Rabs_left1 by lra. split; [|lra].
    exists w, (p + d). repeat split; try lra; intros z Hz; [apply O; lra|]. intros K. apply I. lra.
  - rewrite Lo by lra. rewrite nabs_R. cbn [nsub Num_R]. rewrite Rabs_left1 by lra. split; [|lra].
    exists p, (- w). repeat split; try lra; intros z Hz; [apply O; lra|]. intros K. apply I. lra.
  - destruct E; congruence.
Qed.
(** the free part is between -w and w, at least two edges long *)
Lemma edge_cavity inn f w p d : 0 < d -> d < w -> (forall z, inn z = false <-> - w < z < w) -> (forall z, f z = Some (nearer z w (- w))) -> edge_ok inn f p d.
Proof.
  intros Hd Hw O F. unfold edge_ok, edge1, edge_len. rewrite !F. cbn [fin].
  assert (I : forall z, inn z = true <-> ~ (- w < z < w)).
  { intros z. rewrite <- O. destruct (inn z); split; intros; congruence. }
  assert (Hi : forall z, 0 < z -> z < w -> nearer z w (- w) = w).
  { intros z Hz Hz'. unfold nearer. rewrite !nabs_R. cbn [nsub Num_R]. rewrite Rabs_left, Rabs_pos_eq by lra. replace (nltb _ _) with true; [reflexivity|]. symmetry. apply R_ltb. lra. }
  assert (Lo : forall z, z < 0 -> - w < z -> nearer z w (- w) = - w).
  { intros z Hz Hz'. unfold nearer. rewrite !nabs_R. cbn [nsub Num_R]. rewrite Rabs_left, Rabs_pos_eq by lra. destruct (nltb _ _) eqn:L; [apply R_ltb in L; cbn in L; lra|reflexivity]. }
  destruct (inn p) eqn:E1; destruct (inn (p + d)) eqn:E2; first [apply I in E1|apply O in E1]; first [apply I in E2|apply O in E2].
  - split; [|cbn; lra]. exists p, p. cbn [nzero Num_R]. repeat split; try lra; intros z Hz; [lra|]. intros K. apply I. intros L. lra.
  - rewrite Lo by lra. rewrite nabs_R. cbn [nsub Num_R]. rewrite Rabs_left1 by lra. split; [|lra].
    exists (- w), (p + d). repeat split; try lra; intros z Hz; [apply O; lra|]. intros K. apply I. lra.
  - rewrite Hi by lra. rewrite nabs_R. cbn [nsub Num_R]. rewrite Rabs_left1 by lra. split; [|lra].
    exists p, w. repeat split; try lra; intros z Hz; [apply O; lra|]. intros K. apply I. lra.
  - split; [|lra]. exists p, (p + d). repeat split; try lra; intros z Hz; [apply O; lra|]. intros K. lra.
Qed.
(** what the grid stores for such an edge *)
Definition stored (tol d : R) (inn : R -> bool) (p v : R) : Prop := exists l, free_len inn p (p + d) l /\ Rabs (v - l) <= tol * d.
Lemma edge_stored tol d inn f p : 0 < tol <= /4 -> 0 < d -> edge_ok inn f p d -> stored tol d inn p (renorm d (renorm d (snap_len tol d (edge1 inn f p d)))).
Proof.
  intros Ht Hd [A B]. eexists. split; [exact A|]. unfold renorm. rewrite snap_sn. cbn [ndiv nmul Num_R].
  match goal with |- Rabs (?s * d / d * d / d * d - _) <= _ => replace (s * d / d * d / d * d) with (s * d) by (field; lra) end.
  apply near_len; [exact Ht|exact Hd|exact B|reflexivity].
Qed.

(** ** The conductors along a line *)
Lemma half_R' : half (T := R) = / 2. Proof. apply half_R. Qed.
Section Cube.
  Context (lx ly lz xc yc zc : R).
  Let c := in_cube lx ly lz xc yc zc.
  Definition in_box (x y z : R) : Prop := (xc - lx / 2 < x < xc + lx / 2) /\ (yc - ly / 2 < y < yc + ly / 2) /\ (zc - lz / 2 < z < zc + lz / 2).
  Lemma cube_out x y z : in3 c x y z = false <-> in_box x y z.
  Proof.
    unfold c, in_cube, in_box. cbn [in3]. rewrite negb_false_iff, !andb_true_iff, half_R', !R_ltb. cbn [nadd nmul nopp Num_R].
    assert (E1 : forall l k, - / 2 * l + k = k - l / 2) by (intros; field). assert (E2 : forall l k, / 2 * l + k = k + l / 2) by (intros; field).
    rewrite !E1, !E2. tauto.
  Qed.
  Lemma cube_in x y z : ~ in_box x y z -> in3 c x y z = true.
  Proof. rewrite <- cube_out. destruct (in3 c x y z); congruence. Qed.
  Lemma cube_cut l k p : Some (nearer p (nadd (nmul (nopp half) l) k) (nadd (nadd (nmul (nopp half) l) k) l)) = Some (nearer p (k - l / 2) (k + l / 2)).
  Proof. rewrite half_R'. cbn [nadd nmul nopp Num_R]. f_equal. f_equal; field. Qed.
  Lemma cube_ix x y z : ix3 c x y z = Some (nearer x (xc - lx / 2) (xc + lx / 2)).
  Proof. apply cube_cut. Qed.
  Lemma cube_iy x y z : iy3 c x y z = Some (nearer y (yc - ly / 2) (yc + ly / 2)).
  Proof. apply cube_cut. Qed.
  Lemma cube_iz x y z : iz3 c x y z = Some (nearer z (zc - lz / 2) (zc + lz / 2)).
  Proof. apply cube_cut. Qed.
End Cube.
Section Plane.
  Context (far p0 p1 p2 n0 n1 n2 : R).
  Let c := plane3 far p0 p1 p2 n0 n1 n2.
  Lemma plane3_in x y z : in3 c x y z = true <-> n0 * (x - p0) + n1 * (y - p1) + n2 * (z - p2) <= 0.
  Proof. unfold c, plane3. cbn [in3]. rewrite nleb_R. reflexivity. Qed.
  Lemma plane3_out x y z : in3 c x y z = false <-> 0 < n0 * (x - p0) + n1 * (y - p1) + n2 * (z - p2).
  Proof. unfold c, plane3. cbn [in3]. rewrite nleb_Rf. reflexivity. Qed.
  Lemma plane3_ix x y z : n0 <> 0 -> ix3 c x y z = Some (- (n1 * (y - p1) + n2 * (z - p2)) / n0 + p0).
  Proof. intros H. unfold c, plane3. cbn [ix3]. replace (neqb n0 _) with false; [reflexivity|]. symmetry. apply neqb_neq. exact H. Qed.
  Lemma plane3_iy x y z : n1 <> 0 -> iy3 c x y z = Some (- (n0 * (x - p0) + n2 * (z - p2)) / n1 + p1).
  Proof. intros H. unfold c, plane3. cbn [iy3]. replace (neqb n1 _) with false; [reflexivity|]. symmetry. apply neqb_neq. exact H. Qed.
  Lemma plane3_iz x y z : n2 <> 0 -> iz3 c x y z = Some (- (n0 * (x - p0) + n1 * (y - p1)) / n2 + p2).
  Proof. intros H. unfold c, plane3. cbn [iz3]. replace (neqb n2 _) with false; [reflexivity|]. symmetry. apply neqb_neq. exact H. Qed.
End Plane.
(** a line through a half space: inn z is n (z - p) + s <= 0 *)
Lemma half_line (inn : R -> bool) (f : R -> option R) n p s q d : 0 < d -> (forall z, inn z = true <-> n * (z - p) + s <= 0) ->
  (n <> 0 -> forall z, f z = Some (- s / n + p)) -> edge_ok inn f q d.
Proof.
  intros Hd I F. destruct (Rtotal_order n 0) as [N|[N|N]].
  - apply (edge_above _ _ (- s / n + p)); [exact Hd| |apply F; lra]. intros z. rewrite I.
    replace (n * (z - p) + s) with (n * (z - (- s / n + p))) by (field; lra). set (v := - s / n + p). split; intros; nra.
  - destruct (Rle_dec s 0) as [S|S].
    + apply edge_full; [exact Hd|]. intros z. apply I. rewrite N. lra.
    + apply edge_free; [exact Hd|]. intros z. destruct (inn z) eqn:E; [apply I in E; rewrite N in E; lra|reflexivity].
  - apply (edge_below _ _ (- s / n + p)); [exact Hd| |apply F; lra]. intros z. rewrite I.
    replace (n * (z - p) + s) with (n * (z - (- s / n + p))) by (field; lra). set (v := - s / n + p). split; intros; nra.
Qed.
Lemma half_crossing (inn : R -> bool) n p s x : n <> 0 -> (forall z, inn z = true <-> n * (z - p) + s <= 0) -> nearest_crossing inn x (Some (- s / n + p)).
Proof.
  intros N I.
  assert (O : forall z, inn z = false <-> 0 < n * (z - p) + s).
  { intros z. split; intros K; [apply Rnot_le_lt; intros L; apply I in L; congruence|]. destruct (inn z) eqn:E; [apply I in E; lra|reflexivity]. }
  assert (E : forall z, n * (z - p) + s = n * (z - (- s / n + p))) by (intros; field; lra). set (v := - s / n + p) in *.
  destruct (Rlt_dec 0 n) as [P|P].
  - apply (nearest_step _ true); intros z Hz; [apply I|apply O]; rewrite E; nra.
  - apply (nearest_step _ false); intros z Hz; [apply O|apply I]; rewrite E; nra.
Qed.
