(** Edge lengths and areas of the two-dimensional grid for straight conductors and rectangles. *)
From Coq Require Import List Arith ZArith Bool String Lia Reals Lra Psatz.
From Coquelicot Require Import Coquelicot.
From Verif Require Import Num Vec FieldModel GridModel SolverModel SolverCons WakeModel WakeNum Grid2DModel Grid2DArea.
Import ListNotations.
Local Open Scope R_scope.

(** The free part of the segment from lo to hi is an interval of length l. *)
Definition free_len (inn : R -> bool) (lo hi l : R) : Prop := exists p q, lo <= p <= q /\ q <= hi /\ l = q - p /\
  (forall z, p < z < q -> inn z = false) /\ (forall z, lo <= z <= hi -> z < p \/ q < z -> inn z = true).

Lemma node_S (d lo : R) i : node d lo (S i) = node d lo i + d.
Proof. unfold node. cbn. ring. Qed.
Lemma nleb_R (a b : R) : nleb a b = true <-> a <= b.
Proof. unfold nleb. cbn. destruct (Rlt_dec b a); cbn; split; intros; try reflexivity; try discriminate; lra. Qed.
Lemma nleb_Rf (a b : R) : nleb a b = false <-> b < a.
Proof. unfold nleb. cbn. destruct (Rlt_dec b a); cbn; split; intros; try reflexivity; try discriminate; lra. Qed.

(** height of the line over the bottom of the cell *)
Definition height (m q x y dy : R) : R := (m * x + q - y) / dy.
Lemma div_le u d v : 0 < d -> (u / d <= v <-> u <= v * d).
Proof.
  intros H. split; intros K.
  - apply (Rmult_le_compat_r d) in K; [|lra]. unfold Rdiv in K. rewrite Rmult_assoc, Rinv_l, Rmult_1_r in K; lra.
  - apply (Rmult_le_reg_r d); [lra|]. unfold Rdiv. rewrite Rmult_assoc, Rinv_l, Rmult_1_r; lra.
Qed.
Lemma le_div u d v : 0 < d -> (v <= u / d <-> v * d <= u).
Proof.
  intros H. split; intros K.
  - apply (Rmult_le_compat_r d) in K; [|lra]. unfold Rdiv in K. rewrite Rmult_assoc, Rinv_l, Rmult_1_r in K; lra.
  - apply (Rmult_le_reg_r d); [lra|]. unfold Rdiv. rewrite Rmult_assoc, Rinv_l, Rmult_1_r; lra.
Qed.

Section Plane.
  Context (m q dx dy xmin ymin : R) (Hx : 0 < dx) (Hy : 0 < dy).
  Definition upc := plane m q 0 true.
  Definition dnc := plane m q 0 false.
  Lemma up_in x y : in_cond upc x y = true <-> m * x + q <= y.
  Proof. unfold upc, plane; cbn [in_cond]. rewrite nleb_R. cbn. split; lra. Qed.
  Lemma up_out x y : in_cond upc x y = false <-> y < m * x + q.
  Proof. unfold upc, plane; cbn [in_cond]. rewrite nleb_Rf. cbn. split; lra. Qed.
  Lemma dn_in x y : in_cond dnc x y = true <-> y <= m * x + q.
  Proof. unfold dnc, plane; cbn [in_cond]. rewrite nleb_R. cbn. split; lra. Qed.
  Lemma dn_out x y : in_cond dnc x y = false <-> m * x + q < y.
  Proof. unfold dnc, plane; cbn [in_cond]. rewrite nleb_Rf. cbn. split; lra. Qed.

  Ltac upx E := first [apply up_in in E | apply up_out in E].
  Ltac dnx E := first [apply dn_in in E | apply dn_out in E].
  Lemma up_edge_y i j : edge_y upc dx dy xmin ymin i j / dy = c01 (height m q (node dx xmin i) (node dy ymin j) dy).
  Proof.
    unfold edge_y. rewrite node_S. set (x := node dx xmin i). set (y := node dy ymin j). unfold edge_len, height.
    destruct (in_cond upc x y) eqn:E1; destruct (in_cond upc x (y + dy)) eqn:E2; upx E1; upx E2.
    - rewrite c01_low; [cbn; field; lra|]. apply div_le; lra.
    - lra.
    - rewrite nabs_R. cbn [fin int_y upc plane nsub nadd nmul Num_R]. rewrite c01_mid; [rewrite Rabs_left1 by lra; field; lra|].
      split; [apply le_div; lra|apply div_le; lra].
    - rewrite c01_high; [field; lra|]. apply le_div; lra.
  Qed.
  Lemma dn_edge_y i j : edge_y dnc dx dy xmin ymin i j / dy = c01 (1 - height m q (node dx xmin i) (node dy ymin j) dy).
  Proof.
    unfold edge_y. rewrite node_S. set (x := node dx xmin i). set (y := node dy ymin j). unfold edge_len, height.
    assert (D : (m * x + q - y) / dy * dy = m * x + q - y) by (field; lra). set (h := (m * x + q - y) / dy) in *.
    destruct (in_cond dnc x y) eqn:E1; destruct (in_cond dnc x (y + dy)) eqn:E2; dnx E1; dnx E2.
    - rewrite c01_low; [cbn; field; lra|]. assert (1 <= h); [apply le_div; lra|lra].
    - rewrite nabs_R. cbn [fin int_y dnc plane nsub nadd nmul Num_R]. assert (0 <= h) by (apply le_div; lra). assert (h <= 1) by (apply div_le; lra).
      rewrite c01_mid by lra. rewrite Rabs_left1 by lra. unfold h. field. lra.
    - lra.
    - rewrite c01_high; [field; lra|]. assert (h <= 0); [apply div_le; lra|lra].
  Qed.
  Lemma up_edge_x i j k (Y := node dy ymin j) : edge_x upc dx dy xmin ymin i j / dx =
    frac (height m q (node dx xmin i) (Y + k) dy + k / dy) (height m q (node dx xmin (S i)) (Y + k) dy + k / dy).
  Proof.
    replace (height m q (node dx xmin i) (Y + k) dy + k / dy) with (height m q (node dx xmin i) Y dy) by (unfold height; field; lra).
    replace (height m q (node dx xmin (S i)) (Y + k) dy + k / dy) with (height m q (node dx xmin (S i)) Y dy) by (unfold height; field; lra).
    unfold edge_x. fold Y. rewrite node_S. set (x := node dx xmin i). unfold edge_len, height, frac.
    assert (P : forall z, 0 < (m * z + q - Y) / dy <-> Y < m * z + q).
    { intros z. split; intros K; [|apply Rdiv_lt_0_compat; lra]. apply Rnot_le_lt. intros L. apply (Rlt_not_le _ _ K). apply div_le; lra. }
    destruct (in_cond upc x Y) eqn:E1; destruct (in_cond upc (x + dx) Y) eqn:E2; upx E1; upx E2.
    - destruct (Rlt_dec 0 _) as [K|K]; [apply P in K; lra|]. destruct (Rlt_dec 0 _) as [L|L]; [apply P in L; lra|]. cbn. field. lra.
    - destruct (Rlt_dec 0 _) as [K|K]; [apply P in K; lra|]. destruct (Rlt_dec 0 _) as [L|L]; [|exfalso; apply L, P; lra].
      assert (Hm : 0 < m) by nra. rewrite nabs_R. cbn [fin int_x upc plane nsub nadd nmul ndiv Num_R].
      rewrite Rabs_left1; [field; repeat split; try lra; nra|]. replace (Y / m - q / m - (x + dx)) with (- ((m * (x + dx) + q - Y) / m)) by (field; lra).
      assert (0 <= (m * (x + dx) + q - Y) / m); [apply le_div; lra|lra].
    - destruct (Rlt_dec 0 _) as [K|K]; [|exfalso; apply K, P; lra]. destruct (Rlt_dec 0 _) as [L|L]; [apply P in L; lra|].
      assert (Hm : m < 0) by nra. rewrite nabs_R. cbn [fin int_x upc plane nsub nadd nmul ndiv Num_R].
      rewrite Rabs_left1; [field; repeat split; try lra; nra|]. replace (x - (Y / m - q / m)) with (- ((m * x + q - Y) / (- m))) by (field; lra).
      assert (0 <= (m * x + q - Y) / (- m)); [apply le_div; lra|lra].
    - destruct (Rlt_dec 0 _) as [K|K]; [|exfalso; apply K, P; lra]. destruct (Rlt_dec 0 _) as [L|L]; [|exfalso; apply L, P; lra]. field. lra.
  Qed.
  Lemma dn_edge_x i j k (Y := node dy ymin j) : edge_x dnc dx dy xmin ymin i j / dx =
    frac (- (height m q (node dx xmin i) (Y + k) dy + k / dy)) (- (height m q (node dx xmin (S i)) (Y + k) dy + k / dy)).
  Proof.
    replace (height m q (node dx xmin i) (Y + k) dy + k / dy) with (height m q (node dx xmin i) Y dy) by (unfold height; field; lra).
    replace (height m q (node dx xmin (S i)) (Y + k) dy + k / dy) with (height m q (node dx xmin (S i)) Y dy) by (unfold height; field; lra).
    unfold edge_x. fold Y. rewrite node_S. set (x := node dx xmin i). unfold edge_len, height, frac.
    assert (P : forall z, 0 < - ((m * z + q - Y) / dy) <-> m * z + q < Y).
    { intros z. replace (- ((m * z + q - Y) / dy)) with ((Y - (m * z + q)) / dy) by (field; lra). split; intros K; [|apply Rdiv_lt_0_compat; lra].
      apply Rnot_le_lt. intros L. apply (Rlt_not_le _ _ K). apply div_le; lra. }
    destruct (in_cond dnc x Y) eqn:E1; destruct (in_cond dnc (x + dx) Y) eqn:E2; dnx E1; dnx E2.
    - destruct (Rlt_dec 0 _) as [K|K]; [apply P in K; lra|]. destruct (Rlt_dec 0 _) as [L|L]; [apply P in L; lra|]. cbn. field. lra.
    - destruct (Rlt_dec 0 _) as [K|K]; [apply P in K; lra|]. destruct (Rlt_dec 0 _) as [L|L]; [|exfalso; apply L, P; lra].
      assert (Hm : m < 0) by nra. rewrite nabs_R. cbn [fin int_x dnc plane nsub nadd nmul ndiv Num_R].
      rewrite Rabs_left1; [field; repeat split; try lra; nra|]. replace (Y / m - q / m - (x + dx)) with (- ((Y - (m * (x + dx) + q)) / (- m))) by (field; lra).
      assert (0 <= (Y - (m * (x + dx) + q)) / (- m)); [apply le_div; lra|lra].
    - destruct (Rlt_dec 0 _) as [K|K]; [|exfalso; apply K, P; lra]. destruct (Rlt_dec 0 _) as [L|L]; [apply P in L; lra|].
      assert (Hm : 0 < m) by nra. rewrite nabs_R. cbn [fin int_x dnc plane nsub nadd nmul ndiv Num_R].
      rewrite Rabs_left1; [field; repeat split; try lra; nra|]. replace (x - (Y / m - q / m)) with (- ((Y - (m * x + q)) / m)) by (field; lra).
      assert (0 <= (Y - (m * x + q)) / m); [apply le_div; lra|lra].
    - destruct (Rlt_dec 0 _) as [K|K]; [|exfalso; apply K, P; lra]. destruct (Rlt_dec 0 _) as [L|L]; [|exfalso; apply L, P; lra]. field. lra.
  Qed.
End Plane.

(** ** The grid *)
Section Grid.
  Context (c : @cond R) (tol dx dy xmin ymin : R) (Ht : 0 < tol <= /4) (Hx : 0 < dx) (Hy : 0 < dy).
  Let g := base_grid c tol dx dy xmin ymin.
  Lemma grid_lx i j : g_lx g i j = sn tol (edge_x c dx dy xmin ymin i j / dx) * dx.
  Proof. cbn [g g_lx base_grid]. rewrite snap_sn. cbn. field. lra. Qed.
  Lemma grid_ly i j : g_ly g i j = sn tol (edge_y c dx dy xmin ymin i j / dy) * dy.
  Proof. cbn [g g_ly base_grid]. rewrite snap_sn. cbn. field. lra. Qed.
  Lemma grid_S i j : g_S g i j = area tol (sn tol (edge_x c dx dy xmin ymin i j / dx)) (sn tol (edge_y c dx dy xmin ymin i j / dy))
    (sn tol (edge_x c dx dy xmin ymin i (S j) / dx)) (sn tol (edge_y c dx dy xmin ymin (S i) j / dy)).
  Proof.
    cbn [g g_S base_grid]. rewrite !snap_sn. cbn [ndiv Num_R].
    assert (F : forall v d, 0 < d -> v * d / d = v) by (intros; field; lra). rewrite !F by assumption. reflexivity.
  Qed.
  Lemma sn_near v : 0 <= v <= 1 -> Rabs (sn tol v - v) <= tol.
  Proof. intros H. destruct (sn_cls tol v Ht H) as (? & _ & E & _). exact E. Qed.
  Lemma len_near d v l : 0 < d -> 0 <= v <= 1 -> l = v * d -> Rabs (sn tol v * d - l) <= tol * d.
  Proof.
    intros Hd Hv ->. replace (sn tol v * d - v * d) with ((sn tol v - v) * d) by ring. rewrite Rabs_mult, (Rabs_pos_eq d) by lra.
    apply Rmult_le_compat_r; [lra|]. apply sn_near. exact Hv.
  Qed.
End Grid.

(** free part of a segment on which the conductor is where a line u + (v - u) s, 0 <= s <= 1, is not positive *)
Lemma free_line (inn : R -> bool) lo d u v : 0 < d -> (forall s, 0 <= s <= 1 -> (inn (lo + s * d) = true <-> u + (v - u) * s <= 0)) ->
  free_len inn lo (lo + d) (frac u v * d).
Proof.
  intros Hd H.
  assert (P : forall z, lo <= z <= lo + d -> exists s, 0 <= s <= 1 /\ z = lo + s * d).
  { intros z Hz. exists ((z - lo) / d). split; [|field; lra]. split; [apply le_div; lra|apply div_le; lra]. }
  assert (H' : forall s, 0 <= s <= 1 -> 0 < u + (v - u) * s -> inn (lo + s * d) = false).
  { intros s Hs K. destruct (inn (lo + s * d)) eqn:E; [|reflexivity]. apply H in E; lra. }
  unfold frac, free_len. destruct (Rlt_dec 0 u) as [U|U], (Rlt_dec 0 v) as [V|V].
  - exists lo, (lo + d). repeat split; try lra; intros z Hz.
    + destruct (P z) as (s & Hs & ->); [lra|]. apply H'; [exact Hs|]. nra.
    + lra.
  - set (w := u / (u - v)). assert (W : w * (u - v) = u) by (unfold w; field; lra).
    assert (W1 : 0 <= w <= 1) by (split; [apply le_div; lra|apply div_le; lra]).
    exists lo, (lo + w * d). repeat split; try nra; intros z Hz.
    + destruct (P z) as (s & Hs & ->); [nra|]. apply H'; [exact Hs|]. assert (s < w) by nra. nra.
    + intros K. destruct (P z) as (s & Hs & ->); [lra|]. apply H; [exact Hs|]. assert (w < s) by nra. nra.
  - set (w := v / (v - u)). assert (W : w * (v - u) = v) by (unfold w; field; lra).
    assert (W1 : 0 <= w <= 1) by (split; [apply le_div; lra|apply div_le; lra]).
    exists (lo + (1 - w) * d), (lo + d). repeat split; try nra; intros z Hz.
    + destruct (P z) as (s & Hs & ->); [nra|]. apply H'; [exact Hs|]. assert (1 - w < s) by nra. nra.
    + intros K. destruct (P z) as (s & Hs & ->); [lra|]. apply H; [exact Hs|]. assert (s < 1 - w) by nra. nra.
  - exists lo, lo. repeat split; try lra; intros z Hz.
    + lra.
    + intros K. destruct (P z) as (s & Hs & ->); [lra|]. apply H; [exact Hs|]. nra.
Qed.
Lemma frac_c01 a : frac a (a - 1) = c01 a.
Proof.
  unfold frac. destruct (Rlt_dec 0 a), (Rlt_dec 0 (a - 1)).
  - rewrite c01_high; lra.
  - rewrite c01_mid by lra. field. lra.
  - lra.
  - rewrite c01_low; lra.
Qed.

(** every edge of a grid cut by a straight conductor has the length of its free part *)
Lemma plane_x m q up tol dx dy xmin ymin i j : 0 < tol <= /4 -> 0 < dx -> 0 < dy -> let c := plane m q 0 up in
  exists l, free_len (fun x => in_cond c x (node dy ymin j)) (node dx xmin i) (node dx xmin (S i)) l /\
    Rabs (g_lx (base_grid c tol dx dy xmin ymin) i j - l) <= tol * dx.
Proof.
  intros Ht Hx Hy c. rewrite grid_lx by assumption. rewrite node_S. set (x := node dx xmin i). set (y := node dy ymin j).
  destruct up.
  - pose proof (up_edge_x m q dx dy xmin ymin Hx Hy i j 0) as E. fold y x in E. unfold upc in E. fold c in E. rewrite E. rewrite node_S. fold x.
    eexists. split; [|apply len_near; [exact Ht|exact Hx|apply frac_01|reflexivity]]. apply free_line; [exact Hx|]. intros s Hs.
    change c with (upc m q); rewrite up_in; unfold height.
    replace ((m * x + q - (y + 0)) / dy + 0 / dy + ((m * (x + dx) + q - (y + 0)) / dy + 0 / dy - ((m * x + q - (y + 0)) / dy + 0 / dy)) * s) with ((m * (x + s * dx) + q - y) / dy) by (field; lra).
    rewrite div_le by exact Hy. split; lra.
  - pose proof (dn_edge_x m q dx dy xmin ymin Hx Hy i j 0) as E. fold y x in E. unfold dnc in E. fold c in E. rewrite E. rewrite node_S. fold x.
    eexists. split; [|apply len_near; [exact Ht|exact Hx|apply frac_01|reflexivity]]. apply free_line; [exact Hx|]. intros s Hs.
    change c with (dnc m q); rewrite dn_in; unfold height.
    replace (- ((m * x + q - (y + 0)) / dy + 0 / dy) + (- ((m * (x + dx) + q - (y + 0)) / dy + 0 / dy) - - ((m * x + q - (y + 0)) / dy + 0 / dy)) * s) with ((y - (m * (x + s * dx) + q)) / dy) by (field; lra).
    rewrite div_le by exact Hy. split; lra.
Qed.
Lemma plane_col m q up dy x y : 0 < dy -> let c := plane m q 0 up in
  free_len (fun z => in_cond c x z) y (y + dy) (c01 (if up then height m q x y dy else 1 - height m q x y dy) * dy).
Proof.
  intros Hy c. rewrite <- frac_c01. destruct up.
  - apply free_line; [exact Hy|]. intros s Hs. change c with (upc m q); rewrite up_in; unfold height.
    replace ((m * x + q - y) / dy + ((m * x + q - y) / dy - 1 - (m * x + q - y) / dy) * s) with ((m * x + q - (y + s * dy)) / dy) by (field; lra). rewrite div_le by exact Hy. split; lra.
  - rewrite frac_sym. apply free_line; [exact Hy|]. intros s Hs. change c with (dnc m q); rewrite dn_in; unfold height.
    replace (1 - (m * x + q - y) / dy - 1 + (1 - (m * x + q - y) / dy - (1 - (m * x + q - y) / dy - 1)) * s) with ((y + s * dy - (m * x + q)) / dy) by (field; lra). rewrite div_le by exact Hy. split; lra.
Qed.
Lemma plane_y m q up tol dx dy xmin ymin i j : 0 < tol <= /4 -> 0 < dx -> 0 < dy -> let c := plane m q 0 up in
  exists l, free_len (fun y => in_cond c (node dx xmin i) y) (node dy ymin j) (node dy ymin (S j)) l /\
    Rabs (g_ly (base_grid c tol dx dy xmin ymin) i j - l) <= tol * dy.
Proof.
  intros Ht Hx Hy c. rewrite grid_ly by assumption. rewrite node_S. eexists. split; [apply plane_col; exact Hy|].
  destruct up; [pose proof (up_edge_y m q dx dy xmin ymin Hy i j) as E|pose proof (dn_edge_y m q dx dy xmin ymin Hy i j) as E];
    unfold upc, dnc in E; fold c in E; rewrite E; (apply len_near; [exact Ht|exact Hy|apply c01_01|reflexivity]).
Qed.
(** and every cell the area of its free part, in units of dx dy *)
Lemma plane_area m q up tol dx dy xmin ymin i j : 0 < tol <= /4 -> 0 < dx -> 0 < dy -> let c := plane m q 0 up in
  exists h A, (forall x, free_len (fun y => in_cond c x y) (node dy ymin j) (node dy ymin (S j)) (h x)) /\
    is_RInt h (node dx xmin i) (node dx xmin (S i)) A /\ Rabs (g_S (base_grid c tol dx dy xmin ymin) i j * (dx * dy) - A) <= tol * (dx * dy).
Proof.
  intros Ht Hx Hy c. rewrite grid_S by assumption. rewrite !node_S. set (x1 := node dx xmin i). set (y1 := node dy ymin j).
  set (a := if up then height m q x1 y1 dy else 1 - height m q x1 y1 dy). set (b := if up then height m q (x1 + dx) y1 dy else 1 - height m q (x1 + dx) y1 dy).
  exists (fun x => c01 (if up then height m q x y1 dy else 1 - height m q x y1 dy) * dy), (dx * dy * mean_c a b). split; [|split].
  - intros x. apply plane_col. exact Hy.
  - eapply is_RInt_ext; [|apply (free_integral x1 dx dy a b Hx Hy)]. intros x _. cbv beta. rewrite (Rmult_comm dy). f_equal. f_equal. unfold a, b, height. destruct up; field; lra.
  - assert (B : Rabs (area tol (sn tol (edge_x c dx dy xmin ymin i j / dx)) (sn tol (edge_y c dx dy xmin ymin i j / dy))
      (sn tol (edge_x c dx dy xmin ymin i (S j) / dx)) (sn tol (edge_y c dx dy xmin ymin (S i) j / dy)) - mean_c a b) <= tol).
    { destruct up.
      - pose proof (up_edge_y m q dx dy xmin ymin Hy i j) as E1. pose proof (up_edge_y m q dx dy xmin ymin Hy (S i) j) as E2.
        pose proof (up_edge_x m q dx dy xmin ymin Hx Hy i j 0) as E3. pose proof (up_edge_x m q dx dy xmin ymin Hx Hy i (S j) 0) as E4.
        unfold upc in *. fold c in E1, E2, E3, E4. rewrite E1, E2, E3, E4, !node_S. fold x1 y1. fold a b.
        replace (height m q x1 (y1 + 0) dy + 0 / dy) with a by (unfold a, height; field; lra).
        replace (height m q (x1 + dx) (y1 + 0) dy + 0 / dy) with b by (unfold b, height; field; lra).
        replace (height m q x1 (y1 + dy + 0) dy + 0 / dy) with (a - 1) by (unfold a, height; field; lra).
        replace (height m q (x1 + dx) (y1 + dy + 0) dy + 0 / dy) with (b - 1) by (unfold b, height; field; lra).
        apply area_mean. exact Ht.
      - pose proof (dn_edge_y m q dx dy xmin ymin Hy i j) as E1. pose proof (dn_edge_y m q dx dy xmin ymin Hy (S i) j) as E2.
        pose proof (dn_edge_x m q dx dy xmin ymin Hx Hy i j 0) as E3. pose proof (dn_edge_x m q dx dy xmin ymin Hx Hy i (S j) 0) as E4.
        unfold dnc in *. fold c in E1, E2, E3, E4. rewrite E1, E2, E3, E4, !node_S. fold x1 y1. fold a b.
        replace (- (height m q x1 (y1 + 0) dy + 0 / dy)) with (a - 1) by (unfold a, height; field; lra).
        replace (- (height m q (x1 + dx) (y1 + 0) dy + 0 / dy)) with (b - 1) by (unfold b, height; field; lra).
        replace (- (height m q x1 (y1 + dy + 0) dy + 0 / dy)) with a by (unfold a, height; field; lra).
        replace (- (height m q (x1 + dx) (y1 + dy + 0) dy + 0 / dy)) with b by (unfold b, height; field; lra).
        apply area_mean_down. exact Ht. }
    match goal with |- Rabs (?s * _ - _) <= _ => replace (s * (dx * dy) - dx * dy * mean_c a b) with ((s - mean_c a b) * (dx * dy)) by ring end.
    rewrite Rabs_mult, (Rabs_pos_eq (dx * dy)) by nra. apply Rmult_le_compat_r; [nra|exact B].
Qed.

(** ** A rectangle more than two cells wide and high *)
Lemma nearer_lo (p a b : R) : a < b -> a <= p -> p - a < b - p -> nearer p a b = a.
Proof.
  intros H1 H2 H3. unfold nearer. rewrite !nabs_R. destruct (nltb _ _) eqn:E; [reflexivity|].
  apply R_ltb_f in E. cbn [nsub Num_R] in E. rewrite (Rabs_pos_eq (p - a)), (Rabs_left1 (p - b)) in E by lra. lra.
Qed.
Lemma nearer_hi (p a b : R) : a < b -> p <= b -> b - p < p - a -> nearer p a b = b.
Proof.
  intros H1 H2 H3. unfold nearer. rewrite !nabs_R. destruct (nltb _ _) eqn:E; [|reflexivity].
  apply R_ltb in E. cbn [nsub Num_R] in E. rewrite (Rabs_pos_eq (p - a)), (Rabs_left1 (p - b)) in E by lra. lra.
Qed.
(** an edge from p to p + d on a line whose free part is the interval from a to b *)
Lemma gap_edge (inn : R -> bool) a b p d (f : R -> R) : 0 < d -> 2 * d < b - a -> (forall z, inn z = false <-> a < z < b) ->
  (forall z, f z = nearer z a b) ->
  free_len inn p (p + d) (edge_len (inn p) (inn (p + d)) p (p + d) (f (p + d)) (f p) d) /\
  0 <= edge_len (inn p) (inn (p + d)) p (p + d) (f (p + d)) (f p) d <= d.
Proof.
  intros Hd Hb O F.
  assert (I : forall z, inn z = true <-> ~ (a < z < b)).
  { intros z. rewrite <- O. destruct (inn z); split; intros; try congruence. }
  unfold edge_len, free_len. rewrite !F.
  destruct (inn p) eqn:E1; destruct (inn (p + d)) eqn:E2; first [apply I in E1|apply O in E1]; first [apply I in E2|apply O in E2].
  - split; [|cbn; lra]. exists p, p. cbn [nzero Num_R]. repeat split; try lra; intros z Hz; [lra|]. intros K. apply I. intros L. lra.
  - assert (p <= a) by lra. rewrite nearer_lo by lra. rewrite nabs_R. cbn [nsub Num_R]. rewrite Rabs_left1 by lra. split; [|lra].
    exists a, (p + d). repeat split; try lra; intros z Hz; [apply O; lra|]. intros K. apply I. lra.
  - assert (b <= p + d) by lra. rewrite nearer_hi by lra. rewrite nabs_R. cbn [nsub Num_R]. rewrite Rabs_left1 by lra. split; [|lra].
    exists p, b. repeat split; try lra; intros z Hz; [apply O; lra|]. intros K. apply I. lra.
  - split; [|lra]. exists p, (p + d). repeat split; try lra; intros z Hz; [apply O; lra|]. intros K. lra.
Qed.
(** a line that does not meet the free part *)
Lemma full_edge (inn : R -> bool) p d f1 f2 : 0 < d -> (forall z, inn z = true) ->
  free_len inn p (p + d) (edge_len (inn p) (inn (p + d)) p (p + d) f2 f1 d) /\ 0 <= edge_len (inn p) (inn (p + d)) p (p + d) f2 f1 d <= d.
Proof.
  intros Hd O. unfold edge_len. rewrite !O. split; [|cbn; lra]. exists p, p. cbn [nzero Num_R]. repeat split; try lra; intros z Hz; [lra|]. intros K. apply O.
Qed.
Section Rect.
  Context (w h xc yc : R).
  Let c := out_rect w h xc yc.
  Lemma rect_out x y : in_cond c x y = false <-> (xc - w / 2 < x < xc + w / 2 /\ yc - h / 2 < y < yc + h / 2).
  Proof.
    unfold c, out_rect. cbn [in_cond]. rewrite negb_false_iff, !andb_true_iff. unfold half, two.
    rewrite !R_ltb. cbn [none_ nadd nmul ndiv nopp Num_R].
    replace (- (1 / (1 + 1)) * w + xc) with (xc - w / 2) by field. replace (1 / (1 + 1) * w + xc) with (xc + w / 2) by field.
    replace (- (1 / (1 + 1)) * h + yc) with (yc - h / 2) by field. replace (1 / (1 + 1) * h + yc) with (yc + h / 2) by field. tauto.
  Qed.
  Lemma rect_in x y : ~ (xc - w / 2 < x < xc + w / 2 /\ yc - h / 2 < y < yc + h / 2) -> in_cond c x y = true.
  Proof. rewrite <- rect_out. destruct (in_cond c x y); congruence. Qed.
  Lemma rect_ix x y : int_x c x y = Some (nearer x (xc - w / 2) (xc + w / 2)).
  Proof. unfold c, out_rect; cbn [int_x]. f_equal. unfold half, two. cbn [none_ nadd nmul ndiv nopp Num_R]. f_equal; field. Qed.
  Lemma rect_iy x y : int_y c x y = Some (nearer y (yc - h / 2) (yc + h / 2)).
  Proof. unfold c, out_rect; cbn [int_y]. f_equal. unfold half, two. cbn [none_ nadd nmul ndiv nopp Num_R]. f_equal; field. Qed.
End Rect.
Lemma near_len tol d l e : 0 < tol <= /4 -> 0 < d -> 0 <= e <= d -> l = e -> Rabs (sn tol (e / d) * d - l) <= tol * d.
Proof.
  intros Ht Hd He ->. apply len_near; [exact Ht|exact Hd| |field; lra]. split; [apply le_div; lra|apply div_le; lra].
Qed.
Lemma rect_x w h xc yc tol dx dy xmin ymin i j : 0 < tol <= /4 -> 0 < dx -> 0 < dy -> 2 * dx < w -> let c := out_rect w h xc yc in
  exists l, free_len (fun x => in_cond c x (node dy ymin j)) (node dx xmin i) (node dx xmin (S i)) l /\
    Rabs (g_lx (base_grid c tol dx dy xmin ymin) i j - l) <= tol * dx.
Proof.
  intros Ht Hx Hy Hw c. rewrite grid_lx by assumption. unfold edge_x. rewrite node_S. set (x := node dx xmin i). set (y := node dy ymin j).
  set (inn := fun z => in_cond c z y). set (f := fun z => fin (int_x c z y)).
  assert (A : free_len inn x (x + dx) (edge_len (inn x) (inn (x + dx)) x (x + dx) (f (x + dx)) (f x) dx) /\
    0 <= edge_len (inn x) (inn (x + dx)) x (x + dx) (f (x + dx)) (f x) dx <= dx).
  { destruct (Rlt_dec (yc - h / 2) y) as [K|K]; [destruct (Rlt_dec y (yc + h / 2)) as [L|L]|].
    - apply gap_edge with (a := xc - w / 2) (b := xc + w / 2); [exact Hx|lra| |].
      + intros z. unfold inn, c. rewrite rect_out. split; intros; tauto.
      + intros z. unfold f, c. rewrite rect_ix. reflexivity.
    - apply full_edge; [exact Hx|]. intros z. apply rect_in. lra.
    - apply full_edge; [exact Hx|]. intros z. apply rect_in. lra. }
  destruct A as [A B]. eexists. split; [exact A|]. apply near_len; [exact Ht|exact Hx|exact B|reflexivity].
Qed.
Lemma rect_y w h xc yc tol dx dy xmin ymin i j : 0 < tol <= /4 -> 0 < dx -> 0 < dy -> 2 * dy < h -> let c := out_rect w h xc yc in
  exists l, free_len (fun y => in_cond c (node dx xmin i) y) (node dy ymin j) (node dy ymin (S j)) l /\
    Rabs (g_ly (base_grid c tol dx dy xmin ymin) i j - l) <= tol * dy.
Proof.
  intros Ht Hx Hy Hw c. rewrite grid_ly by assumption. unfold edge_y. rewrite node_S. set (x := node dx xmin i). set (y := node dy ymin j).
  set (inn := fun z => in_cond c x z). set (f := fun z => fin (int_y c x z)).
  assert (A : free_len inn y (y + dy) (edge_len (inn y) (inn (y + dy)) y (y + dy) (f (y + dy)) (f y) dy) /\
    0 <= edge_len (inn y) (inn (y + dy)) y (y + dy) (f (y + dy)) (f y) dy <= dy).
  { destruct (Rlt_dec (xc - w / 2) x) as [K|K]; [destruct (Rlt_dec x (xc + w / 2)) as [L|L]|].
    - apply gap_edge with (a := yc - h / 2) (b := yc + h / 2); [exact Hy|lra| |].
      + intros z. unfold inn, c. rewrite rect_out. split; intros; tauto.
      + intros z. unfold f, c. rewrite rect_iy. reflexivity.
    - apply full_edge; [exact Hy|]. intros z. apply rect_in. lra.
    - apply full_edge; [exact Hy|]. intros z. apply rect_in. lra. }
  destruct A as [A B]. eexists. split; [exact A|]. apply near_len; [exact Ht|exact Hy|exact B|reflexivity].
Qed.

(** ** Where a line crosses the boundary of a conductor *)
Definition crossing (inn : R -> bool) (v : R) : Prop :=
  forall e, 0 < e -> exists a b, Rabs (a - v) < e /\ Rabs (b - v) < e /\ inn a = true /\ inn b = false.
Definition nearest_crossing (inn : R -> bool) (x : R) (o : option R) : Prop :=
  exists v, o = Some v /\ crossing inn v /\ forall w, crossing inn w -> Rabs (x - v) <= Rabs (x - w).
Lemma crossing_gap (inn : R -> bool) k a b : a < b -> (forall z, a < z < b -> inn z = k) -> (forall z, z < a \/ b < z -> inn z = negb k) ->
  forall v, crossing inn v <-> (v = a \/ v = b).
Proof.
  intros H I O.
  assert (C : forall u v w, inn u = k -> inn v = negb k -> forall e, Rabs (u - w) < e -> Rabs (v - w) < e ->
    exists p q, Rabs (p - w) < e /\ Rabs (q - w) < e /\ inn p = true /\ inn q = false).
  { intros u v w E1 E2 e R1 R2. destruct k; [exists u, v|exists v, u]; auto. }
  intros v. split.
  - intros X.
    assert (N : forall e b, 0 < e -> (forall z, Rabs (z - v) < e -> inn z = b) -> False).
    { intros e b' He K. destruct (X e He) as (p & q & P & Q & E1 & E2). rewrite K in E1 by exact P. rewrite K in E2 by exact Q. congruence. }
    destruct (Rtotal_order v a) as [V|[V|V]]; [exfalso|left; exact V|].
    + apply (N (a - v) (negb k)); [lra|]. intros z Hz. apply Rabs_def2 in Hz. apply O. lra.
    + destruct (Rtotal_order v b) as [W|[W|W]]; [exfalso|right; exact W|exfalso].
      * apply (N (Rmin (v - a) (b - v)) k); [apply Rmin_glb_lt; lra|]. intros z Hz. pose proof (Rmin_l (v - a) (b - v)). pose proof (Rmin_r (v - a) (b - v)). apply Rabs_def2 in Hz. apply I. lra.
      * apply (N (v - b) (negb k)); [lra|]. intros z Hz. apply Rabs_def2 in Hz. apply O. lra.
  - intros V e He. set (t := Rmin (e / 2) ((b - a) / 2)).
    assert (T : 0 < t /\ t <= e / 2 /\ t <= (b - a) / 2) by (unfold t; repeat split; [apply Rmin_glb_lt; lra|apply Rmin_l|apply Rmin_r]).
    destruct V as [-> | ->].
    + apply (C (a + t) (a - t)); [apply I; lra|apply O; lra| |]; apply Rabs_def1; lra.
    + apply (C (b - t) (b + t)); [apply I; lra|apply O; lra| |]; apply Rabs_def1; lra.
Qed.
Lemma nearer_best (p a b : R) : (nearer p a b = a \/ nearer p a b = b) /\ Rabs (p - nearer p a b) <= Rabs (p - a) /\ Rabs (p - nearer p a b) <= Rabs (p - b).
Proof.
  unfold nearer. rewrite !nabs_R. cbn [nsub Num_R]. destruct (nltb _ _) eqn:E; [apply R_ltb in E|apply R_ltb_f in E]; cbn in *; split; try split; auto; lra.
Qed.
Lemma nearest_gap (inn : R -> bool) k a b x : a < b -> (forall z, a < z < b -> inn z = k) -> (forall z, z < a \/ b < z -> inn z = negb k) ->
  nearest_crossing inn x (Some (nearer x a b)).
Proof.
  intros H I O. pose proof (crossing_gap inn k a b H I O) as C. destruct (nearer_best x a b) as (N & L1 & L2).
  exists (nearer x a b). split; [reflexivity|]. split; [apply C; exact N|]. intros w W. apply C in W. destruct W as [-> | ->]; assumption.
Qed.
Lemma nearer_swap (p a b : R) : nearer p b a = nearer p a b \/ Rabs (p - nearer p b a) = Rabs (p - nearer p a b).
Proof.
  unfold nearer. rewrite !nabs_R. cbn [nsub Num_R]. destruct (nltb (Rabs (p - b)) _) eqn:E1; destruct (nltb (Rabs (p - a)) _) eqn:E2;
   try apply R_ltb in E1; try apply R_ltb_f in E1; try apply R_ltb in E2; try apply R_ltb_f in E2; auto; right; lra.
Qed.
Lemma nearest_gap' (inn : R -> bool) k a b x : a < b -> (forall z, a < z < b -> inn z = k) -> (forall z, z < a \/ b < z -> inn z = negb k) ->
  nearest_crossing inn x (Some (nearer x b a)).
Proof.
  intros H I O. pose proof (crossing_gap inn k a b H I O) as C. destruct (nearer_best x b a) as (N & L1 & L2).
  exists (nearer x b a). split; [reflexivity|]. split; [apply C; tauto|]. intros w W. apply C in W. destruct W as [-> | ->]; assumption.
Qed.
(** a single crossing *)
Lemma nearest_step (inn : R -> bool) k v x : (forall z, z < v -> inn z = k) -> (forall z, v < z -> inn z = negb k) -> nearest_crossing inn x (Some v).
Proof.
  intros I O. exists v. split; [reflexivity|]. split.
  - intros e He. destruct k; [exists (v - e / 2), (v + e / 2)|exists (v + e / 2), (v - e / 2)];
      (repeat split; [apply Rabs_def1; lra|apply Rabs_def1; lra|first [apply I; lra|apply O; lra]|first [apply I; lra|apply O; lra]]).
  - intros w X. destruct (Rtotal_order w v) as [W|[W|W]]; [exfalso|rewrite W; lra|exfalso].
    + destruct (X (v - w)) as (p & q & P & Q & E1 & E2); [lra|]. apply Rabs_def2 in P. apply Rabs_def2 in Q. rewrite I in E1 by lra. rewrite I in E2 by lra. congruence.
    + destruct (X (w - v)) as (p & q & P & Q & E1 & E2); [lra|]. apply Rabs_def2 in P. apply Rabs_def2 in Q. rewrite O in E1 by lra. rewrite O in E2 by lra. congruence.
Qed.
(** half a chord of a circle *)
Lemma chord r u z : 0 < r -> Rabs u < r -> let w := sqrt (r * r - u * u) in 0 < w /\ (z * z + u * u < r * r <-> - w < z < w) /\ (r * r < z * z + u * u <-> z < - w \/ w < z).
Proof.
  intros Hr Hu w. apply Rabs_def2 in Hu. assert (W : w * w = r * r - u * u) by (apply sqrt_sqrt; nra).
  assert (P : 0 < w) by (apply sqrt_lt_R0; nra). split; [exact P|].
  split; split; intros K.
  - split; apply Rnot_le_lt; intros L; nra.
  - destruct K. nra.
  - destruct (Rlt_dec z (- w)); [left; assumption|]. right. apply Rnot_le_lt. intros L. nra.
  - destruct K; nra.
Qed.
