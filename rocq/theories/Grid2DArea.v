(** Edges and areas of cells cut by a straight conductor, over the reals. *)
From Coq Require Import List Arith ZArith Bool String Lia Reals Lra Psatz.
From Coquelicot Require Import Coquelicot.
From Verif Require Import Num Vec FieldModel GridModel SolverModel SolverCons WakeModel WakeNum Grid2DModel.
Import ListNotations.
Local Open Scope R_scope.

Lemma nabs_R (x : R) : nabs x = Rabs x.
Proof. unfold nabs. cbn. unfold Rabs. destruct (Rlt_dec x 0), (Rcase_abs x); try reflexivity; lra. Qed.
Lemma close_R tol a b : close (T := R) tol a b = true <-> Rabs (a - b) < tol.
Proof. unfold close. rewrite nabs_R. apply R_ltb. Qed.
Lemma close_Rf tol a b : close (T := R) tol a b = false <-> tol <= Rabs (a - b).
Proof. unfold close. rewrite nabs_R. apply R_ltb_f. Qed.

(** ** Classes of snapped lengths *)
Inductive cls := Z0 | M | O1.
Definition cl (tol v : R) (c : cls) : Prop := match c with Z0 => v = 0 | M => tol <= v <= 1 - tol | O1 => v = 1 end.
Definition isz (c : cls) : bool := match c with Z0 => true | _ => false end.
Definition iso (c : cls) : bool := match c with O1 => true | _ => false end.
Lemma close_z tol v c : 0 < tol <= /4 -> cl tol v c -> close tol v 0 = isz c.
Proof.
  intros Ht H. destruct c; cbn in *.
  - subst. apply close_R. rewrite Rminus_0_r, Rabs_R0. lra.
  - apply close_Rf. rewrite Rminus_0_r, Rabs_pos_eq; lra.
  - subst. apply close_Rf. rewrite Rminus_0_r, Rabs_R1. lra.
Qed.
Lemma close_o tol v c : 0 < tol <= /4 -> cl tol v c -> close tol v 1 = iso c.
Proof.
  intros Ht H. destruct c; cbn in *.
  - subst. apply close_Rf. rewrite Rabs_left; lra.
  - apply close_Rf. rewrite Rabs_left; lra.
  - subst. apply close_R. rewrite Rminus_eq_0, Rabs_R0; lra.
Qed.
Lemma part_c tol v c : 0 < tol <= /4 -> cl tol v c -> part v = negb (isz c).
Proof.
  intros Ht H. unfold part, nleb. destruct c; cbn in *; destruct (Rlt_dec 0 v), (Rlt_dec 1 v); cbn; try reflexivity; exfalso; lra.
Qed.
Definition area_c (cb c_l ct cr : cls) (b l t r : R) : R :=
  let n (x : bool) : nat := (if x then 1 else 0)%nat in
  let cut u v := 1 - /2 * (1 - u) * (1 - v) in
  let z := isz in let o := iso in
  if (3 <=? n (o cb) + n (o c_l) + n (o ct) + n (o cr))%nat then 1
  else if z cb && negb (z c_l) && negb (z ct) && negb (z cr) then /2 * (l + r) * t
  else if z ct && negb (z c_l) && negb (z cb) && negb (z cr) then /2 * (l + r) * b
  else if z c_l && negb (z cb) && negb (z ct) && negb (z cr) then /2 * (b + t) * r
  else if z cr && negb (z cb) && negb (z c_l) && negb (z ct) then /2 * (b + t) * l
  else if z cb && z c_l && negb (z ct) && negb (z cr) then /2 * t * r
  else if z cb && z cr && negb (z ct) && negb (z c_l) then /2 * t * l
  else if z ct && z cr && negb (z cb) && negb (z c_l) then /2 * b * l
  else if z ct && z c_l && negb (z cb) && negb (z cr) then /2 * b * r
  else if negb (z cb) && negb (z c_l) && o ct && o cr then cut b l
  else if negb (z cb) && negb (z cr) && o ct && o c_l then cut b r
  else if negb (z ct) && negb (z cr) && o cb && o c_l then cut t r
  else if negb (z ct) && negb (z c_l) && o cb && o cr then cut t l
  else 0.
Lemma half_R : half (T := R) = / 2.
Proof. unfold half, two. cbn. field. Qed.
Lemma area_classes tol b l t r cb c_l ct cr : 0 < tol <= /4 -> cl tol b cb -> cl tol l c_l -> cl tol t ct -> cl tol r cr ->
  area tol b l t r = area_c cb c_l ct cr b l t r.
Proof.
  intros Ht Hb Hl Hc Hr. unfold area, area_c. change (@nzero R Num_R) with 0. change (@none_ R Num_R) with 1. rewrite half_R.
  rewrite (close_z tol b cb Ht Hb), (close_z tol l c_l Ht Hl), (close_z tol t ct Ht Hc), (close_z tol r cr Ht Hr).
  rewrite (close_o tol b cb Ht Hb), (close_o tol l c_l Ht Hl), (close_o tol t ct Ht Hc), (close_o tol r cr Ht Hr).
  rewrite (part_c tol b cb Ht Hb), (part_c tol l c_l Ht Hl), (part_c tol t ct Ht Hc), (part_c tol r cr Ht Hr). reflexivity.
Qed.
Definition sn (tol r : R) : R := if Rlt_dec (Rabs r) tol then 0 else if Rlt_dec (Rabs (r - 1)) tol then 1 else r.
Lemma sn_cls tol v : 0 < tol <= /4 -> 0 <= v <= 1 -> exists c, cl tol (sn tol v) c /\ Rabs (sn tol v - v) <= tol /\ 0 <= sn tol v <= 1.
Proof.
  intros Ht Hv. unfold sn. rewrite Rabs_pos_eq by lra. destruct (Rlt_dec v tol); [exists Z0; cbn; split; [reflexivity|]; split; [rewrite Rabs_left1|]; lra|].
  rewrite Rabs_left1 by lra. destruct (Rlt_dec (- (v - 1)) tol); [exists O1; cbn; split; [reflexivity|]; split; [rewrite Rabs_pos_eq|]; lra|].
  exists M. cbn. split; [lra|]. split; [rewrite Rminus_eq_0, Rabs_R0; lra|lra].
Qed.
Lemma sn_0 tol : 0 < tol -> sn tol 0 = 0.
Proof. intros H. unfold sn. rewrite Rabs_R0. destruct (Rlt_dec 0 tol); [reflexivity|lra]. Qed.
Lemma sn_1 tol : 0 < tol <= /4 -> sn tol 1 = 1.
Proof. intros H. unfold sn. rewrite Rabs_R1, Rminus_eq_0, Rabs_R0. destruct (Rlt_dec 1 tol); [lra|]. destruct (Rlt_dec 0 tol); [reflexivity|lra]. Qed.
Lemma snap_sn tol d l : snap_len tol d l = sn tol (l / d) * d.
Proof. unfold snap_len, sn. rewrite !nabs_R. cbn. destruct (Rlt_dec _ _); [reflexivity|]. destruct (Rlt_dec _ _); reflexivity. Qed.

(** ** The free part of a unit cell under a line from height a (left) to height b (right) *)
Definition c01 (u : R) : R := Rmax 0 (Rmin 1 u).
Definition prim (u : R) : R := if Rlt_dec u 0 then 0 else if Rlt_dec u 1 then u * u / 2 else u - /2.
Definition mean_c (a b : R) : R := if Req_EM_T a b then c01 a else (prim b - prim a) / (b - a).
(** the part of the unit interval where u + (v - u) s > 0 *)
Definition frac (u v : R) : R := if Rlt_dec 0 u then (if Rlt_dec 0 v then 1 else u / (u - v)) else (if Rlt_dec 0 v then v / (v - u) else 0).
Lemma frac_sym u v : frac u v = frac v u.
Proof. unfold frac. destruct (Rlt_dec 0 u), (Rlt_dec 0 v); reflexivity. Qed.
Lemma mean_sym a b : mean_c a b = mean_c b a.
Proof. unfold mean_c. destruct (Req_EM_T a b), (Req_EM_T b a); subst; try reflexivity; try contradiction. field. split; lra. Qed.
Lemma frac_01 u v : 0 <= frac u v <= 1.
Proof.
  unfold frac. destruct (Rlt_dec 0 u), (Rlt_dec 0 v); try lra.
  - split; [apply Rmult_le_pos; [lra|left; apply Rinv_0_lt_compat; lra]|]. apply (Rmult_le_reg_r (u - v)); [lra|]. replace (u / (u - v) * (u - v)) with u by (field; lra). lra.
  - split; [apply Rmult_le_pos; [lra|left; apply Rinv_0_lt_compat; lra]|]. apply (Rmult_le_reg_r (v - u)); [lra|]. replace (v / (v - u) * (v - u)) with v by (field; lra). lra.
Qed.
Lemma c01_01 u : 0 <= c01 u <= 1.
Proof. unfold c01, Rmax, Rmin. destruct (Rle_dec 1 u); destruct (Rle_dec 0 _); lra. Qed.
Lemma prod_err x y u v e : 0 <= x <= 1 -> 0 <= v <= 1 -> Rabs (x - u) <= e -> Rabs (y - v) <= e -> Rabs (x * y - u * v) <= 2 * e.
Proof.
  intros Hx Hv H1 H2. replace (x * y - u * v) with (x * (y - v) + v * (x - u)) by ring.
  eapply Rle_trans; [apply Rabs_triang|]. rewrite !Rabs_mult, (Rabs_pos_eq x), (Rabs_pos_eq v) by lra.
  pose proof (Rabs_pos (x - u)). pose proof (Rabs_pos (y - v)). nra.
Qed.

Lemma area_lr tol b l t r cb c_l ct cr : 0 < tol <= /4 -> cl tol b cb -> cl tol l c_l -> cl tol t ct -> cl tol r cr ->
  area tol b l t r = area tol b r t l.
Proof.
  intros Ht Hb Hl Hc Hr. rewrite (area_classes tol b l t r cb c_l ct cr), (area_classes tol b r t l cb cr ct c_l) by assumption.
  destruct cb, c_l, ct, cr; cbn in *; subst; try reflexivity; try lra.
Qed.
Lemma area_bt tol b l t r cb c_l ct cr : 0 < tol <= /4 -> cl tol b cb -> cl tol l c_l -> cl tol t ct -> cl tol r cr ->
  area tol b l t r = area tol t l b r.
Proof.
  intros Ht Hb Hl Hc Hr. rewrite (area_classes tol b l t r cb c_l ct cr), (area_classes tol t l b r ct c_l cb cr) by assumption.
  destruct cb, c_l, ct, cr; cbn in *; subst; try reflexivity; try lra.
Qed.

Lemma cl_0 tol c : 0 < tol -> cl tol 0 c -> c = Z0.
Proof. destruct c; cbn; intros; try reflexivity; lra. Qed.
Lemma cl_1 tol c : 0 < tol -> cl tol 1 c -> c = O1.
Proof. destruct c; cbn; intros; try reflexivity; lra. Qed.
Lemma c01_low u : u <= 0 -> c01 u = 0.
Proof. intros. unfold c01, Rmax, Rmin. destruct (Rle_dec 1 u); destruct (Rle_dec 0 _); lra. Qed.
Lemma c01_mid u : 0 <= u <= 1 -> c01 u = u.
Proof. intros. unfold c01, Rmax, Rmin. destruct (Rle_dec 1 u); destruct (Rle_dec 0 _); lra. Qed.
Lemma c01_high u : 1 <= u -> c01 u = 1.
Proof. intros. unfold c01, Rmax, Rmin. destruct (Rle_dec 1 u); destruct (Rle_dec 0 _); lra. Qed.
Lemma prim_low u : u <= 0 -> prim u = 0.
Proof. intros. unfold prim. destruct (Rlt_dec u 0); [reflexivity|]. destruct (Rlt_dec u 1); [|lra]. replace u with 0 by lra. field. Qed.
Lemma prim_mid u : 0 <= u <= 1 -> prim u = u * u / 2.
Proof. intros. unfold prim. destruct (Rlt_dec u 0); [lra|]. destruct (Rlt_dec u 1); [reflexivity|]. replace u with 1 by lra. field. Qed.
Lemma prim_high u : 1 <= u -> prim u = u - /2.
Proof. intros. unfold prim. destruct (Rlt_dec u 0); [lra|]. destruct (Rlt_dec u 1); lra. Qed.
Lemma frac_00 u v : u <= 0 -> v <= 0 -> frac u v = 0.
Proof. intros. unfold frac. destruct (Rlt_dec 0 u), (Rlt_dec 0 v); lra. Qed.
Lemma frac_01' u v : u <= 0 -> 0 < v -> frac u v = v / (v - u).
Proof. intros. unfold frac. destruct (Rlt_dec 0 u), (Rlt_dec 0 v); lra. Qed.
Lemma frac_11 u v : 0 < u -> 0 < v -> frac u v = 1.
Proof. intros. unfold frac. destruct (Rlt_dec 0 u), (Rlt_dec 0 v); lra. Qed.
Lemma mean_eq a b v : a < b -> (b - a) * v = prim b - prim a -> mean_c a b = v.
Proof. intros H E. unfold mean_c. destruct (Req_EM_T a b); [lra|]. rewrite <- E. field. lra. Qed.
Ltac absb := match goal with H : Rabs (?x - ?y) <= ?e |- _ => apply Rabs_le_between in H end.

Lemma area_mean_le tol a b : 0 < tol <= /4 -> a <= b ->
  Rabs (area tol (sn tol (frac a b)) (sn tol (c01 a)) (sn tol (frac (a - 1) (b - 1))) (sn tol (c01 b)) - mean_c a b) <= tol.
Proof.
  intros Ht Hab.
  destruct (sn_cls tol (frac a b) Ht (frac_01 _ _)) as (cb & Hb & Eb & Bb).
  destruct (sn_cls tol (c01 a) Ht (c01_01 _)) as (c_l & Hl & El & Bl).
  destruct (sn_cls tol (frac (a - 1) (b - 1)) Ht (frac_01 _ _)) as (ct & Hc & Ec & Bc).
  destruct (sn_cls tol (c01 b) Ht (c01_01 _)) as (cr & Hr & Er & Br).
  rewrite (area_classes _ _ _ _ _ cb c_l ct cr) by assumption.
  pose proof (frac_01 a b) as F1. pose proof (frac_01 (a - 1) (b - 1)) as F2.
  destruct (Rle_dec b 0) as [B0|B0]; [|destruct (Rle_dec a 0) as [A0|A0]; [destruct (Rle_dec b 1) as [B1|B1]|destruct (Rle_dec a 1) as [A1|A1]; [destruct (Rle_dec b 1) as [B1|B1]|]]].
  - (* all in *)
    assert (mean_c a b = 0) as ->.
    { destruct (Req_dec a b) as [->|N]; [unfold mean_c; destruct (Req_EM_T b b); [apply c01_low; lra|lra]|].
      apply mean_eq; [lra|]. rewrite !prim_low by lra. ring. }
    rewrite (frac_00 a b), (frac_00 (a - 1) (b - 1)), (c01_low a), (c01_low b), !sn_0 in * by lra.
    apply cl_0 in Hb, Hl, Hc, Hr; try lra. subst. cbn. rewrite Rminus_0_r, Rabs_R0. lra.
  - (* only the lower right corner free *)
    rewrite (c01_low a), (frac_00 (a - 1) (b - 1)), !sn_0 in * by lra. apply cl_0 in Hl, Hc; try lra. subst c_l ct.
    assert (mean_c a b = /2 * (frac a b * c01 b)) as ->.
    { apply mean_eq; [lra|]. rewrite (prim_low a), (prim_mid b), (c01_mid b), (frac_01' a b) by lra. field. lra. }
    pose proof (prod_err _ _ _ _ tol Bb (c01_01 b) Eb Er) as PE. pose proof (c01_01 b) as F3. set (x := sn tol (frac a b)) in *. set (y := sn tol (c01 b)) in *.
    assert (X : Rabs (/2 * x * y - /2 * (frac a b * c01 b)) <= tol).
    { replace (/2 * x * y - /2 * (frac a b * c01 b)) with (/2 * (x * y - frac a b * c01 b)) by ring. rewrite Rabs_mult, (Rabs_pos_eq (/2)) by lra. lra. }
    destruct cb, cr; cbn in Hb, Hr |- *; try exact X; rewrite ?Hb, ?Hr in X; rewrite ?Rmult_0_r, ?Rmult_0_l in X; try exact X; rewrite Hb, Hr; exact X.
  - (* left edge in, right edge free *)
    rewrite (c01_low a), (c01_high b), sn_0, sn_1 in * by lra. apply cl_0 in Hl; [|lra]. apply cl_1 in Hr; [|lra]. subst c_l cr.
    assert (mean_c a b = /2 * (frac a b + frac (a - 1) (b - 1))) as ->.
    { apply mean_eq; [lra|]. rewrite (prim_low a), (prim_high b), (frac_01' a b), (frac_01' (a - 1) (b - 1)) by lra. field. lra. }
    set (x := sn tol (frac a b)) in *. set (y := sn tol (frac (a - 1) (b - 1))) in *. apply Rabs_le_between in Eb, Ec. apply Rabs_le_between.
    destruct cb, ct; cbn in Hb, Hc |- *; lra.
  - (* top in, bottom free *)
    rewrite (frac_11 a b), (frac_00 (a - 1) (b - 1)), (c01_mid a), (c01_mid b), sn_0, sn_1 in * by lra. apply cl_1 in Hb; [|lra]. apply cl_0 in Hc; [|lra]. subst cb ct.
    assert (mean_c a b = /2 * (a + b)) as ->.
    { destruct (Req_dec a b) as [->|N]; [unfold mean_c; destruct (Req_EM_T b b); [rewrite c01_mid; lra|lra]|].
      apply mean_eq; [lra|]. rewrite !prim_mid by lra. field. }
    set (x := sn tol a) in *. set (y := sn tol b) in *. apply Rabs_le_between in El, Er. apply Rabs_le_between.
    destruct c_l, cr; cbn in Hl, Hr |- *; lra.
  - (* only the upper left corner in *)
    rewrite (frac_11 a b), (c01_high b), (c01_mid a), sn_1 in * by lra. apply cl_1 in Hb, Hr; try lra. subst cb cr.
    assert (mean_c a b = 1 - /2 * ((1 - frac (a - 1) (b - 1)) * (1 - a))) as ->.
    { apply mean_eq; [lra|]. rewrite (prim_mid a), (prim_high b), (frac_01' (a - 1) (b - 1)) by lra. field. lra. }
    set (x := sn tol a) in *. set (y := sn tol (frac (a - 1) (b - 1))) in *.
    assert (PE : Rabs ((1 - y) * (1 - x) - (1 - frac (a - 1) (b - 1)) * (1 - a)) <= 2 * tol).
    { apply prod_err; try lra; rewrite <- Rabs_Ropp; [replace (- (1 - y - (1 - frac (a - 1) (b - 1)))) with (y - frac (a - 1) (b - 1)) by ring|replace (- (1 - x - (1 - a))) with (x - a) by ring]; assumption. }
    apply Rabs_le_between in PE. apply Rabs_le_between.
    clearbody x y. destruct c_l, ct; cbn in Hl, Hc |- *; try rewrite Hl in PE; try rewrite Hc in PE; try rewrite Hl; try rewrite Hc; lra.
  - rewrite (frac_11 a b), (frac_11 (a - 1) (b - 1)), (c01_high a), (c01_high b), !sn_1 in * by lra. apply cl_1 in Hb, Hl, Hc, Hr; try lra. subst.
    assert (mean_c a b = 1) as ->.
    { destruct (Req_dec a b) as [->|N]; [unfold mean_c; destruct (Req_EM_T b b); [apply c01_high; lra|lra]|].
      apply mean_eq; [lra|]. rewrite !prim_high by lra. ring. }
    cbn. rewrite Rminus_eq_0, Rabs_R0. lra.
Qed.
Lemma area_mean tol a b : 0 < tol <= /4 ->
  Rabs (area tol (sn tol (frac a b)) (sn tol (c01 a)) (sn tol (frac (a - 1) (b - 1))) (sn tol (c01 b)) - mean_c a b) <= tol.
Proof.
  intros Ht. destruct (Rle_dec a b); [apply area_mean_le; assumption|].
  destruct (sn_cls tol (frac a b) Ht (frac_01 _ _)) as (cb & Hb & _).
  destruct (sn_cls tol (c01 a) Ht (c01_01 _)) as (c_l & Hl & _).
  destruct (sn_cls tol (frac (a - 1) (b - 1)) Ht (frac_01 _ _)) as (ct & Hc & _).
  destruct (sn_cls tol (c01 b) Ht (c01_01 _)) as (cr & Hr & _).
  rewrite (area_lr tol _ _ _ _ cb c_l ct cr) by assumption. rewrite (frac_sym a b), (frac_sym (a - 1) (b - 1)), mean_sym. apply area_mean_le; lra.
Qed.
Lemma area_mean_down tol a b : 0 < tol <= /4 ->
  Rabs (area tol (sn tol (frac (a - 1) (b - 1))) (sn tol (c01 a)) (sn tol (frac a b)) (sn tol (c01 b)) - mean_c a b) <= tol.
Proof.
  intros Ht.
  destruct (sn_cls tol (frac a b) Ht (frac_01 _ _)) as (cb & Hb & _).
  destruct (sn_cls tol (c01 a) Ht (c01_01 _)) as (c_l & Hl & _).
  destruct (sn_cls tol (frac (a - 1) (b - 1)) Ht (frac_01 _ _)) as (ct & Hc & _).
  destruct (sn_cls tol (c01 b) Ht (c01_01 _)) as (cr & Hr & _).
  rewrite (area_bt tol _ _ _ _ ct c_l cb cr) by assumption. apply area_mean. exact Ht.
Qed.

(** ** The integral *)
Lemma prim_step u h : Rabs (prim (u + h) - prim u - h * c01 u) <= h * h.
Proof.
  apply Rabs_le_between. unfold prim, c01, Rmax, Rmin.
  destruct (Rlt_dec (u + h) 0), (Rlt_dec u 0), (Rlt_dec (u + h) 1), (Rlt_dec u 1), (Rle_dec 1 u); destruct (Rle_dec 0 _); try (exfalso; lra); try (split; nra).
Qed.
Lemma prim_derive u : is_derive prim u (c01 u).
Proof.
  apply is_derive_Reals. intros eps He. exists (mkposreal eps He). intros h Hh Hd. cbn in Hd.
  replace ((prim (u + h) - prim u) / h - c01 u) with ((prim (u + h) - prim u - h * c01 u) / h) by (field; exact Hh).
  unfold Rdiv. rewrite Rabs_mult, Rabs_inv. apply (Rmult_lt_reg_r (Rabs h)); [apply Rabs_pos_lt; exact Hh|]. rewrite Rmult_assoc, Rinv_l, Rmult_1_r by (apply Rabs_no_R0; exact Hh).
  eapply Rle_lt_trans; [apply prim_step|]. rewrite <- (Rabs_pos_eq (h * h)) by nra. rewrite Rabs_mult. pose proof (Rabs_pos_lt h Hh). nra.
Qed.
Lemma c01_cont u : continuous c01 u.
Proof.
  apply continuity_pt_filterlim. intros eps He. exists eps. split; [exact He|]. intros x [_ Hx]. cbn in *. unfold R_dist in *. eapply Rle_lt_trans; [|exact Hx].
  unfold c01, Rmax, Rmin. destruct (Rle_dec 1 x), (Rle_dec 1 u); repeat (match goal with |- context [Rle_dec ?p ?q] => destruct (Rle_dec p q) end); unfold Rabs; repeat (match goal with |- context [Rcase_abs ?p] => destruct (Rcase_abs p) end); lra.
Qed.
(** under the line through (x1, y1 + a dy) and (x1 + dx, y1 + b dy), within the cell *)
Lemma free_integral x1 dx dy a b : 0 < dx -> 0 < dy ->
  is_RInt (fun x => dy * c01 (a + (b - a) * ((x - x1) / dx))) x1 (x1 + dx) (dx * dy * mean_c a b).
Proof.
  intros Hx Hy. unfold mean_c. destruct (Req_EM_T a b) as [<-|N].
  - pose proof (is_RInt_const (V := R_NormedModule) x1 (x1 + dx) (dy * c01 a)) as K.
    replace (dx * dy * c01 a) with ((x1 + dx - x1) * (dy * c01 a)) by ring.
    eapply is_RInt_ext; [|exact K]. intros x _. cbn. do 2 f_equal. ring.
  - set (G := fun x => dx * dy / (b - a) * prim (a + (b - a) * ((x - x1) / dx))).
    replace (dx * dy * ((prim b - prim a) / (b - a))) with (minus (G (x1 + dx)) (G x1)).
    2:{ unfold G, minus, plus, opp; cbn. replace (a + (b - a) * ((x1 + dx - x1) / dx)) with b by (field; lra). replace (a + (b - a) * ((x1 - x1) / dx)) with a by (field; lra). field. lra. }
    apply (is_RInt_derive G).
    + intros x _. unfold G. replace (dy * c01 (a + (b - a) * ((x - x1) / dx))) with (dx * dy / (b - a) * ((b - a) / dx * c01 (a + (b - a) * ((x - x1) / dx)))) by (field; lra).
      apply is_derive_scal. apply (is_derive_comp prim (fun x => a + (b - a) * ((x - x1) / dx)) x); [apply prim_derive|]. auto_derive; [exact I|field; lra].
    + intros x _. apply (continuous_scal_r dy (fun x => c01 (a + (b - a) * ((x - x1) / dx)))). apply (continuous_comp (fun x => a + (b - a) * ((x - x1) / dx)) c01); [|apply c01_cont].
      apply (ex_derive_continuous (fun x => a + (b - a) * ((x - x1) / dx))). auto_derive. exact I.
Qed.
