(** The area of the free part of a face cut by a half space. *)
From Coq Require Import List Arith ZArith Bool String Lia Reals Lra Psatz.
From Coquelicot Require Import Coquelicot.
From Verif Require Import Num Vec FieldModel GridModel SolverModel SolverCons WakeModel WakeNum Grid2DModel Grid2DArea Grid2DCut Grid3DModel Grid3DProofs.
Import ListNotations.
Local Open Scope R_scope.

(** the number the grid stores for the face with corner u0, v0, from the lengths of its four edges *)
Definition face_S (tol du dv : R) (inn : R -> R -> bool) (fu fv : R -> R -> option R) (u0 v0 : R) : R :=
  let eu v := sn tol (edge1 (fun t => inn t v) (fun t => fu t v) u0 du / du) in
  let ev u := sn tol (edge1 (inn u) (fv u) v0 dv / dv) in
  area tol (eu v0) (ev u0) (eu (v0 + dv)) (ev (u0 + du)).
(** the area of the free part: on each line across the face the free part has length h u, and the area is the integral of h *)
Definition face_area (inn : R -> R -> bool) (u0 v0 du dv A : R) : Prop :=
  exists h, (forall u, free_len (inn u) v0 (v0 + dv) (h u)) /\ is_RInt h u0 (u0 + du) A.

Lemma bool_ext (a b : bool) : (a = true <-> b = true) -> a = b.
Proof. destruct a, b; intuition congruence. Qed.
Lemma edge_len_same (e : bool) p1 p2 f1 f2 g1 g2 d : edge_len (T := R) e e p1 p2 f2 f1 d = edge_len e e p1 p2 g2 g1 d.
Proof. unfold edge_len. destruct e; reflexivity. Qed.

Section Half.
  Context (tol du dv a b s : R) (inn : R -> R -> bool) (fu fv : R -> R -> option R) (Ht : 0 < tol <= /4) (Hu : 0 < du) (Hv : 0 < dv)
    (I : forall u v, inn u v = true <-> a * u + b * v + s <= 0)
    (Fu : a <> 0 -> forall u v, fu u v = Some (- (b * v + s) / a)) (Fv : b <> 0 -> forall u v, fv u v = Some (- (a * u + s) / b)).

  Lemma half_face_b u0 v0 : b <> 0 -> exists A, face_area inn u0 v0 du dv A /\ Rabs (face_S tol du dv inn fu fv u0 v0 * (du * dv) - A) <= tol * (du * dv).
  Proof.
    intros B. set (m := - a / b). set (q := - s / b). set (up := if Rlt_dec b 0 then true else false). set (c := plane m q 0 up).
    assert (J : forall u v, in_cond c u v = inn u v).
    { intros u v. apply bool_ext. rewrite I. assert (E : a * u + b * v + s = b * (v - (m * u + q))) by (unfold m, q; field; exact B). rewrite E. unfold c, up.
      destruct (Rlt_dec b 0) as [N|N]; [change (plane m q 0 true) with (upc m q); rewrite up_in|change (plane m q 0 false) with (dnc m q); rewrite dn_in]; split; intros; nra. }
    assert (N0 : node du u0 0 = u0 /\ node dv v0 0 = v0 /\ node du u0 1 = u0 + du /\ node dv v0 1 = v0 + dv).
    { unfold node. cbn. repeat split; ring. }
    destruct N0 as (N1 & N2 & N3 & N4).
    assert (Ex : forall j v, node dv v0 j = v -> edge_x c du dv u0 v0 0 j = edge1 (fun t => inn t v) (fun t => fu t v) u0 du).
    { intros j v E. unfold edge_x, edge1. rewrite E, N1, N3, !J. destruct (Req_dec a 0) as [Z|Z].
      - assert (inn (u0 + du) v = inn u0 v) as ->; [|apply edge_len_same]. apply bool_ext. rewrite !I, Z. lra.
      - unfold c, plane. cbn [int_x fin nsub ndiv Num_R]. rewrite !Fu by exact Z. cbn [fin].
        replace (v / m - q / m) with (- (b * v + s) / a); [reflexivity|]. unfold m, q. field. split; assumption. }
    assert (Ey : forall i u, node du u0 i = u -> edge_y c du dv u0 v0 i 0 = edge1 (inn u) (fv u) v0 dv).
    { intros i u E. unfold edge_y, edge1. rewrite E, N2, N4, !J. unfold c, plane. cbn [int_y fin nadd nmul Num_R]. rewrite !Fv by exact B. cbn [fin].
      replace (m * u + q) with (- (a * u + s) / b); [reflexivity|]. unfold m, q. field. exact B. }
    destruct (plane_area m q up tol du dv u0 v0 0 0 Ht Hu Hv) as (h & A & H1 & H2 & H3). fold c in H1, H3. rewrite grid_S in H3 by assumption.
    rewrite (Ex 0%nat v0 N2), (Ex 1%nat (v0 + dv) N4), (Ey 0%nat u0 N1), (Ey 1%nat (u0 + du) N3) in H3. rewrite N2, N4 in H1. rewrite N1, N3 in H2.
    exists A. split; [|exact H3]. exists h. split; [|exact H2]. intros u. destruct (H1 u) as (p & p' & K). exists p, p'. decompose [and] K. repeat split; try assumption.
    - intros z Hz. rewrite <- J. auto.
    - intros z Hz D. rewrite <- J. auto.
  Qed.
  Lemma half_face_0 u0 v0 : b = 0 -> exists A, face_area inn u0 v0 du dv A /\ Rabs (face_S tol du dv inn fu fv u0 v0 * (du * dv) - A) <= tol * (du * dv).
  Proof.
    intros B.
    assert (C : forall u v v', inn u v = inn u v') by (intros; apply bool_ext; rewrite !I, B; lra).
    assert (X : forall v, edge_ok (fun t => inn t v) (fun t => fu t v) u0 du).
    { intros v. apply (half_line _ _ a 0 s); [exact Hu| |].
      - intros z. rewrite I, B. lra.
      - intros Z z. rewrite Fu by exact Z. f_equal. rewrite B. field. exact Z. }
    assert (X1 : forall v, edge1 (fun t => inn t v) (fun t => fu t v) u0 du = edge1 (fun t => inn t v0) (fun t => fu t v0) u0 du).
    { intros v. unfold edge1. rewrite (C u0 v v0), (C (u0 + du) v v0). destruct (Req_dec a 0) as [Z|Z].
      - assert (inn (u0 + du) v0 = inn u0 v0) as ->; [|apply edge_len_same]. apply bool_ext. rewrite !I, Z. lra.
      - rewrite !Fu by exact Z. cbn [fin]. replace (b * v + s) with (b * v0 + s) by (rewrite B; ring). reflexivity. }
    assert (Y : forall u, edge1 (inn u) (fv u) v0 dv = if inn u v0 then 0 else dv).
    { intros u. unfold edge1, edge_len. rewrite (C u (v0 + dv) v0). destruct (inn u v0); reflexivity. }
    destruct (X v0) as [(p & q & P1 & P2 & P3 & P4 & P5) P6]. set (l := edge1 (fun t => inn t v0) (fun t => fu t v0) u0 du) in *.
    exists (l * dv). split.
    - exists (fun u => if inn u v0 then 0 else dv). split.
      + intros u. destruct (inn u v0) eqn:E.
        * exists v0, v0. repeat split; try lra; intros z Hz; [lra|]. intros _. rewrite (C u z v0). exact E.
        * exists v0, (v0 + dv). repeat split; try lra; intros z Hz; [rewrite (C u z v0); exact E|]. intros K. lra.
      + replace (l * dv) with (plus (plus 0 (l * dv)) 0) by (unfold plus; cbn; ring).
        assert (K : forall x y k, x <= y -> (forall z, x < z < y -> (if inn z v0 then 0 else dv) = k) -> is_RInt (fun u => if inn u v0 then 0 else dv) x y ((y - x) * k)).
        { intros x y k Hxy E. eapply is_RInt_ext; [|apply (is_RInt_const (V := R_NormedModule) x y k)]. intros z Hz. rewrite Rmin_left, Rmax_right in Hz by exact Hxy. symmetry. apply E. exact Hz. }
        apply (is_RInt_Chasles (V := R_NormedModule) _ u0 q (u0 + du)); [apply (is_RInt_Chasles (V := R_NormedModule) _ u0 p q)|].
        * assert (W : is_RInt (fun u => if inn u v0 then 0 else dv) u0 p ((p - u0) * 0)); [apply K; [lra|]|rewrite Rmult_0_r in W; exact W]. intros z Hz. rewrite P5 by lra. reflexivity.
        * rewrite P3. apply K; [lra|]. intros z Hz. rewrite P4 by lra. reflexivity.
        * assert (W : is_RInt (fun u => if inn u v0 then 0 else dv) q (u0 + du) ((u0 + du - q) * 0)); [apply K; [lra|]|rewrite Rmult_0_r in W; exact W]. intros z Hz. rewrite P5 by lra. reflexivity.
    - assert (F : 0 <= l / du <= 1) by (split; [apply le_div; lra|apply div_le; lra]).
      assert (S : Rabs (face_S tol du dv inn fu fv u0 v0 - l / du) <= tol).
      { unfold face_S. cbn zeta. rewrite X1, (X1 (v0 + dv)), !Y. fold l. destruct (sn_cls tol (l / du) Ht F) as (k & Hk & Nk & _).
        assert (D0 : sn tol (0 / dv) = 0) by (unfold Rdiv; rewrite Rmult_0_l; apply sn_0; lra).
        assert (D1 : sn tol (dv / dv) = 1) by (unfold Rdiv; rewrite Rinv_r by lra; apply sn_1; exact Ht).
        assert (L : l = edge_len (inn u0 v0) (inn (u0 + du) v0) u0 (u0 + du) (fin (fu (u0 + du) v0)) (fin (fu u0 v0)) du) by reflexivity.
        assert (Z0' : cl tol 0 Z0) by reflexivity. assert (O1' : cl tol 1 O1) by reflexivity. clearbody l.
        destruct (inn u0 v0) eqn:E1; destruct (inn (u0 + du) v0) eqn:E2; rewrite ?D0, ?D1.
        - assert (l / du = 0) as -> by (rewrite L; cbn; unfold Rdiv; ring). rewrite sn_0 by lra. rewrite (area_classes tol 0 0 0 0 Z0 Z0 Z0 Z0) by assumption.
          cbn. rewrite Rminus_eq_0, Rabs_R0. lra.
        - rewrite (area_classes tol _ 0 _ 1 k Z0 k O1) by assumption. set (f := sn tol (l / du)) in *.
          destruct k; cbn in Hk |- *; [rewrite Hk in Nk; exact Nk|replace (/ 2 * (f + f) * 1) with f by field; exact Nk|rewrite Hk in Nk; exact Nk].
        - rewrite (area_classes tol _ 1 _ 0 k O1 k Z0) by assumption. set (f := sn tol (l / du)) in *.
          destruct k; cbn in Hk |- *; [rewrite Hk in Nk; exact Nk|replace (/ 2 * (f + f) * 1) with f by field; exact Nk|rewrite Hk in Nk; exact Nk].
        - assert (l / du = 1) as -> by (rewrite L; cbn; field; lra). rewrite sn_1 by exact Ht. rewrite (area_classes tol 1 1 1 1 O1 O1 O1 O1) by assumption.
          cbn. rewrite Rminus_eq_0, Rabs_R0. lra. }
      replace (face_S tol du dv inn fu fv u0 v0 * (du * dv) - l * dv) with ((face_S tol du dv inn fu fv u0 v0 - l / du) * (du * dv)) by (field; lra).
      rewrite Rabs_mult, (Rabs_pos_eq (du * dv)) by nra. apply Rmult_le_compat_r; [nra|exact S].
  Qed.
  Lemma half_face u0 v0 : exists A, face_area inn u0 v0 du dv A /\ Rabs (face_S tol du dv inn fu fv u0 v0 * (du * dv) - A) <= tol * (du * dv).
  Proof. destruct (Req_dec b 0); [apply half_face_0|apply half_face_b]; assumption. Qed.
End Half.
