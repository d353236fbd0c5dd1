(** Real-number facts about the bunch density and the pulse shapes. *)
From Coq Require Import List Arith ZArith Bool String Lia Reals Lra Psatz.
From Verif Require Import Num Vec FieldModel GridModel GridProofs2 SolverModel SolverCons SolverProps4 WakeModel WakeNum SourceModel SourceProofs3.
Import ListNotations.
Open Scope R_scope.

Lemma n2 : (@nofnat R _ 2) = 2.
Proof. rewrite nofnat_INR. reflexivity. Qed.
Definition bell (sg zc z : R) : R := 1 / sqrt (2 * PI * (sg * sg)) * exp (- ((z - zc) * (z - zc)) / (2 * (sg * sg))).
Lemma density_bell env sg zc z : e_sqrt env = sqrt -> density env sg zc z = bell sg zc z.
Proof. intros H. unfold density, bell. rewrite H, n2. reflexivity. Qed.
Lemma bell_pos sg zc z : 0 < sg -> 0 < bell sg zc z.
Proof.
  intros H. unfold bell. apply Rmult_lt_0_compat; [|apply exp_pos]. apply Rdiv_lt_0_compat; [lra|]. apply sqrt_lt_R0.
  pose proof PI_RGT_0. apply Rmult_lt_0_compat; [lra|nra].
Qed.
Lemma bell_cmp sg zc z z' : 0 < sg -> (z - zc) * (z - zc) < (z' - zc) * (z' - zc) -> bell sg zc z' < bell sg zc z.
Proof.
  intros H L. unfold bell. apply Rmult_lt_compat_l.
  - apply Rdiv_lt_0_compat; [lra|]. apply sqrt_lt_R0. pose proof PI_RGT_0. apply Rmult_lt_0_compat; [lra|nra].
  - apply exp_increasing. unfold Rdiv. apply Rmult_lt_compat_r; [apply Rinv_0_lt_compat; nra|lra].
Qed.
Lemma bell_top sg zc z : 0 < sg -> z <> zc -> bell sg zc z < bell sg zc zc.
Proof. intros H N. apply bell_cmp; [exact H|]. assert (z - zc <> 0) by lra. nra. Qed.
Lemma bell_sym sg zc u : bell sg zc (zc + u) = bell sg zc (zc - u).
Proof. unfold bell. do 4 f_equal. ring. Qed.
Lemma bell_shift sg zc zc' z z' : z - zc = z' - zc' \/ z - zc = - (z' - zc') -> bell sg zc z = bell sg zc' z'.
Proof. intros [H|H]; unfold bell; rewrite H; [reflexivity|]. do 4 f_equal. ring. Qed.

(** The Harris polynomial is a sixth power. *)
Lemma harris_sin a : (10 - 15 * cos (2 * a) + 6 * cos (4 * a) - cos (6 * a)) / 32 = sin a ^ 6.
Proof.
  assert (C2 : cos (2 * a) = 1 - 2 * (sin a) ^ 2) by (rewrite cos_2a_sin; ring).
  assert (C4 : cos (4 * a) = 2 * cos (2 * a) ^ 2 - 1) by (replace (4 * a) with (2 * (2 * a)) by ring; rewrite (cos_2a_cos (2 * a)); ring).
  assert (S4 : sin (4 * a) = 2 * sin (2 * a) * cos (2 * a)) by (replace (4 * a) with (2 * (2 * a)) by ring; apply sin_2a).
  assert (C6 : cos (6 * a) = 4 * cos (2 * a) ^ 3 - 3 * cos (2 * a)).
  { replace (6 * a) with (4 * a + 2 * a) by ring. rewrite cos_plus, S4, C4. pose proof (sin2_cos2 (2 * a)) as P. unfold Rsqr in P.
    replace (2 * sin (2 * a) * cos (2 * a) * sin (2 * a)) with (2 * cos (2 * a) * (sin (2 * a) * sin (2 * a))) by ring.
    replace (sin (2 * a) * sin (2 * a)) with (1 - cos (2 * a) * cos (2 * a)) by lra. ring. }
  rewrite C6, C4, C2. field.
Qed.
Definition pulse6 (L u : R) : R := sin (PI * u / L) ^ 6.
Lemma harris_form env L delay t : 0 < L -> harris env L delay t =
  let u := t * e_c env - delay in if Rlt_dec u L then pulse6 L u else 0.
Proof.
  intros HL. unfold harris. cbv zeta. set (u := (t * e_c env - delay)%num). change (t * e_c env - delay)%R with u.
  cbn [nltb NumOrd_R]. destruct (Rlt_dec u L) as [H|H]; [|reflexivity].
  unfold pulse6. rewrite <- harris_sin. rewrite !nofnat_INR. cbn [nadd nmul nsub ndiv Num_R ncos npi NumTr_R].
  replace (INR 10) with 10 by (cbn; ring). replace (INR 15) with 15 by (cbn; ring). replace (INR 6) with 6 by (cbn; ring).
  replace (INR 4) with 4 by (cbn; ring). replace (INR 2) with 2 by (cbn; ring). replace (INR 32) with 32 by (cbn; ring).
  replace (2 * PI / L * u) with (2 * (PI * u / L)) by (field; lra).
  replace (4 * PI / L * u) with (4 * (PI * u / L)) by (field; lra).
  replace (6 * PI / L * u) with (6 * (PI * u / L)) by (field; lra). reflexivity.
Qed.
Lemma pulse6_01 L u : 0 <= pulse6 L u <= 1.
Proof.
  unfold pulse6. set (a := PI * u / L). pose proof (SIN_bound a) as [A B].
  assert (S : 0 <= sin a * sin a <= 1) by nra. replace (sin a ^ 6) with ((sin a * sin a) * (sin a * sin a) * (sin a * sin a)) by ring.
  set (x := sin a * sin a) in *. assert (0 <= x * x <= 1) by nra. nra.
Qed.
Lemma pulse6_ends L : 0 < L -> pulse6 L 0 = 0 /\ pulse6 L L = 0 /\ pulse6 L (L / 2) = 1.
Proof.
  intros H. unfold pulse6. replace (PI * 0 / L) with 0 by (field; lra). replace (PI * L / L) with PI by (field; lra).
  replace (PI * (L / 2) / L) with (PI / 2) by (field; lra). rewrite sin_0, sin_PI, sin_PI2. repeat split; ring.
Qed.
Lemma pulse6_cont L : 0 < L -> continuity (pulse6 L).
Proof. intros H u. unfold pulse6. reg. Qed.
Lemma harris_cont env L delay : 0 < L -> 0 <= e_c env -> continuity (fun t => harris env L delay t).
Proof.
  intros HL Hc t. set (c := e_c env) in *.
  assert (CF : continuity (fun t => pulse6 L (t * c - delay))).
  { apply (continuity_comp (fun t => t * c - delay) (pulse6 L)); [|apply pulse6_cont; exact HL]. intros x. reg. }
  assert (CU : continuity (fun t => t * c - delay)) by (intros x; reg).
  destruct (Rtotal_order (t * c - delay) L) as [H|[H|H]].
  - (* inside *)
    intros e He. destruct (CF t e He) as (d1 & Hd1 & F1). destruct (CU t (L - (t * c - delay)) ltac:(lra)) as (d2 & Hd2 & F2).
    exists (Rmin d1 d2). split; [apply Rmin_pos; assumption|]. intros x [Dx Hx].
    assert (X1 : dist R_met x t < d1) by (eapply Rlt_le_trans; [exact Hx|apply Rmin_l]).
    assert (X2 : dist R_met x t < d2) by (eapply Rlt_le_trans; [exact Hx|apply Rmin_r]).
    specialize (F1 x (conj Dx X1)). specialize (F2 x (conj Dx X2)). cbn [dist R_met] in F1, F2 |- *. unfold R_dist in *. apply Rabs_def2 in F2.
    rewrite !harris_form by exact HL. fold c. cbv zeta. destruct (Rlt_dec (x * c - delay) L); [|lra]. destruct (Rlt_dec (t * c - delay) L); [|lra]. exact F1.
  - (* the end *)
    intros e He. destruct (CF t e He) as (d1 & Hd1 & F1). exists d1. split; [exact Hd1|]. intros x Hx. specialize (F1 x Hx).
    cbn [dist R_met] in F1 |- *. unfold R_dist in *. rewrite H in F1. destruct (pulse6_ends L HL) as (_ & E & _). rewrite E in F1.
    rewrite !harris_form by exact HL. fold c. cbv zeta. destruct (Rlt_dec (t * c - delay) L); [lra|].
    destruct (Rlt_dec (x * c - delay) L); [exact F1|]. rewrite Rminus_0_r, Rabs_R0. exact He.
  - (* after *)
    intros e He. destruct (CU t (t * c - delay - L) ltac:(lra)) as (d2 & Hd2 & F2). exists d2. split; [exact Hd2|]. intros x Hx. specialize (F2 x Hx).
    cbn [dist R_met] in F2 |- *. unfold R_dist in *. apply Rabs_def2 in F2. rewrite !harris_form by exact HL. fold c. cbv zeta.
    destruct (Rlt_dec (t * c - delay) L); [lra|]. destruct (Rlt_dec (x * c - delay) L); [lra|]. rewrite Rminus_0_r, Rabs_R0. exact He.
Qed.
