(** Energy of the Dey-Mittra steps of the three-dimensional solver. *)
From Coq Require Import List Arith ZArith Bool String Lia Ring Field.
From Verif Require Import Num Vec FieldModel GridModel SolverModel WakeModel Grid2DModel Grid3DModel Solver2DProofs Solver3DModel Solver3DProofs.
Import ListNotations.

Section Dm3.
  Context {T : Type} {NT : Num T} {LT : NumLaws T} {OT : NumOrd T}.
  Add Field s7 : (@num_field T NT LT).
  Local Open Scope num_scope.
  Lemma elec_w a b c (m : nat -> nat -> nat -> bool) (w l e e' u v : nat -> nat -> nat -> T) x y :
    (forall i j k, m i j k = true -> w i j k * (e' i j k - e i j k) = l i j k * (x * u i j k - y * v i j k)) ->
    (forall i j k, m i j k = false -> e i j k = 0 /\ e' i j k = 0) ->
    sum3 a b c (fun i j k => w i j k * (e' i j k * e' i j k)) - sum3 a b c (fun i j k => w i j k * (e i j k * e i j k)) =
    x * sum3 a b c (fun i j k => l i j k * (e' i j k + e i j k) * u i j k) - y * sum3 a b c (fun i j k => l i j k * (e' i j k + e i j k) * v i j k).
  Proof.
    intros H Q. rewrite <- sum3_sub, <- !sum3_scale, <- sum3_sub. apply sum3_ext. intros i j k _ _ _. destruct (m i j k) eqn:M.
    - specialize (H i j k M). transitivity ((w i j k * (e' i j k - e i j k)) * (e' i j k + e i j k)); [ring|]. rewrite H. ring.
    - destruct (Q i j k M) as [-> ->]. ring.
  Qed.
  Lemma magn_w a b c (m : nat -> nat -> nat -> bool) (w h h' h2 u v u' v' : nat -> nat -> nat -> T) x :
    (forall i j k, m i j k = true -> w i j k * (h' i j k - h i j k) = - (x * (u i j k - v i j k))) ->
    (forall i j k, m i j k = true -> w i j k * (h2 i j k - h' i j k) = - (x * (u' i j k - v' i j k))) ->
    (forall i j k, m i j k = false -> h' i j k = 0) ->
    sum3 a b c (fun i j k => w i j k * (h' i j k * h2 i j k)) - sum3 a b c (fun i j k => w i j k * (h i j k * h' i j k)) =
    x * sum3 a b c (fun i j k => h' i j k * (v' i j k + v i j k)) - x * sum3 a b c (fun i j k => h' i j k * (u' i j k + u i j k)).
  Proof.
    intros H H2 Q. rewrite <- sum3_sub, <- !sum3_scale, <- sum3_sub. apply sum3_ext. intros i j k _ _ _. destruct (m i j k) eqn:M.
    - specialize (H i j k M). specialize (H2 i j k M).
      transitivity ((w i j k * (h2 i j k - h' i j k)) * h' i j k + (w i j k * (h' i j k - h i j k)) * h' i j k); [ring|]. rewrite H, H2. ring.
    - rewrite (Q i j k M). ring.
  Qed.

  Context (p : @par3 T).
  Let g := c_g p.
  Context (Ixy : forall i j k, g_int (q_xy g k) i j = nltb nzero (g_S (q_xy g k) i j)) (Iyz : forall i j k, g_int (q_yz g i) j k = nltb nzero (g_S (q_yz g i) j k))
    (Izx : forall i j k, g_int (q_zx g j) i k = nltb nzero (g_S (q_zx g j) i k)).
  Lemma quiet3_dm s : quiet3 p s -> quiet3 p (h_dm3 p s).
  Proof.
    intros (Q1 & Q2 & Q3 & Q4 & Q5 & Q6). unfold h_dm3. repeat split; cbn [fex fey fez fhx fhy fhz]; auto; intros i j k M.
    - fold g. rewrite Iyz. unfold g. fold (mhx p i j k). rewrite M. apply Q4, M.
    - fold g. rewrite Izx. unfold g. fold (mhy p i j k). rewrite M. apply Q5, M.
    - fold g. rewrite Ixy. unfold g. fold (mhz p i j k). rewrite M. apply Q6, M.
  Qed.
  Lemma quiet3_dm_run js s : quiet3 p s -> quiet3 p (run3 (step_dm3 p) js s).
  Proof. revert s. induction js as [|c js IH]; intros s Q; [exact Q|]. cbn. apply IH. apply quiet3_e, quiet3_dm, Q. Qed.

  Context (Lt0 : forall x : T, nltb nzero x = true -> x <> 0).
  Context (Ndx : c_dx p <> 0) (Ndy : c_dy p <> 0) (Ndz : c_dz p <> 0) (Ne : c_eps p <> 0) (Nm : c_mu p <> 0).
  Let nx := c_nx p. Let ny := c_ny p. Let nz := c_nz p.
  Let wx i j k := c_eps p * (c_dy p * c_dz p) * q_lx g i j k.
  Let wy i j k := c_eps p * (c_dx p * c_dz p) * q_ly g i j k.
  Let wz i j k := c_eps p * (c_dx p * c_dy p) * q_lz g i j k.
  Let ux i j k := c_mu p * c_dx p * g_S (q_yz g i) j k.
  Let uy i j k := c_mu p * c_dy p * g_S (q_zx g j) i k.
  Let uz i j k := c_mu p * c_dz p * g_S (q_xy g k) i j.
  Definition en_dm3 (s : em3) : T := let h := h_dm3 p s in
    (sum3 nx (S ny) (S nz) (fun i j k => wx i j k * (fex s i j k * fex s i j k)) + sum3 (S nx) ny (S nz) (fun i j k => wy i j k * (fey s i j k * fey s i j k)) +
     sum3 (S nx) (S ny) nz (fun i j k => wz i j k * (fez s i j k * fez s i j k))) +
    (sum3 (S nx) ny nz (fun i j k => ux i j k * (fhx s i j k * fhx h i j k)) + sum3 nx (S ny) nz (fun i j k => uy i j k * (fhy s i j k * fhy h i j k)) +
     sum3 nx ny (S nz) (fun i j k => uz i j k * (fhz s i j k * fhz h i j k))).
  Lemma en_dm3_step s : quiet3 p s -> en_dm3 (step_dm3 p off3 s) = en_dm3 s.
  Proof.
    intros Q. set (s' := step_dm3 p off3 s). assert (Q' : quiet3 p s') by (apply quiet3_e, quiet3_dm, Q).
    pose (fx i j k := q_lx g i j k * (fex s' i j k + fex s i j k)). pose (fy i j k := q_ly g i j k * (fey s' i j k + fey s i j k)).
    pose (fz i j k := q_lz g i j k * (fez s' i j k + fez s i j k)).
    pose (hx := fhx s'). pose (hy := fhy s'). pose (hz := fhz s').
    pose (ax (s : em3) i j k := fex s i j k * q_lx g i j k). pose (ay (s : em3) i j k := fey s i j k * q_ly g i j k). pose (az (s : em3) i j k := fez s i j k * q_lz g i j k).
    set (t := c_dt p). set (dx := c_dx p) in *. set (dy := c_dy p) in *. set (dz := c_dz p) in *.
    pose proof Q as (Q1 & Q2 & Q3 & Q4 & Q5 & Q6). pose proof Q' as (R1 & R2 & R3 & R4 & R5 & R6).
    assert (EX := elec_w nx (S ny) (S nz) (mex p) wx (q_lx g) (fex s) (fex s') (fun i j k => hz i j k - hz i (j - 1)%nat k) (fun i j k => hy i j k - hy i j (k - 1)%nat) (t * dz) (t * dy)
      ltac:(intros i j k M; change (fex s' i j k) with (fex (e_adv3 p off3 (h_dm3 p s)) i j k); cbn [fex e_adv3]; fold (mex p i j k); rewrite M; change (fex (h_dm3 p s)) with (fex s); unfold hx, hy, hz, s', step_dm3, wx; cbn [fhx fhy fhz e_adv3 off3 fjx]; generalize (fhx (h_dm3 p s)) (fhy (h_dm3 p s)) (fhz (h_dm3 p s)); intros; unfold t, dx, dy, dz; field; auto)
      ltac:(intros i j k M; split; [apply Q1, M|apply R1, M])).
    assert (EY := elec_w (S nx) ny (S nz) (mey p) wy (q_ly g) (fey s) (fey s') (fun i j k => hx i j k - hx i j (k - 1)%nat) (fun i j k => hz i j k - hz (i - 1)%nat j k) (t * dx) (t * dz)
      ltac:(intros i j k M; change (fey s' i j k) with (fey (e_adv3 p off3 (h_dm3 p s)) i j k); cbn [fey e_adv3]; fold (mey p i j k); rewrite M; change (fey (h_dm3 p s)) with (fey s); unfold hx, hy, hz, s', step_dm3, wy; cbn [fhx fhy fhz e_adv3 off3 fjy]; generalize (fhx (h_dm3 p s)) (fhy (h_dm3 p s)) (fhz (h_dm3 p s)); intros; unfold t, dx, dy, dz; field; auto)
      ltac:(intros i j k M; split; [apply Q2, M|apply R2, M])).
    assert (EZ := elec_w (S nx) (S ny) nz (mez p) wz (q_lz g) (fez s) (fez s') (fun i j k => hy i j k - hy (i - 1)%nat j k) (fun i j k => hx i j k - hx i (j - 1)%nat k) (t * dy) (t * dx)
      ltac:(intros i j k M; change (fez s' i j k) with (fez (e_adv3 p off3 (h_dm3 p s)) i j k); cbn [fez e_adv3]; fold (mez p i j k); rewrite M; change (fez (h_dm3 p s)) with (fez s); unfold hx, hy, hz, s', step_dm3, wz; cbn [fhx fhy fhz e_adv3 off3 fjz]; generalize (fhx (h_dm3 p s)) (fhy (h_dm3 p s)) (fhz (h_dm3 p s)); intros; unfold t, dx, dy, dz; field; auto)
      ltac:(intros i j k M; split; [apply Q3, M|apply R3, M])).
    assert (MX : forall s i j k, mhx p i j k = true -> ux i j k * (fhx (h_dm3 p s) i j k - fhx s i j k) = - (t * dx * ((az s i (S j) k - az s i j k) - (ay s i j (S k) - ay s i j k)))).
    { intros r i j k M. unfold h_dm3. cbn [fhx]. fold g. rewrite Iyz. unfold g. fold (mhx p i j k). rewrite M. unfold mhx in M. apply andb_true_iff in M as [_ M]. apply Lt0 in M.
      unfold ux, v_yz, ay, az, g, t, dx. field. auto. }
    assert (MY : forall s i j k, mhy p i j k = true -> uy i j k * (fhy (h_dm3 p s) i j k - fhy s i j k) = - (t * dy * ((ax s i j (S k) - ax s i j k) - (az s (S i) j k - az s i j k)))).
    { intros r i j k M. unfold h_dm3. cbn [fhy]. fold g. rewrite Izx. unfold g. fold (mhy p i j k). rewrite M. unfold mhy in M. apply andb_true_iff in M as [_ M]. apply Lt0 in M.
      unfold uy, v_zx, ax, az, g, t, dy. field. auto. }
    assert (MZ : forall s i j k, mhz p i j k = true -> uz i j k * (fhz (h_dm3 p s) i j k - fhz s i j k) = - (t * dz * ((ay s (S i) j k - ay s i j k) - (ax s i (S j) k - ax s i j k)))).
    { intros r i j k M. unfold h_dm3. cbn [fhz]. fold g. rewrite Ixy. unfold g. fold (mhz p i j k). rewrite M. unfold mhz in M. apply andb_true_iff in M as [_ M]. apply Lt0 in M.
      unfold uz, v_xy, ax, ay, g, t, dz. field. auto. }
    assert (HX := magn_w (S nx) ny nz (mhx p) ux (fhx s) hx (fhx (h_dm3 p s')) (fun i j k => az s i (S j) k - az s i j k) (fun i j k => ay s i j (S k) - ay s i j k)
      (fun i j k => az s' i (S j) k - az s' i j k) (fun i j k => ay s' i j (S k) - ay s' i j k) (t * dx) (MX s) (MX s') R4).
    assert (HY := magn_w nx (S ny) nz (mhy p) uy (fhy s) hy (fhy (h_dm3 p s')) (fun i j k => ax s i j (S k) - ax s i j k) (fun i j k => az s (S i) j k - az s i j k)
      (fun i j k => ax s' i j (S k) - ax s' i j k) (fun i j k => az s' (S i) j k - az s' i j k) (t * dy) (MY s) (MY s') R5).
    assert (HZ := magn_w nx ny (S nz) (mhz p) uz (fhz s) hz (fhz (h_dm3 p s')) (fun i j k => ay s (S i) j k - ay s i j k) (fun i j k => ax s i (S j) k - ax s i j k)
      (fun i j k => ay s' (S i) j k - ay s' i j k) (fun i j k => ax s' i (S j) k - ax s' i j k) (t * dz) (MZ s) (MZ s') R6).
    assert (Wx : forall i j k, (j = 0 \/ j = ny \/ k = 0 \/ k = nz)%nat -> fx i j k = 0) by (intros; unfold fx; rewrite !(wall_ex p) by assumption; ring).
    assert (Wy : forall i j k, (i = 0 \/ i = nx \/ k = 0 \/ k = nz)%nat -> fy i j k = 0) by (intros; unfold fy; rewrite !(wall_ey p) by assumption; ring).
    assert (Wz : forall i j k, (i = 0 \/ i = nx \/ j = 0 \/ j = ny)%nat -> fz i j k = 0) by (intros; unfold fz; rewrite !(wall_ez p) by assumption; ring).
    assert (P1 := parts_j nx ny (S nz) fx hz ltac:(intros; split; apply Wx; auto)). assert (P2 := parts_k nx (S ny) nz fx hy ltac:(intros; split; apply Wx; auto)).
    assert (P3 := parts_k (S nx) ny nz fy hx ltac:(intros; split; apply Wy; auto)). assert (P4 := parts_i nx ny (S nz) fy hz ltac:(intros; split; apply Wy; auto)).
    assert (P5 := parts_i nx (S ny) nz fz hy ltac:(intros; split; apply Wz; auto)). assert (P6 := parts_j (S nx) ny nz fz hx ltac:(intros; split; apply Wz; auto)).
    cbv beta in EX, EY, EZ, HX, HY, HZ, P1, P2, P3, P4, P5, P6.
    rewrite (sum3_ext _ _ _ (fun i j k => hx i j k * ((ay s' i j (S k) - ay s' i j k) + (ay s i j (S k) - ay s i j k))) (fun i j k => hx i j k * (fy i j (S k) - fy i j k))) in HX by (intros; unfold fy, ay; ring).
    rewrite (sum3_ext _ _ _ (fun i j k => hx i j k * ((az s' i (S j) k - az s' i j k) + (az s i (S j) k - az s i j k))) (fun i j k => hx i j k * (fz i (S j) k - fz i j k))) in HX by (intros; unfold fz, az; ring).
    rewrite (sum3_ext _ _ _ (fun i j k => hy i j k * ((az s' (S i) j k - az s' i j k) + (az s (S i) j k - az s i j k))) (fun i j k => hy i j k * (fz (S i) j k - fz i j k))) in HY by (intros; unfold fz, az; ring).
    rewrite (sum3_ext _ _ _ (fun i j k => hy i j k * ((ax s' i j (S k) - ax s' i j k) + (ax s i j (S k) - ax s i j k))) (fun i j k => hy i j k * (fx i j (S k) - fx i j k))) in HY by (intros; unfold fx, ax; ring).
    rewrite (sum3_ext _ _ _ (fun i j k => hz i j k * ((ax s' i (S j) k - ax s' i j k) + (ax s i (S j) k - ax s i j k))) (fun i j k => hz i j k * (fx i (S j) k - fx i j k))) in HZ by (intros; unfold fx, ax; ring).
    rewrite (sum3_ext _ _ _ (fun i j k => hz i j k * ((ay s' (S i) j k - ay s' i j k) + (ay s (S i) j k - ay s i j k))) (fun i j k => hz i j k * (fy (S i) j k - fy i j k))) in HZ by (intros; unfold fy, ay; ring).
    change (fun i j k => q_lx g i j k * (fex s' i j k + fex s i j k) * (hz i j k - hz i (j - 1)%nat k)) with (fun i j k => fx i j k * (hz i j k - hz i (j - 1)%nat k)) in EX.
    change (fun i j k => q_lx g i j k * (fex s' i j k + fex s i j k) * (hy i j k - hy i j (k - 1)%nat)) with (fun i j k => fx i j k * (hy i j k - hy i j (k - 1)%nat)) in EX.
    change (fun i j k => q_ly g i j k * (fey s' i j k + fey s i j k) * (hx i j k - hx i j (k - 1)%nat)) with (fun i j k => fy i j k * (hx i j k - hx i j (k - 1)%nat)) in EY.
    change (fun i j k => q_ly g i j k * (fey s' i j k + fey s i j k) * (hz i j k - hz (i - 1)%nat j k)) with (fun i j k => fy i j k * (hz i j k - hz (i - 1)%nat j k)) in EY.
    change (fun i j k => q_lz g i j k * (fez s' i j k + fez s i j k) * (hy i j k - hy (i - 1)%nat j k)) with (fun i j k => fz i j k * (hy i j k - hy (i - 1)%nat j k)) in EZ.
    change (fun i j k => q_lz g i j k * (fez s' i j k + fez s i j k) * (hx i j k - hx i (j - 1)%nat k)) with (fun i j k => fz i j k * (hx i j k - hx i (j - 1)%nat k)) in EZ.
    assert (Op : forall a b, a + b = 0 -> b = - a) by (intros a b H; transitivity ((a + b) - a); [ring|rewrite H; ring]).
    apply Op in P1, P2, P3, P4, P5, P6. rewrite P1, P2 in EX. rewrite P3, P4 in EY. rewrite P5, P6 in EZ.
    assert (D : en_dm3 s' = en_dm3 s +
      ((sum3 nx (S ny) (S nz) (fun i j k => wx i j k * (fex s' i j k * fex s' i j k)) - sum3 nx (S ny) (S nz) (fun i j k => wx i j k * (fex s i j k * fex s i j k))) +
       (sum3 (S nx) ny (S nz) (fun i j k => wy i j k * (fey s' i j k * fey s' i j k)) - sum3 (S nx) ny (S nz) (fun i j k => wy i j k * (fey s i j k * fey s i j k))) +
       (sum3 (S nx) (S ny) nz (fun i j k => wz i j k * (fez s' i j k * fez s' i j k)) - sum3 (S nx) (S ny) nz (fun i j k => wz i j k * (fez s i j k * fez s i j k))) +
       (sum3 (S nx) ny nz (fun i j k => ux i j k * (hx i j k * fhx (h_dm3 p s') i j k)) - sum3 (S nx) ny nz (fun i j k => ux i j k * (fhx s i j k * hx i j k))) +
       (sum3 nx (S ny) nz (fun i j k => uy i j k * (hy i j k * fhy (h_dm3 p s') i j k)) - sum3 nx (S ny) nz (fun i j k => uy i j k * (fhy s i j k * hy i j k))) +
       (sum3 nx ny (S nz) (fun i j k => uz i j k * (hz i j k * fhz (h_dm3 p s') i j k)) - sum3 nx ny (S nz) (fun i j k => uz i j k * (fhz s i j k * hz i j k))))).
    { unfold en_dm3. change (fhx (h_dm3 p s)) with hx. change (fhy (h_dm3 p s)) with hy. change (fhz (h_dm3 p s)) with hz. fold hx hy hz. ring. }
    rewrite D, EX, EY, EZ, HX, HY, HZ. ring.
  Qed.
  Lemma en_dm3_run n s : quiet3 p s -> en_dm3 (run3 (step_dm3 p) (repeat off3 n) s) = en_dm3 s.
  Proof.
    revert s. induction n as [|n IH]; intros s Q; [reflexivity|]. cbn [repeat run3 fold_left].
    change (fold_left _ (repeat off3 n) ?x) with (run3 (step_dm3 p) (repeat off3 n) x). rewrite IH by (apply quiet3_e, quiet3_dm, Q). apply en_dm3_step. exact Q.
  Qed.
End Dm3.
