(** Energy of the three-dimensional solver. *)
From Coq Require Import List Arith ZArith Bool String Lia Ring Field.
From Verif Require Import Num Vec FieldModel GridModel SolverModel WakeModel Grid2DModel Grid3DModel Solver2DProofs Solver3DModel.
Import ListNotations.

Section Energy3.
  Context {T : Type} {NT : Num T} {LT : NumLaws T} {OT : NumOrd T}.
  Add Field s3 : (@num_field T NT LT).
  Local Open Scope num_scope.

  Definition sum3 (a b c : nat) (f : nat -> nat -> nat -> T) : T := sum a (fun i => sum b (fun j => sum c (fun k => f i j k))).
  Lemma sum3_ext a b c f g : (forall i j k, (i < a)%nat -> (j < b)%nat -> (k < c)%nat -> f i j k = g i j k) -> sum3 a b c f = sum3 a b c g.
  Proof. intros H. apply sum_ext. intros i Hi. apply sum_ext. intros j Hj. apply sum_ext. intros k Hk. apply H; assumption. Qed.
  Lemma sum3_add a b c f g : sum3 a b c (fun i j k => f i j k + g i j k) = sum3 a b c f + sum3 a b c g.
  Proof. unfold sum3. rewrite <- sum_add. apply sum_ext. intros i _. rewrite <- sum_add. apply sum_ext. intros j _. apply sum_add. Qed.
  Lemma sum3_sub a b c f g : sum3 a b c (fun i j k => f i j k - g i j k) = sum3 a b c f - sum3 a b c g.
  Proof. unfold sum3. rewrite <- sum_sub. apply sum_ext. intros i _. rewrite <- sum_sub. apply sum_ext. intros j _. apply sum_sub. Qed.
  Lemma sum3_scale a b c x f : sum3 a b c (fun i j k => x * f i j k) = x * sum3 a b c f.
  Proof. unfold sum3. rewrite <- sum_scale. apply sum_ext. intros i _. rewrite <- sum_scale. apply sum_ext. intros j _. apply sum_scale. Qed.
  Lemma sum3_0 a b c f : (forall i j k, (i < a)%nat -> (j < b)%nat -> (k < c)%nat -> f i j k = 0) -> sum3 a b c f = 0.
  Proof. intros H. apply sum_0. intros i Hi. apply sum_0. intros j Hj. apply sum_0. intros k Hk. apply H; assumption. Qed.
  Lemma sum3_jik a b c f : sum3 a b c f = sum3 b a c (fun j i k => f i j k).
  Proof. apply sum_swap. Qed.
  Lemma sum3_ikj a b c f : sum3 a b c f = sum3 a c b (fun i k j => f i j k).
  Proof. apply sum_ext. intros i _. apply sum_swap. Qed.

  Lemma parts_k a b n (f h : nat -> nat -> nat -> T) : (forall i j, f i j 0%nat = 0 /\ f i j n = 0) ->
    sum3 a b n (fun i j k => h i j k * (f i j (S k) - f i j k)) + sum3 a b (S n) (fun i j k => f i j k * (h i j k - h i j (k - 1)%nat)) = 0.
  Proof.
    intros Z. unfold sum3. rewrite <- sum_add. apply sum_0. intros i _. rewrite <- sum_add. apply sum_0. intros j _.
    destruct (Z i j). apply (parts n (f i j) (h i j)); assumption.
  Qed.
  Lemma parts_j a n c (f h : nat -> nat -> nat -> T) : (forall i k, f i 0%nat k = 0 /\ f i n k = 0) ->
    sum3 a n c (fun i j k => h i j k * (f i (S j) k - f i j k)) + sum3 a (S n) c (fun i j k => f i j k * (h i j k - h i (j - 1)%nat k)) = 0.
  Proof. intros Z. rewrite !(sum3_ikj a _ c). apply (parts_k a c n (fun i k j => f i j k) (fun i k j => h i j k)). exact Z. Qed.
  Lemma parts_i n b c (f h : nat -> nat -> nat -> T) : (forall j k, f 0%nat j k = 0 /\ f n j k = 0) ->
    sum3 n b c (fun i j k => h i j k * (f (S i) j k - f i j k)) + sum3 (S n) b c (fun i j k => f i j k * (h i j k - h (i - 1)%nat j k)) = 0.
  Proof. intros Z. rewrite !(sum3_jik _ b c). apply (parts_j b n c (fun j i k => f i j k) (fun j i k => h i j k)). exact Z. Qed.

  (** one component of the electric and of the magnetic energy *)
  Lemma elec a b c (m : nat -> nat -> nat -> bool) (e e' u v : nat -> nat -> nat -> T) eps x y : eps <> 0 ->
    (forall i j k, e' i j k = if m i j k then e i j k + x / eps * u i j k - y / eps * v i j k else e i j k) -> (forall i j k, m i j k = false -> e i j k = 0) ->
    eps * (sum3 a b c (fun i j k => e' i j k * e' i j k) - sum3 a b c (fun i j k => e i j k * e i j k)) =
    x * sum3 a b c (fun i j k => (e' i j k + e i j k) * u i j k) - y * sum3 a b c (fun i j k => (e' i j k + e i j k) * v i j k).
  Proof.
    intros Ne H Q. rewrite <- sum3_sub, <- !sum3_scale, <- sum3_sub. apply sum3_ext. intros i j k _ _ _. rewrite H. destruct (m i j k) eqn:M; [field; exact Ne|]. rewrite Q by exact M. ring.
  Qed.
  Lemma magn a b c (m : nat -> nat -> nat -> bool) (h h' h2 u v u' v' : nat -> nat -> nat -> T) mu x y : mu <> 0 ->
    (forall i j k, h' i j k = if m i j k then h i j k - x / mu * u i j k + y / mu * v i j k else h i j k) ->
    (forall i j k, h2 i j k = if m i j k then h' i j k - x / mu * u' i j k + y / mu * v' i j k else h' i j k) -> (forall i j k, m i j k = false -> h i j k = 0) ->
    mu * (sum3 a b c (fun i j k => h' i j k * h2 i j k) - sum3 a b c (fun i j k => h i j k * h' i j k)) =
    y * sum3 a b c (fun i j k => h' i j k * (v' i j k + v i j k)) - x * sum3 a b c (fun i j k => h' i j k * (u' i j k + u i j k)).
  Proof.
    intros Nm H H2 Q. rewrite <- sum3_sub, <- !sum3_scale, <- sum3_sub. apply sum3_ext. intros i j k _ _ _. rewrite H2, H. destruct (m i j k) eqn:M; [field; exact Nm|]. rewrite Q by exact M. ring.
  Qed.

  Context (p : @par3 T).
  Definition mhx i j k := (i <=? c_nx p)%nat && (j <? c_ny p)%nat && (k <? c_nz p)%nat && nltb nzero (g_S (q_yz (c_g p) i) j k).
  Definition mhy i j k := (i <? c_nx p)%nat && (j <=? c_ny p)%nat && (k <? c_nz p)%nat && nltb nzero (g_S (q_zx (c_g p) j) i k).
  Definition mhz i j k := (i <? c_nx p)%nat && (j <? c_ny p)%nat && (k <=? c_nz p)%nat && nltb nzero (g_S (q_xy (c_g p) k) i j).
  Definition mex i j k := (i <? c_nx p)%nat && (1 <=? j)%nat && (j <? c_ny p)%nat && (1 <=? k)%nat && (k <? c_nz p)%nat && nltb nzero (q_lx (c_g p) i j k).
  Definition mey i j k := (1 <=? i)%nat && (i <? c_nx p)%nat && (j <? c_ny p)%nat && (1 <=? k)%nat && (k <? c_nz p)%nat && nltb nzero (q_ly (c_g p) i j k).
  Definition mez i j k := (1 <=? i)%nat && (i <? c_nx p)%nat && (1 <=? j)%nat && (j <? c_ny p)%nat && (k <? c_nz p)%nat && nltb nzero (q_lz (c_g p) i j k).
  (** entries that are never written are zero *)
  Definition quiet3 (s : em3) : Prop :=
    (forall i j k, mex i j k = false -> fex s i j k = 0) /\ (forall i j k, mey i j k = false -> fey s i j k = 0) /\ (forall i j k, mez i j k = false -> fez s i j k = 0) /\
    (forall i j k, mhx i j k = false -> fhx s i j k = 0) /\ (forall i j k, mhy i j k = false -> fhy s i j k = 0) /\ (forall i j k, mhz i j k = false -> fhz s i j k = 0).
  Lemma quiet3_zero : quiet3 zero3. Proof. repeat split. Qed.
  Lemma quiet3_h s : quiet3 s -> quiet3 (h_fdtd3 p s).
  Proof.
    intros (Q1 & Q2 & Q3 & Q4 & Q5 & Q6). unfold h_fdtd3. repeat split; cbn [fex fey fez fhx fhy fhz]; auto; intros i j k M.
    - fold (mhx i j k). rewrite M. apply Q4, M.
    - fold (mhy i j k). rewrite M. apply Q5, M.
    - fold (mhz i j k). rewrite M. apply Q6, M.
  Qed.
  Lemma quiet3_e c s : quiet3 s -> quiet3 (e_adv3 p c s).
  Proof.
    intros (Q1 & Q2 & Q3 & Q4 & Q5 & Q6). unfold e_adv3. repeat split; cbn [fex fey fez fhx fhy fhz]; auto; intros i j k M.
    - fold (mex i j k). rewrite M. apply Q1, M.
    - fold (mey i j k). rewrite M. apply Q2, M.
    - fold (mez i j k). rewrite M. apply Q3, M.
  Qed.
  Lemma quiet3_run js s : quiet3 s -> quiet3 (run3 (step_fdtd3 p) js s).
  Proof. revert s. induction js as [|c js IH]; intros s Q; [exact Q|]. cbn. apply IH. apply quiet3_e, quiet3_h, Q. Qed.
  Lemma wall_ex s i j k : quiet3 s -> (j = 0 \/ j = c_ny p \/ k = 0 \/ k = c_nz p)%nat -> fex s i j k = 0.
  Proof. intros (Q & _) H. apply Q. destruct (mex i j k) eqn:M; [|reflexivity]. unfold mex in M. rewrite !andb_true_iff, !Nat.ltb_lt, !Nat.leb_le in M. lia. Qed.
  Lemma wall_ey s i j k : quiet3 s -> (i = 0 \/ i = c_nx p \/ k = 0 \/ k = c_nz p)%nat -> fey s i j k = 0.
  Proof. intros (_ & Q & _) H. apply Q. destruct (mey i j k) eqn:M; [|reflexivity]. unfold mey in M. rewrite !andb_true_iff, !Nat.ltb_lt, !Nat.leb_le in M. lia. Qed.
  Lemma wall_ez s i j k : quiet3 s -> (i = 0 \/ i = c_nx p \/ j = 0 \/ j = c_ny p)%nat -> fez s i j k = 0.
  Proof. intros (_ & _ & Q & _) H. apply Q. destruct (mez i j k) eqn:M; [|reflexivity]. unfold mez in M. rewrite !andb_true_iff, !Nat.ltb_lt, !Nat.leb_le in M. lia. Qed.

  Context (Ndx : c_dx p <> 0) (Ndy : c_dy p <> 0) (Ndz : c_dz p <> 0) (Ne : c_eps p <> 0) (Nm : c_mu p <> 0).
  Let nx := c_nx p. Let ny := c_ny p. Let nz := c_nz p.
  Definition ee (s : em3) : T := sum3 nx (S ny) (S nz) (fun i j k => fex s i j k * fex s i j k) + sum3 (S nx) ny (S nz) (fun i j k => fey s i j k * fey s i j k) +
    sum3 (S nx) (S ny) nz (fun i j k => fez s i j k * fez s i j k).
  Definition hh (s h : em3) : T := sum3 (S nx) ny nz (fun i j k => fhx s i j k * fhx h i j k) + sum3 nx (S ny) nz (fun i j k => fhy s i j k * fhy h i j k) +
    sum3 nx ny (S nz) (fun i j k => fhz s i j k * fhz h i j k).
  Definition en3 (s : em3) : T := c_eps p * ee s + c_mu p * hh s (h_fdtd3 p s).
  Lemma en3_step s : quiet3 s -> en3 (step_fdtd3 p off3 s) = en3 s.
  Proof.
    intros Q. set (s' := step_fdtd3 p off3 s). assert (Q' : quiet3 s') by (apply quiet3_e, quiet3_h, Q).
    pose (fx i j k := fex s' i j k + fex s i j k). pose (fy i j k := fey s' i j k + fey s i j k). pose (fz i j k := fez s' i j k + fez s i j k).
    set (tx := c_dt p / c_dx p). set (ty := c_dt p / c_dy p). set (tz := c_dt p / c_dz p).
    pose (hx := fhx s'). pose (hy := fhy s'). pose (hz := fhz s').
    assert (EX := elec nx (S ny) (S nz) mex (fex s) (fex s') (fun i j k => hz i j k - hz i (j - 1)%nat k) (fun i j k => hy i j k - hy i j (k - 1)%nat) (c_eps p) ty tz Ne).
    assert (EY := elec (S nx) ny (S nz) mey (fey s) (fey s') (fun i j k => hx i j k - hx i j (k - 1)%nat) (fun i j k => hz i j k - hz (i - 1)%nat j k) (c_eps p) tz tx Ne).
    assert (EZ := elec (S nx) (S ny) nz mez (fez s) (fez s') (fun i j k => hy i j k - hy (i - 1)%nat j k) (fun i j k => hx i j k - hx i (j - 1)%nat k) (c_eps p) tx ty Ne).
    assert (HX := magn (S nx) ny nz mhx (fhx s) hx (fhx (h_fdtd3 p s')) (fun i j k => fez s i (S j) k - fez s i j k) (fun i j k => fey s i j (S k) - fey s i j k)
      (fun i j k => fez s' i (S j) k - fez s' i j k) (fun i j k => fey s' i j (S k) - fey s' i j k) (c_mu p) ty tz Nm).
    assert (HY := magn nx (S ny) nz mhy (fhy s) hy (fhy (h_fdtd3 p s')) (fun i j k => fex s i j (S k) - fex s i j k) (fun i j k => fez s (S i) j k - fez s i j k)
      (fun i j k => fex s' i j (S k) - fex s' i j k) (fun i j k => fez s' (S i) j k - fez s' i j k) (c_mu p) tz tx Nm).
    assert (HZ := magn nx ny (S nz) mhz (fhz s) hz (fhz (h_fdtd3 p s')) (fun i j k => fey s (S i) j k - fey s i j k) (fun i j k => fex s i (S j) k - fex s i j k)
      (fun i j k => fey s' (S i) j k - fey s' i j k) (fun i j k => fex s' i (S j) k - fex s' i j k) (c_mu p) tx ty Nm).
    pose proof Q as (Q1 & Q2 & Q3 & Q4 & Q5 & Q6).
    specialize (EX ltac:(intros i j k; unfold s', step_fdtd3, e_adv3 at 1; cbn [fex]; fold (mex i j k); destruct (mex i j k); [|reflexivity]; unfold hz, hy, s', step_fdtd3, ty, tz; cbn [e_adv3 fhz fhy fex off3 fjx]; unfold h_fdtd3 at 1; cbn [fex]; field; auto) Q1).
    specialize (EY ltac:(intros i j k; unfold s', step_fdtd3, e_adv3 at 1; cbn [fey]; fold (mey i j k); destruct (mey i j k); [|reflexivity]; unfold hz, hx, s', step_fdtd3, tx, tz; cbn [e_adv3 fhz fhx fey off3 fjy]; unfold h_fdtd3 at 1; cbn [fey]; field; auto) Q2).
    specialize (EZ ltac:(intros i j k; unfold s', step_fdtd3, e_adv3 at 1; cbn [fez]; fold (mez i j k); destruct (mez i j k); [|reflexivity]; unfold hy, hx, s', step_fdtd3, tx, ty; cbn [e_adv3 fhy fhx fez off3 fjz]; unfold h_fdtd3 at 1; cbn [fez]; field; auto) Q3).
    specialize (HX ltac:(intros i j k; unfold hx, s', step_fdtd3; cbn [e_adv3 fhx h_fdtd3]; fold (mhx i j k); destruct (mhx i j k); [|reflexivity]; unfold ty, tz; field; auto)
      ltac:(intros i j k; unfold hx; cbn [fhx h_fdtd3]; fold (mhx i j k); destruct (mhx i j k); [|reflexivity]; unfold ty, tz; field; auto) Q4).
    specialize (HY ltac:(intros i j k; unfold hy, s', step_fdtd3; cbn [e_adv3 fhy h_fdtd3]; fold (mhy i j k); destruct (mhy i j k); [|reflexivity]; unfold tx, tz; field; auto)
      ltac:(intros i j k; unfold hy; cbn [fhy h_fdtd3]; fold (mhy i j k); destruct (mhy i j k); [|reflexivity]; unfold tx, tz; field; auto) Q5).
    specialize (HZ ltac:(intros i j k; unfold hz, s', step_fdtd3; cbn [e_adv3 fhz h_fdtd3]; fold (mhz i j k); destruct (mhz i j k); [|reflexivity]; unfold tx, ty; field; auto)
      ltac:(intros i j k; unfold hz; cbn [fhz h_fdtd3]; fold (mhz i j k); destruct (mhz i j k); [|reflexivity]; unfold tx, ty; field; auto) Q6).
    assert (Wx : forall i j k, (j = 0 \/ j = ny \/ k = 0 \/ k = nz)%nat -> fx i j k = 0) by (intros; unfold fx; rewrite !wall_ex by assumption; ring).
    assert (Wy : forall i j k, (i = 0 \/ i = nx \/ k = 0 \/ k = nz)%nat -> fy i j k = 0) by (intros; unfold fy; rewrite !wall_ey by assumption; ring).
    assert (Wz : forall i j k, (i = 0 \/ i = nx \/ j = 0 \/ j = ny)%nat -> fz i j k = 0) by (intros; unfold fz; rewrite !wall_ez by assumption; ring).
    assert (P1 := parts_j nx ny (S nz) fx hz ltac:(intros; split; apply Wx; auto)). assert (P2 := parts_k nx (S ny) nz fx hy ltac:(intros; split; apply Wx; auto)).
    assert (P3 := parts_k (S nx) ny nz fy hx ltac:(intros; split; apply Wy; auto)). assert (P4 := parts_i nx ny (S nz) fy hz ltac:(intros; split; apply Wy; auto)).
    assert (P5 := parts_i nx (S ny) nz fz hy ltac:(intros; split; apply Wz; auto)). assert (P6 := parts_j (S nx) ny nz fz hx ltac:(intros; split; apply Wz; auto)).
    cbv beta in EX, EY, EZ, HX, HY, HZ, P1, P2, P3, P4, P5, P6.
    (* the magnetic sums in terms of fx, fy, fz *)
    rewrite (sum3_ext _ _ _ (fun i j k => hx i j k * ((fey s' i j (S k) - fey s' i j k) + (fey s i j (S k) - fey s i j k))) (fun i j k => hx i j k * (fy i j (S k) - fy i j k))) in HX by (intros; unfold fy; ring).
    rewrite (sum3_ext _ _ _ (fun i j k => hx i j k * ((fez s' i (S j) k - fez s' i j k) + (fez s i (S j) k - fez s i j k))) (fun i j k => hx i j k * (fz i (S j) k - fz i j k))) in HX by (intros; unfold fz; ring).
    rewrite (sum3_ext _ _ _ (fun i j k => hy i j k * ((fez s' (S i) j k - fez s' i j k) + (fez s (S i) j k - fez s i j k))) (fun i j k => hy i j k * (fz (S i) j k - fz i j k))) in HY by (intros; unfold fz; ring).
    rewrite (sum3_ext _ _ _ (fun i j k => hy i j k * ((fex s' i j (S k) - fex s' i j k) + (fex s i j (S k) - fex s i j k))) (fun i j k => hy i j k * (fx i j (S k) - fx i j k))) in HY by (intros; unfold fx; ring).
    rewrite (sum3_ext _ _ _ (fun i j k => hz i j k * ((fex s' i (S j) k - fex s' i j k) + (fex s i (S j) k - fex s i j k))) (fun i j k => hz i j k * (fx i (S j) k - fx i j k))) in HZ by (intros; unfold fx; ring).
    rewrite (sum3_ext _ _ _ (fun i j k => hz i j k * ((fey s' (S i) j k - fey s' i j k) + (fey s (S i) j k - fey s i j k))) (fun i j k => hz i j k * (fy (S i) j k - fy i j k))) in HZ by (intros; unfold fy; ring).
    change (fun i j k => (fex s' i j k + fex s i j k) * (hz i j k - hz i (j - 1)%nat k)) with (fun i j k => fx i j k * (hz i j k - hz i (j - 1)%nat k)) in EX.
    change (fun i j k => (fex s' i j k + fex s i j k) * (hy i j k - hy i j (k - 1)%nat)) with (fun i j k => fx i j k * (hy i j k - hy i j (k - 1)%nat)) in EX.
    change (fun i j k => (fey s' i j k + fey s i j k) * (hx i j k - hx i j (k - 1)%nat)) with (fun i j k => fy i j k * (hx i j k - hx i j (k - 1)%nat)) in EY.
    change (fun i j k => (fey s' i j k + fey s i j k) * (hz i j k - hz (i - 1)%nat j k)) with (fun i j k => fy i j k * (hz i j k - hz (i - 1)%nat j k)) in EY.
    change (fun i j k => (fez s' i j k + fez s i j k) * (hy i j k - hy (i - 1)%nat j k)) with (fun i j k => fz i j k * (hy i j k - hy (i - 1)%nat j k)) in EZ.
    change (fun i j k => (fez s' i j k + fez s i j k) * (hx i j k - hx i (j - 1)%nat k)) with (fun i j k => fz i j k * (hx i j k - hx i (j - 1)%nat k)) in EZ.
    assert (Op : forall a b, a + b = 0 -> b = - a) by (intros a b H; transitivity ((a + b) - a); [ring|rewrite H; ring]).
    apply Op in P1, P2, P3, P4, P5, P6. rewrite P1, P2 in EX. rewrite P3, P4 in EY. rewrite P5, P6 in EZ.
    assert (D : en3 s' = en3 s +
      (c_eps p * (sum3 nx (S ny) (S nz) (fun i j k => fex s' i j k * fex s' i j k) - sum3 nx (S ny) (S nz) (fun i j k => fex s i j k * fex s i j k)) +
       c_eps p * (sum3 (S nx) ny (S nz) (fun i j k => fey s' i j k * fey s' i j k) - sum3 (S nx) ny (S nz) (fun i j k => fey s i j k * fey s i j k)) +
       c_eps p * (sum3 (S nx) (S ny) nz (fun i j k => fez s' i j k * fez s' i j k) - sum3 (S nx) (S ny) nz (fun i j k => fez s i j k * fez s i j k)) +
       c_mu p * (sum3 (S nx) ny nz (fun i j k => hx i j k * fhx (h_fdtd3 p s') i j k) - sum3 (S nx) ny nz (fun i j k => fhx s i j k * hx i j k)) +
       c_mu p * (sum3 nx (S ny) nz (fun i j k => hy i j k * fhy (h_fdtd3 p s') i j k) - sum3 nx (S ny) nz (fun i j k => fhy s i j k * hy i j k)) +
       c_mu p * (sum3 nx ny (S nz) (fun i j k => hz i j k * fhz (h_fdtd3 p s') i j k) - sum3 nx ny (S nz) (fun i j k => fhz s i j k * hz i j k)))).
    { unfold en3, ee, hh. change (fhx (h_fdtd3 p s)) with hx. change (fhy (h_fdtd3 p s)) with hy. change (fhz (h_fdtd3 p s)) with hz. fold hx hy hz. ring. }
    rewrite D, EX, EY, EZ, HX, HY, HZ. ring.
  Qed.
  Lemma en3_run n s : quiet3 s -> en3 (run3 (step_fdtd3 p) (repeat off3 n) s) = en3 s.
  Proof.
    revert s. induction n as [|n IH]; intros s Q; [reflexivity|]. cbn [repeat run3 fold_left].
    change (fold_left _ (repeat off3 n) ?x) with (run3 (step_fdtd3 p) (repeat off3 n) x). rewrite IH by (apply quiet3_e, quiet3_h, Q). apply en3_step. exact Q.
  Qed.
End Energy3.
