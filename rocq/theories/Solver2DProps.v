(** Properties C109-C112: the two-dimensional solver. *)
From Coq Require Import List Arith ZArith Bool String Lia Ring Field QArith Qcanon Reals Lra Psatz.
From Verif Require Import Num Vec FieldModel GridModel SolverModel SolverCons WakeModel WakeNum StabSum Grid2DModel Grid2DProofs Grid2DArea Solver2DModel Solver2DProofs Solver2DRuns.
Import ListNotations.
Open Scope nat_scope.

(** ** C109 *)
(** Sums over the grid: cells, x-edges (one more row), y-edges (one more column). *)
Definition energy2 {T} {NT : Num T} (p : @par2 T) (s hnext : @em2 T) : T :=
  (p_eps p * (sum (p_nx p) (fun i => sum (S (p_ny p)) (fun j => ex s i j * ex s i j)) + sum (S (p_nx p)) (fun i => sum (p_ny p) (fun j => ey s i j * ey s i j))) +
   p_mu p * sum (p_nx p) (fun i => sum (p_ny p) (fun j => hz s i j * hz hnext i j)))%num.
Definition okp {T} {NT : Num T} (p : @par2 T) : Prop := p_dx p <> nzero /\ p_dy p <> nzero /\ p_eps p <> nzero /\ p_mu p <> nzero /\ p_dt p <> nzero.
Section Enf.
Context {T : Type} {NT : Num T} {LT : NumLaws T} {OT : NumOrd T}.
Add Field s4 : (@num_field T NT LT).
Lemma energy_enf (p : @par2 T) s : okp p -> energy2 p s (h_fdtd p s) = (p_mu p * enf p s)%num.
Proof.
  intros (Nx & Ny & Ne & Nm & Nt). unfold energy2, enf, en.
  rewrite (sum2_scale (p_nx p) (S (p_ny p)) (p_eps p / p_mu p)%num (fun i j => (ex s i j * ex s i j)%num)),
    (sum2_scale (S (p_nx p)) (p_ny p) (p_eps p / p_mu p)%num (fun i j => (ey s i j * ey s i j)%num)).
  rewrite (sum2_ext (p_nx p) (p_ny p) _ (fun i j => (hz s i j * hz (h_fdtd p s) i j)%num)).
  - unfold sum2. field. exact Nm.
  - intros i j _ _. unfold hstep, ci. cbn [hz h_fdtd]. fold (mhf p i j). destruct (mhf p i j); ring.
Qed.
End Enf.
Theorem C109_energy : forall (T : Type) (NT : Num T) (LT : NumLaws T) (OT : NumOrd T) (p : @par2 T) js n, okp p ->
  let s := run2 (step_fdtd p) js zero2 in let s' := run2 (step_fdtd p) (repeat off n) s in
  energy2 p s' (h_fdtd p s') = energy2 p s (h_fdtd p s).
Proof.
  intros T NT LT OT p js n H s s'. rewrite !energy_enf by exact H. f_equal. destruct H as (H1 & H2 & H3 & H4 & H5). apply (enf_run p H1 H2 H3 H4).
  apply quiet_run, quiet_zero.
Qed.
Print Assumptions C109_energy.

Section Bound.
  Local Open Scope R_scope.
  Lemma s2_le m n (f g : nat -> nat -> R) : (forall i j, (i < m)%nat -> (j < n)%nat -> f i j <= g i j) -> sum2 m n f <= sum2 m n g.
  Proof. intros H. apply SR_le. intros i Hi. apply SR_le. intros j Hj. apply H; assumption. Qed.
  Lemma s2_sub m n (f g : nat -> nat -> R) : sum2 m n (fun i j => f i j - g i j) = sum2 m n f - sum2 m n g.
  Proof. exact (sum2_sub m n f g). Qed.
  Lemma s2_scale m n (a : R) (f : nat -> nat -> R) : sum2 m n (fun i j => a * f i j) = a * sum2 m n f.
  Proof. exact (sum2_scale m n a f). Qed.
  Lemma s2_pos m n (f : nat -> nat -> R) : (forall i j, 0 <= f i j) -> 0 <= sum2 m n f.
  Proof. intros H. apply SR_pos. intros i Hi. apply SR_pos. intros j Hj. apply H. Qed.
  Lemma sum_two n (f : nat -> R) : (forall i, 0 <= f i) -> SR n (fun i => f (S i) + f i) <= 2 * SR (S n) f.
  Proof. intros H. rewrite SR_plus. pose proof (SR_first n f). pose proof (SR_S n f). pose proof (H 0%nat). pose proof (H n). lra. Qed.
  Lemma curl_bound nx ny (x y : nat -> nat -> R) dx dy : 0 < dx -> 0 < dy ->
    sum2 nx ny (fun i j => ((y (S i) j - y i j) / dx - (x i (S j) - x i j) / dy) * ((y (S i) j - y i j) / dx - (x i (S j) - x i j) / dy))
      <= 4 * (1 / (dx * dx) + 1 / (dy * dy)) * (sum2 nx (S ny) (fun i j => x i j * x i j) + sum2 (S nx) ny (fun i j => y i j * y i j)).
  Proof.
    intros Hx Hy. set (k := 1 / (dx * dx) + 1 / (dy * dy)).
    assert (K : 0 < k) by (unfold k; apply Rplus_lt_0_compat; apply Rdiv_lt_0_compat; nra).
    apply Rle_trans with (sum2 nx ny (fun i j => (2 * k) * ((x i (S j) * x i (S j) + x i j * x i j) + (y (S i) j * y (S i) j + y i j * y i j)))).
    - apply s2_le. intros i j _ _. set (P := y (S i) j - y i j). set (Q := x i (S j) - x i j).
      assert (A : (P / dx - Q / dy) * (P / dx - Q / dy) <= k * (P * P + Q * Q)).
      { unfold k. replace ((1 / (dx * dx) + 1 / (dy * dy)) * (P * P + Q * Q)) with ((P / dx - Q / dy) * (P / dx - Q / dy) + (P / dy + Q / dx) * (P / dy + Q / dx)) by (field; lra).
        pose proof (Rle_0_sqr (P / dy + Q / dx)) as S. unfold Rsqr in S. lra. }
      assert (B : P * P + Q * Q <= 2 * ((x i (S j) * x i (S j) + x i j * x i j) + (y (S i) j * y (S i) j + y i j * y i j))).
      { unfold P, Q. pose proof (Rle_0_sqr (y (S i) j + y i j)) as S1. pose proof (Rle_0_sqr (x i (S j) + x i j)) as S2. unfold Rsqr in S1, S2. lra. }
      eapply Rle_trans; [exact A|]. replace (2 * k * (x i (S j) * x i (S j) + x i j * x i j + (y (S i) j * y (S i) j + y i j * y i j))) with (k * (2 * (x i (S j) * x i (S j) + x i j * x i j + (y (S i) j * y (S i) j + y i j * y i j)))) by ring.
      apply Rmult_le_compat_l; lra.
    - assert (E : sum2 nx ny (fun i j => 2 * k * (x i (S j) * x i (S j) + x i j * x i j + (y (S i) j * y (S i) j + y i j * y i j))) =
        2 * k * (sum2 nx ny (fun i j => x i (S j) * x i (S j) + x i j * x i j) + sum2 nx ny (fun i j => y (S i) j * y (S i) j + y i j * y i j))).
      { change (fun i j => 2 * k * (x i (S j) * x i (S j) + x i j * x i j + (y (S i) j * y (S i) j + y i j * y i j))) with (fun i j => nmul (2 * k) (nadd (x i (S j) * x i (S j) + x i j * x i j) (y (S i) j * y (S i) j + y i j * y i j))).
        rewrite sum2_scale, sum2_add. reflexivity. }
      rewrite E.
      assert (X : sum2 nx ny (fun i j => x i (S j) * x i (S j) + x i j * x i j) <= 2 * sum2 nx (S ny) (fun i j => x i j * x i j)).
      { change (2 * sum2 nx (S ny) (fun i j => x i j * x i j)) with (nmul 2 (sum2 nx (S ny) (fun i j => x i j * x i j))). unfold sum2. rewrite <- sum_scale. apply SR_le. intros i _. apply (sum_two ny (fun j => x i j * x i j)). intros j. apply Rle_0_sqr. }
      assert (Y : sum2 nx ny (fun i j => y (S i) j * y (S i) j + y i j * y i j) <= 2 * sum2 (S nx) ny (fun i j => y i j * y i j)).
      { change (2 * sum2 (S nx) ny (fun i j => y i j * y i j)) with (nmul 2 (sum2 (S nx) ny (fun i j => y i j * y i j))). rewrite (sum2_swap nx ny), (sum2_swap (S nx) ny). unfold sum2. rewrite <- sum_scale. apply SR_le. intros j _. apply (sum_two nx (fun i => y i j * y i j)). intros i. apply Rle_0_sqr. }
      replace (4 * k * (sum2 nx (S ny) (fun i j => x i j * x i j) + sum2 (S nx) ny (fun i j => y i j * y i j))) with (2 * k * (2 * sum2 nx (S ny) (fun i j => x i j * x i j) + 2 * sum2 (S nx) ny (fun i j => y i j * y i j))) by ring.
      apply Rmult_le_compat_l; lra.
  Qed.
  (** energy bounds the fields *)
  Lemma energy_lower (p : @par2 R) s k : okp p -> 0 < p_dx p -> 0 < p_dy p -> 0 < p_eps p -> 0 < p_mu p -> 0 < p_dt p -> 0 < k ->
    p_dt p * p_dt p * (1 / (p_dx p * p_dx p) + 1 / (p_dy p * p_dy p)) <= k * k * (p_eps p * p_mu p) ->
    quiet (mhf p) (mxf p) (myf p) s ->
    (1 - k) * energy2 p {| ex := ex s; ey := ey s; hz := hz (h_fdtd p s) |} (h_fdtd p s) <= energy2 p s (h_fdtd p s).
  Proof.
    intros _ Hx Hy He Hm Ht Hk Hc (Qh & _). unfold energy2. cbn [ex ey hz nadd nmul Num_R].
    set (E := @sum R Num_R (p_nx p) (fun i => sum (S (p_ny p)) (fun j => ex s i j * ex s i j)) + @sum R Num_R (S (p_nx p)) (fun i => sum (p_ny p) (fun j => ey s i j * ey s i j))).
    set (h := hz (h_fdtd p s)).
    set (cu i j := (ey s (S i) j - ey s i j) / p_dx p - (ex s i (S j) - ex s i j) / p_dy p).
    set (H2 := @sum R Num_R (p_nx p) (fun i => sum (p_ny p) (fun j => h i j * h i j))).
    assert (CB : sum2 (p_nx p) (p_ny p) (fun i j => cu i j * cu i j) <= 4 * (1 / (p_dx p * p_dx p) + 1 / (p_dy p * p_dy p)) * E) by (apply curl_bound; assumption).
    assert (L : (1 - k) * H2 - p_dt p * p_dt p / (4 * k * p_mu p * p_mu p) * sum2 (p_nx p) (p_ny p) (fun i j => cu i j * cu i j) <= @sum R Num_R (p_nx p) (fun i => sum (p_ny p) (fun j => hz s i j * h i j))).
    { apply Rle_trans with (sum2 (p_nx p) (p_ny p) (fun i j => (1 - k) * (h i j * h i j) - p_dt p * p_dt p / (4 * k * p_mu p * p_mu p) * (cu i j * cu i j))).
      - apply Req_le. rewrite (s2_sub (p_nx p) (p_ny p) (fun i j => (1 - k) * (h i j * h i j)) (fun i j => p_dt p * p_dt p / (4 * k * p_mu p * p_mu p) * (cu i j * cu i j))).
        rewrite (s2_scale (p_nx p) (p_ny p) (1 - k) (fun i j => h i j * h i j)), (s2_scale (p_nx p) (p_ny p) (p_dt p * p_dt p / (4 * k * p_mu p * p_mu p)) (fun i j => cu i j * cu i j)). reflexivity.
      - apply s2_le. intros i j Hi Hj. destruct (mhf p i j) eqn:M.
        + assert (Z : hz s i j = h i j + p_dt p / p_mu p * cu i j).
          { unfold h, h_fdtd. cbn [hz]. fold (mhf p i j). rewrite M. unfold cu. cbn. field. lra. }
          rewrite Z. set (a := h i j). set (b := p_dt p / p_mu p * cu i j).
          replace (p_dt p * p_dt p / (4 * k * p_mu p * p_mu p) * (cu i j * cu i j)) with (b * b / (4 * k)) by (unfold b; field; lra).
          assert (S : 0 <= (2 * k * a + b) * (2 * k * a + b) / (4 * k)). { apply Rmult_le_pos; [apply Rle_0_sqr|]. left. apply Rinv_0_lt_compat. lra. }
          replace ((2 * k * a + b) * (2 * k * a + b) / (4 * k)) with (k * (a * a) + a * b + b * b / (4 * k)) in S by (field; lra). nra.
        + assert (Z : h i j = 0) by (unfold h, h_fdtd; cbn [hz]; fold (mhf p i j); rewrite M; apply Qh; exact M). rewrite Z.
          assert (S : 0 <= p_dt p * p_dt p / (4 * k * p_mu p * p_mu p) * (cu i j * cu i j)).
          { apply Rmult_le_pos; [|apply Rle_0_sqr]. apply Rmult_le_pos; [nra|]. left. apply Rinv_0_lt_compat. repeat apply Rmult_lt_0_compat; lra. }
          lra. }
    assert (E0 : 0 <= E). { unfold E. apply Rplus_le_le_0_compat; [apply (s2_pos (p_nx p) (S (p_ny p)) (fun i j => ex s i j * ex s i j))|apply (s2_pos (S (p_nx p)) (p_ny p) (fun i j => ey s i j * ey s i j))]; intros; apply Rle_0_sqr. }
    assert (F : p_mu p * (p_dt p * p_dt p / (4 * k * p_mu p * p_mu p) * sum2 (p_nx p) (p_ny p) (fun i j => cu i j * cu i j)) <= k * (p_eps p * E)).
    { apply Rle_trans with (p_mu p * (p_dt p * p_dt p / (4 * k * p_mu p * p_mu p) * (4 * (1 / (p_dx p * p_dx p) + 1 / (p_dy p * p_dy p)) * E))).
      - apply Rmult_le_compat_l; [lra|]. apply Rmult_le_compat_l; [|exact CB]. apply Rmult_le_pos; [nra|]. left. apply Rinv_0_lt_compat. repeat apply Rmult_lt_0_compat; lra.
      - replace (p_mu p * (p_dt p * p_dt p / (4 * k * p_mu p * p_mu p) * (4 * (1 / (p_dx p * p_dx p) + 1 / (p_dy p * p_dy p)) * E))) with
          ((p_dt p * p_dt p * (1 / (p_dx p * p_dx p) + 1 / (p_dy p * p_dy p))) * (E / (k * p_mu p))) by (field; repeat split; lra).
        apply Rle_trans with (k * k * (p_eps p * p_mu p) * (E / (k * p_mu p))).
        + apply Rmult_le_compat_r; [|exact Hc]. apply Rmult_le_pos; [exact E0|]. left. apply Rinv_0_lt_compat. nra.
        + apply Req_le. field. lra. }
    apply (Rmult_le_compat_l (p_mu p)) in L; [|lra]. rewrite Rmult_minus_distr_l in L. lra.
  Qed.
End Bound.
Lemma bound_gen (p : @par2 R) k js n : (0 < p_dx p)%R -> (0 < p_dy p)%R -> (0 < p_eps p)%R -> (0 < p_mu p)%R -> (0 < p_dt p)%R -> (0 < k < 1)%R ->
  (p_dt p * p_dt p * (1 / (p_dx p * p_dx p) + 1 / (p_dy p * p_dy p)) <= k * k * (p_eps p * p_mu p))%R ->
  let s := run2 (step_fdtd p) js zero2 in let s' := run2 (step_fdtd p) (repeat off n) s in let h' := h_fdtd p s' in
  (energy2 p {| ex := ex s'; ey := ey s'; hz := hz h' |} h' <= energy2 p s (h_fdtd p s) / (1 - k))%R.
Proof.
  intros Hx Hy He Hm Dp Hk Hc s s' h'. assert (O : okp p) by (unfold okp; cbn; repeat split; lra).
  assert (Q : quiet (mhf p) (mxf p) (myf p) s') by (apply quiet_run, quiet_run, quiet_zero).
  pose proof (energy_lower p s' k O Hx Hy He Hm Dp ltac:(lra) Hc Q) as L.
  pose proof (C109_energy R _ _ _ p js n O) as E. cbn zeta in E. fold s in E. fold s' in E. rewrite E in L. fold h' in L.
  apply (Rmult_le_reg_l (1 - k)); [lra|]. eapply Rle_trans; [exact L|]. apply Req_le. field. lra.
Qed.

(** With the time step of the solver and cfln < 1, whatever the conductors and currents: once the currents are off, the
    squares of the fields, summed over the grid, never exceed the energy at that time over 1 - cfln. *)
Theorem C109_bounded : forall (p : @par2 R) (cfln c : R) js n, (0 < p_dx p)%R -> (0 < p_dy p)%R -> (0 < p_eps p)%R -> (0 < p_mu p)%R ->
  (0 < c)%R -> (c * c * (p_eps p * p_mu p) = 1)%R -> (0 < cfln < 1)%R -> p_dt p = dt2 sqrt cfln c (p_dx p) (p_dy p) ->
  let s := run2 (step_fdtd p) js zero2 in let s' := run2 (step_fdtd p) (repeat off n) s in let h' := h_fdtd p s' in
  (energy2 p {| ex := ex s'; ey := ey s'; hz := hz h' |} h' <= energy2 p s (h_fdtd p s) / (1 - cfln))%R.
Proof.
  intros p cfln c js n Hx Hy He Hm Hc Hl Hf Hd s s' h'.
  set (k2 := (1 / (p_dx p * p_dx p) + 1 / (p_dy p * p_dy p))%R).
  assert (K : (0 < k2)%R) by (unfold k2; apply Rplus_lt_0_compat; apply Rdiv_lt_0_compat; nra).
  assert (S0 : (0 < sqrt k2)%R) by (apply sqrt_lt_R0; exact K).
  assert (D : p_dt p = (cfln / (c * sqrt k2))%R) by exact Hd.
  assert (Dp : (0 < p_dt p)%R) by (rewrite D; apply Rdiv_lt_0_compat; nra).
  assert (Dc : (p_dt p * p_dt p * k2 = cfln * cfln * (p_eps p * p_mu p))%R).
  { rewrite D. replace (cfln / (c * sqrt k2) * (cfln / (c * sqrt k2)) * k2)%R with (cfln * cfln * k2 / (c * c * (sqrt k2 * sqrt k2)))%R by (field; lra).
    rewrite sqrt_sqrt by lra. replace (p_eps p * p_mu p)%R with (/ (c * c))%R; [field; lra|]. apply (Rmult_eq_reg_l (c * c)); [|nra]. rewrite Hl. field. lra. }
  apply (bound_gen p cfln js n Hx Hy He Hm Dp Hf). fold k2. lra.
Qed.
Print Assumptions C109_bounded.

(** ** C110 *)
(** Dey-Mittra steps keep their own energy: lengths and areas of the cut cells as weights. *)
Definition energy_dm {T} {NT : Num T} (p : @par2 T) (s hnext : @em2 T) : T :=
  (p_eps p * (sum (p_nx p) (fun i => sum (S (p_ny p)) (fun j => p_dy p * g_lx (p_g p) i j * (ex s i j * ex s i j))) +
              sum (S (p_nx p)) (fun i => sum (p_ny p) (fun j => p_dx p * g_ly (p_g p) i j * (ey s i j * ey s i j)))) +
   p_mu p * sum (p_nx p) (fun i => sum (p_ny p) (fun j => g_S (p_g p) i j * (hz s i j * hz hnext i j))))%num.
Section End_.
Context {T : Type} {NT : Num T} {LT : NumLaws T} {OT : NumOrd T}.
Add Field s5 : (@num_field T NT LT).
Lemma energy_end (p : @par2 T) s : okp p -> (forall i j, g_int (p_g p) i j = true -> g_S (p_g p) i j <> nzero) -> energy_dm p s (h_dm p s) = (p_dt p * end_ p s)%num.
Proof.
  intros (Nx & Ny & Ne & Nm & Nt) Ns. unfold energy_dm, end_, en.
  rewrite (sum2_ext (p_nx p) (S (p_ny p)) _ (fun i j => (p_eps p / p_dt p * (p_dy p * g_lx (p_g p) i j * (ex s i j * ex s i j)))%num)) by (intros; field; exact Nt).
  rewrite (sum2_ext (S (p_nx p)) (p_ny p) _ (fun i j => (p_eps p / p_dt p * (p_dx p * g_ly (p_g p) i j * (ey s i j * ey s i j)))%num)) by (intros; field; exact Nt).
  rewrite (sum2_ext (p_nx p) (p_ny p) _ (fun i j => (p_mu p / p_dt p * (g_S (p_g p) i j * (hz s i j * hz (h_dm p s) i j)))%num)).
  - rewrite !sum2_scale. unfold sum2. field. exact Nt.
  - intros i j _ _. unfold hstep, ci. cbn [hz h_dm]. unfold circ. fold (mhf p i j). destruct (mhf p i j) eqn:M; [|field; exact Nt].
    apply andb_true_iff in M as [_ M]. apply Ns in M. field. auto.
Qed.
End End_.
Theorem C110_energy : forall (T : Type) (NT : Num T) (LT : NumLaws T) (OT : NumOrd T) (FT : NumFl T) (FL : NumFlLaws T) (p : @par2 T) c tol xmin ymin js n, okp p ->
  p_g p = base_grid c tol (p_dx p) (p_dy p) xmin ymin ->
  let s := run2 (step_dm p) js zero2 in let s' := run2 (step_dm p) (repeat off n) s in
  energy_dm p s' (h_dm p s') = energy_dm p s (h_dm p s).
Proof.
  intros T NT LT OT FT FL p c tol xmin ymin js n H Hg s s'.
  assert (Ns : forall i j, g_int (p_g p) i j = true -> g_S (p_g p) i j <> nzero) by (rewrite Hg; intros i j I; apply lt_ne; exact I).
  rewrite !energy_end by assumption. f_equal. destruct H as (H1 & H2 & H3 & H4 & H5). apply (end_run p H1 H2 H3 H4 H5 Ns).
  apply quiet_dm_run, quiet_zero.
Qed.
Print Assumptions C110_energy.

(** A grid without conductors. *)
Lemma free_grid (far tol dx dy xmin ymin : R) i j : (0 < tol < 1)%R -> (0 < dx)%R -> (0 < dy)%R ->
  let g := base_grid (no_conductor far) tol dx dy xmin ymin in g_lx g i j = dx /\ g_ly g i j = dy /\ g_S g i j = 1%R /\ g_int g i j = true.
Proof.
  intros Ht Hx Hy g.
  assert (SN : forall d : R, (0 < d)%R -> snap_len tol d d = d).
  { intros d Hd. unfold snap_len. rewrite !nabs_R. cbn [ndiv nsub nmul none_ Num_R]. replace (d / d)%R with 1%R by (field; lra).
    replace (nltb (Rabs 1) tol) with false by (symmetry; apply R_ltb_f; rewrite Rabs_pos_eq; lra).
    replace (nltb (Rabs (1 - 1)) tol) with true by (symmetry; apply R_ltb; rewrite Rabs_pos_eq; lra). ring. }
  assert (O1 : close tol 1%R 1%R = true) by (unfold close; apply R_ltb; rewrite nabs_R; cbn; rewrite Rabs_pos_eq; lra).
  assert (D : forall d : R, (0 < d)%R -> (d / d)%R = 1%R) by (intros; field; lra).
  assert (A : g_S g i j = 1%R).
  { unfold g, base_grid, edge_x, edge_y, edge_len. cbn [g_S no_conductor in_cond]. rewrite !SN by assumption. cbn [ndiv Num_R]. rewrite !D by assumption.
    unfold area. cbn [none_ Num_R]. rewrite !O1. reflexivity. }
  assert (I : g_int g i j = true) by (change (g_int g i j) with (nltb nzero (g_S g i j)); rewrite A; apply R_ltb; cbn; lra).
  split; [|split; [|split; assumption]].
  - unfold g, base_grid, edge_x, edge_len. cbn [g_lx no_conductor in_cond]. rewrite SN by assumption. cbn. field. lra.
  - unfold g, base_grid, edge_y, edge_len. cbn [g_ly no_conductor in_cond]. rewrite SN by assumption. cbn. field. lra.
Qed.
(** the parameters of a run without conductors *)
Definition free_par (far tol xmin ymin : R) (p : @par2 R) : Prop := (0 < tol < 1)%R /\ p_g p = base_grid (no_conductor far) tol (p_dx p) (p_dy p) xmin ymin /\
  (0 < p_dx p)%R /\ (0 < p_dy p)%R /\ (0 < p_eps p)%R /\ (0 < p_mu p)%R.
(** Without conductors Dey-Mittra is the plain scheme with mu divided by dx dy. *)
Theorem C110_free : forall (far tol xmin ymin : R) (p : @par2 R) js, free_par far tol xmin ymin p ->
  let p' := {| p_g := p_g p; p_nx := p_nx p; p_ny := p_ny p; p_dx := p_dx p; p_dy := p_dy p; p_eps := p_eps p; p_mu := (p_mu p / (p_dx p * p_dy p))%R; p_dt := p_dt p |} in
  same (run2 (step_dm p) js zero2) (run2 (step_fdtd p') js zero2).
Proof.
  intros far tol xmin ymin p js (Ht & Hg & Hx & Hy & He & Hm) p'.
  assert (G : forall s s', same s s' -> same (run2 (step_dm p) js s) (run2 (step_fdtd p') js s')).
  { induction js as [|j js IH]; intros s s' E; [exact E|]. cbn. apply IH. change p' with (thin p). apply dm_free; [cbn; lra|cbn; lra|cbn; lra|cbn; lra| |exact E].
    intros a b. rewrite Hg. apply free_grid; assumption. }
  apply G. repeat split.
Qed.
Print Assumptions C110_free.
(** Hence the fields stay bounded when a cell has area at most 1. *)
Definition esum (p : @par2 R) (s : @em2 R) : R :=
  (@sum R _ (p_nx p) (fun i => sum (S (p_ny p)) (fun j => ex s i j * ex s i j)%R) + @sum R _ (S (p_nx p)) (fun i => sum (p_ny p) (fun j => ey s i j * ey s i j)%R))%R.
Theorem C110_bounded_partial : forall (far tol xmin ymin : R) (p : @par2 R) (cfln c : R) js, free_par far tol xmin ymin p -> (p_dx p * p_dy p <= 1)%R ->
  (0 < c)%R -> (c * c * (p_eps p * p_mu p) = 1)%R -> (0 < cfln < 1)%R -> p_dt p = dt2 sqrt cfln c (p_dx p) (p_dy p) ->
  exists B : R, forall n, (esum p (run2 (step_dm p) (js ++ repeat off n)%list zero2) <= B)%R.
Proof.
  intros far tol xmin ymin p cfln c js F Ha Hc Hl Hf Hd. pose proof F as (Ht & Hg & Hx & Hy & He & Hm).
  set (p' := thin p). assert (A0 : (0 < p_dx p * p_dy p)%R) by nra.
  assert (Hm' : (p_mu p <= p_mu p')%R).
  { unfold p', thin. cbn [p_mu]. cbn [ndiv nmul Num_R]. apply (Rmult_le_reg_r (p_dx p * p_dy p)); [exact A0|]. replace (p_mu p / (p_dx p * p_dy p) * (p_dx p * p_dy p))%R with (p_mu p) by (field; lra). nra. }
  set (k2 := (1 / (p_dx p * p_dx p) + 1 / (p_dy p * p_dy p))%R).
  assert (K : (0 < k2)%R) by (unfold k2; apply Rplus_lt_0_compat; apply Rdiv_lt_0_compat; nra).
  assert (S0 : (0 < sqrt k2)%R) by (apply sqrt_lt_R0; exact K).
  assert (D : p_dt p = (cfln / (c * sqrt k2))%R) by exact Hd.
  assert (Dp : (0 < p_dt p)%R) by (rewrite D; apply Rdiv_lt_0_compat; nra).
  assert (Dc : (p_dt p * p_dt p * k2 = cfln * cfln * (p_eps p * p_mu p))%R).
  { rewrite D. replace (cfln / (c * sqrt k2) * (cfln / (c * sqrt k2)) * k2)%R with (cfln * cfln * k2 / (c * c * (sqrt k2 * sqrt k2)))%R by (field; lra).
    rewrite sqrt_sqrt by lra. replace (p_eps p * p_mu p)%R with (/ (c * c))%R; [field; lra|]. apply (Rmult_eq_reg_l (c * c)); [|nra]. rewrite Hl. field. lra. }
  set (s := run2 (step_fdtd p') js zero2). exists (energy2 p' s (h_fdtd p' s) / (1 - cfln) / p_eps p)%R. intros n.
  pose proof (bound_gen p' cfln js n Hx Hy He ltac:(cbn in *; lra) Dp Hf) as B. cbn zeta in B. fold s in B.
  assert (Dc' : (p_dt p' * p_dt p' * (1 / (p_dx p' * p_dx p') + 1 / (p_dy p' * p_dy p')) <= cfln * cfln * (p_eps p' * p_mu p'))%R).
  { change (p_dt p') with (p_dt p). change (p_dx p') with (p_dx p). change (p_dy p') with (p_dy p). change (p_eps p') with (p_eps p). fold k2. rewrite Dc.
    apply Rmult_le_compat_l; [nra|]. apply Rmult_le_compat_l; lra. }
  specialize (B Dc'). pose proof (C110_free far tol xmin ymin p (js ++ repeat off n)%list F) as E. cbn zeta in E. change {| p_g := p_g p; p_nx := _ |} with p' in E.
  unfold run2 in E at 2. rewrite fold_left_app in E. fold (run2 (step_fdtd p') js zero2) in E. fold s in E. fold (run2 (step_fdtd p') (repeat off n) s) in E.
  set (s' := run2 (step_fdtd p') (repeat off n) s) in *. destruct E as (E1 & E2 & _).
  assert (EE : esum p (run2 (step_dm p) (js ++ repeat off n)%list zero2) = esum p s').
  { unfold esum. f_equal; apply (@sum_ext R Num_R); intros i _; apply (@sum_ext R Num_R); intros j _; rewrite ?E1, ?E2; reflexivity. }
  rewrite EE. apply (Rmult_le_reg_l (p_eps p)); [exact He|]. replace (p_eps p * (energy2 p' s (h_fdtd p' s) / (1 - cfln) / p_eps p))%R with (energy2 p' s (h_fdtd p' s) / (1 - cfln))%R by (field; lra).
  eapply Rle_trans; [|exact B]. unfold energy2. cbn [ex ey hz]. fold (esum p' s'). change (esum p' s') with (esum p s'). cbn [nadd nmul Num_R]. change (p_eps p') with (p_eps p).
  match goal with |- (?a <= ?b + ?m * ?x)%R => assert (0 <= m * x)%R; [apply Rmult_le_pos; [cbn in *; lra|]|change b with a; lra] end.
  apply (s2_pos (p_nx p) (p_ny p) (fun i j => hz (h_fdtd p' s') i j * hz (h_fdtd p' s') i j)%R). intros. apply Rle_0_sqr.
Qed.
Print Assumptions C110_bounded_partial.
(** Cells of 5 x 5 without any conductor, cfln = 1/2: after one pulse the field grows fourfold in every step. *)
Definition pgrow : @par2 R := {| p_g := base_grid (no_conductor 1000%R) (/ 1000)%R 5%R 5%R 0%R 0%R; p_nx := 2; p_ny := 1; p_dx := 5%R; p_dy := 5%R;
  p_eps := 1%R; p_mu := 1%R; p_dt := dt2 sqrt (1/2)%R 1%R 5%R 5%R |}.
Definition grown (n : nat) (s : @em2 R) : Prop := exists r, (0 <= r <= 5/4)%R /\ (4 ^ n <= Rabs (ey s 1 0))%R /\ hz s 0 0 = (- hz s 1 0)%R /\
  (2 * p_dt pgrow * hz s 1 0 / 5 = - r * ey s 1 0)%R /\ ey s 0 0 = 0%R /\ ey s 2 0 = 0%R /\ forall i j, ex s i j = 0%R.
Lemma grow_dt : (p_dt pgrow * p_dt pgrow = 25/8)%R /\ (0 < p_dt pgrow)%R.
Proof.
  cbn [p_dt pgrow]. unfold dt2. cbn [nadd nmul ndiv none_ Num_R]. set (k := (1 / (5 * 5) + 1 / (5 * 5))%R).
  assert (K : (0 < sqrt k)%R) by (apply sqrt_lt_R0; unfold k; lra). split; [|apply Rdiv_lt_0_compat; lra].
  replace (1 / 2 / (1 * sqrt k) * (1 / 2 / (1 * sqrt k)))%R with (1 / 4 / (sqrt k * sqrt k))%R by (field; lra). rewrite sqrt_sqrt by (unfold k; lra). unfold k. field.
Qed.
Lemma grow_step n s : grown n s -> grown (S n) (step_dm pgrow (fst off) (snd off) s).
Proof.
  intros (r & Hr & He & Hh & Hu & Z0 & Z2 & Zx). destruct grow_dt as [T2 T0]. set (t := p_dt pgrow) in *. set (e := ey s 1 0) in *. set (h := hz s 1 0) in *.
  assert (G : forall i j, g_lx (p_g pgrow) i j = 5%R /\ g_ly (p_g pgrow) i j = 5%R /\ g_S (p_g pgrow) i j = 1%R /\ g_int (p_g pgrow) i j = true) by (intros; apply free_grid; lra).
  assert (H1 : hz (h_dm pgrow s) 1 0 = (h + 5 * t * e)%R).
  { cbn [hz h_dm]. destruct (G 1 0) as (_ & _ & S1 & I1). rewrite I1. cbn [p_nx p_ny pgrow Nat.ltb Nat.leb andb]. unfold circ. fold t. rewrite S1, Z2, !Zx.
    rewrite (proj1 (proj2 (G 1 0))). change (p_mu pgrow) with 1%R. fold e h. cbn [nsub nadd nmul ndiv Num_R]. field. }
  assert (H0 : hz (h_dm pgrow s) 0 0 = (- (h + 5 * t * e))%R).
  { cbn [hz h_dm]. destruct (G 0 0) as (_ & _ & S1 & I1). rewrite I1. cbn [p_nx p_ny pgrow Nat.ltb Nat.leb andb]. unfold circ. fold t. rewrite S1, Z0, !Zx, Hh.
    rewrite (proj1 (proj2 (G 1 0))). change (p_mu pgrow) with 1%R. fold e h. cbn [nsub nadd nmul ndiv Num_R]. field. }
  assert (E1 : ey (step_dm pgrow (fst off) (snd off) s) 1 0 = ((r - 21/4) * e)%R).
  { unfold step_dm, e_dm. cbn [ey]. rewrite (proj1 (proj2 (G 1 0))). replace (nltb nzero 5%R) with true by (symmetry; apply R_ltb; cbn; lra).
    cbn [p_nx p_ny pgrow Nat.ltb Nat.leb andb]. change (1 - 1) with 0. rewrite H1, H0. change (ey (h_dm pgrow s) 1 0) with e. fold t. change (p_eps pgrow) with 1%R. change (p_dx pgrow) with 5%R.
    cbn [off snd nsub nadd nmul ndiv nzero Num_R].
    replace (e - t / (1 * 5) * (h + 5 * t * e - - (h + 5 * t * e)) - t / 1 * 0)%R with (e - 2 * t * h / 5 - 2 * (t * t) * e)%R by (field; lra). rewrite Hu, T2. field. }
  set (s' := step_dm pgrow (fst off) (snd off) s) in *.
  exists ((25/4 - r) / (21/4 - r))%R. rewrite E1.
  assert (D : (0 < 21/4 - r)%R) by lra.
  change (hz s' 0 0) with (hz (h_dm pgrow s) 0 0). change (hz s' 1 0) with (hz (h_dm pgrow s) 1 0). rewrite H1, H0. split; [|split; [|split; [reflexivity|split; [|split; [exact Z0|split]]]]].
  - split; [apply Rmult_le_pos; [lra|left; apply Rinv_0_lt_compat; exact D]|]. apply (Rmult_le_reg_r (21/4 - r)); [exact D|].
    replace ((25/4 - r) / (21/4 - r) * (21/4 - r))%R with (25/4 - r)%R by (field; lra). lra.
  - rewrite Rabs_mult, (Rabs_left1 (r - 21/4)) by lra. cbn [pow]. pose proof (Rabs_pos e). nra.
  - fold t. replace (2 * t * (h + 5 * t * e) / 5)%R with (2 * t * h / 5 + 2 * (t * t) * e)%R by field. rewrite Hu, T2. field. lra.
  - unfold s', step_dm, e_dm. cbn [ey p_nx pgrow Nat.ltb Nat.leb andb]. exact Z2.
  - intros i j. unfold s', step_dm, e_dm. cbn [ex p_ny pgrow]. replace ((i <? p_nx pgrow) && (1 <=? j) && (j <? 1)) with false; [apply Zx|].
    destruct j as [|j]; [rewrite andb_false_r; reflexivity|]. cbn. rewrite andb_false_r. reflexivity.
Qed.
Theorem C110_refuted : exists (far tol xmin ymin cfln c : R) (p : @par2 R) js, free_par far tol xmin ymin p /\
  (0 < c)%R /\ (c * c * (p_eps p * p_mu p) = 1)%R /\ (0 < cfln < 1)%R /\ p_dt p = dt2 sqrt cfln c (p_dx p) (p_dy p) /\
  forall n, (4 ^ n <= Rabs (ey (run2 (step_dm p) (repeat off n) (run2 (step_dm p) js zero2)) 1 0))%R.
Proof.
  exists 1000%R, (/ 1000)%R, 0%R, 0%R, (1/2)%R, 1%R, pgrow, [((fun _ _ => 0%R), (fun _ _ => (- / p_dt pgrow)%R))].
  split; [unfold free_par; cbn [p_g p_dx p_dy p_eps p_mu pgrow]; repeat split; try lra|]. split; [lra|]. split; [cbn; lra|]. split; [lra|]. split; [reflexivity|]. intros n.
  destruct grow_dt as [T2 T0].
  assert (G : forall i j, g_lx (p_g pgrow) i j = 5%R /\ g_ly (p_g pgrow) i j = 5%R /\ g_S (p_g pgrow) i j = 1%R /\ g_int (p_g pgrow) i j = true) by (intros; apply free_grid; lra).
  assert (Z : forall i j, hz (h_dm pgrow (@zero2 R _)) i j = 0%R).
  { intros i j. cbn [hz h_dm]. destruct (_ && _ && _); [|reflexivity]. unfold circ. cbn [zero2 ex ey hz nsub nadd nmul ndiv nzero Num_R]. ring. }
  assert (B : grown 0 (run2 (step_dm pgrow) [((fun _ _ => 0%R), (fun _ _ => (- / p_dt pgrow)%R))] zero2)).
  { cbn [run2 fold_left fst snd]. unfold step_dm. exists 0%R. cbn [hz e_dm]. rewrite !Z.
    assert (E1 : ey (e_dm pgrow (fun _ _ => 0%R) (fun _ _ => (- / p_dt pgrow)%R) (h_dm pgrow zero2)) 1 0 = 1%R).
    { unfold e_dm. cbn [ey]. rewrite (proj1 (proj2 (G 1 0))). replace (nltb nzero 5%R) with true by (symmetry; apply R_ltb; cbn; lra). cbn [p_nx p_ny Nat.ltb Nat.leb andb].
      change (p_nx pgrow) with 2. change (p_ny pgrow) with 1. cbn [Nat.ltb Nat.leb andb]. rewrite !Z. change (p_eps pgrow) with 1%R. change (ey (h_dm pgrow zero2) 1 0) with 0%R. set (t := p_dt pgrow) in *. cbn [nsub nadd nmul ndiv Num_R]. field. change (p_dx pgrow) with 5%R. split; lra. }
    cbn [hz e_dm] in *. rewrite E1. split; [lra|]. split; [rewrite Rabs_pos_eq; cbn; lra|]. split; [lra|]. split; [lra|]. split; [reflexivity|]. split; [reflexivity|].
    intros i j. unfold e_dm. cbn [ex]. replace ((i <? p_nx pgrow) && (1 <=? j) && (j <? p_ny pgrow)) with false; [reflexivity|].
    destruct j as [|j]; [rewrite andb_false_r; reflexivity|]. cbn. rewrite andb_false_r. reflexivity. }
  set (s := run2 _ _ _) in B. assert (R : grown n (run2 (step_dm pgrow) (repeat off n) s)).
  { assert (Rr : forall m s k, grown k s -> grown (m + k) (run2 (step_dm pgrow) (repeat off m) s)).
    { induction m as [|m IH]; intros s0 k Hs; [exact Hs|]. cbn [repeat run2 fold_left]. change (fold_left _ (repeat off m) ?x) with (run2 (step_dm pgrow) (repeat off m) x).
      replace (S m + k) with (m + S k) by lia. apply IH, grow_step, Hs. }
    specialize (Rr n s 0 B). rewrite Nat.add_0_r in Rr. exact Rr. }
  destruct R as (r & _ & L & _). exact L.
Qed.
Print Assumptions C110_refuted.

(** ** C111 *)
(** On every grid that can be built for 'ECT', the enlarged-cell scheme computes the fields of the Dey-Mittra scheme. *)
Theorem C111_ect : forall (T : Type) (NT : Num T) (LT : NumLaws T) (OT : NumOrd T) (FT : NumFl T) (FL : NumFlLaws T)
  (tol xmin xmax ymin ymax : T) nx ny (c : @cond T) (p : @par2 T) g e js,
  new_grid tol xmin xmax ymin ymax nx ny c "ECT" = Ok (g, Some e) -> p_g p = g -> p_nx p = nx -> p_ny p = ny -> p_mu p <> nzero ->
  same (run2 (step_ect p e) js zero2) (run2 (step_dm p) js zero2).
Proof.
  intros T NT LT OT FT FL tol xmin xmax ymin ymax nx ny c p g e js H Hg Hnx Hny Hm.
  unfold new_grid in H. cbn -[base_grid extensions] in H. destruct (extensions _ nx ny) as [s|] eqn:X; [|discriminate]. cbn in H. injection H as Hg' <-.
  rewrite Hg' in X.
  assert (Un : forall i j, g_unst g i j = nltb (g_S g i j) (g_Sstab g i j)) by (rewrite <- Hg'; reflexivity).
  assert (Ii : forall i j, g_int g i j = nltb nzero (g_S g i j)) by (rewrite <- Hg'; reflexivity).
  assert (Av : forall i j, g_avail g i j = true -> nltb nzero (g_S g i j) = true) by (rewrite <- Hg'; intros i j A; cbn in A; apply andb_true_iff in A; apply A).
  destruct (extensions_idle g nx ny Un Av s X) as [N (_ & _ & _ & I)].
  apply ect_dm_run; [rewrite Hg, Hnx, Hny; exact N|exact I|exact Hm| |repeat split].
  intros i j A. rewrite Hg, Ii in *. apply lt_ne. exact A.
Qed.
Print Assumptions C111_ect.

(** ** C112 *)
(** Where a block lies about the physical grid, which is at (0, 0). *)
Definition pos (b : blk) : Z * Z :=
  (match b with Lx => (-1, 0) | Rx => (1, 0) | Ly => (0, -1) | Ry => (0, 1) | LxLy => (-1, -1) | LxRy => (-1, 1) | RxLy => (1, -1) | RxRy => (1, 1) end)%Z.
Definition dir (d : side) : Z * Z := (match d with SLx => (-1, 0) | SRx => (1, 0) | SLy => (0, -1) | SRy => (0, 1) end)%Z.
(** Blocks are needed beside every absorbing wall and in the corner of two of them. *)
Definition needed (w : walls) (b : blk) : bool :=
  ((fst (pos b) =? 0) || (fst (pos b) =? -1) && w_lx w || (fst (pos b) =? 1) && w_rx w)%Z && ((snd (pos b) =? 0) || (snd (pos b) =? -1) && w_ly w || (snd (pos b) =? 1) && w_ry w)%Z.
Definition width (low mid high : nat) (x : Z) : nat := if (x <? 0)%Z then low else if (0 <? x)%Z then high else mid.
(** Every needed block exists with its size, has its conductivities and coefficients, and is joined to what lies beside
    it: the grid, a needed block, or nothing. *)
Definition complete (w : walls) (nx ny nlx nrx nly nry : nat) (s : pml2) : Prop :=
  (forall b, b_size s b = if needed w b then Some (width nlx nx nrx (fst (pos b)), width nly ny nry (snd (pos b))) else None) /\
  (forall b, needed w b = true -> b_sig s b = true /\ b_coef s b = true) /\
  (forall b d, needed w b = true -> let x := (fst (pos b) + fst (dir d))%Z in let y := (snd (pos b) + snd (dir d))%Z in
    (b_link s b d = Some Main <-> x = 0%Z /\ y = 0%Z) /\ (forall b', b_link s b d = Some (Blk b') <-> pos b' = (x, y) /\ needed w b' = true)).
Definition good_walls (w : walls) : bool := negb (w_rx w) || negb (w_lx w || w_ly w || w_ry w) || w_lx w && w_ly w && w_ry w.
Definition all_b := [Lx; Rx; Ly; Ry; LxLy; LxRy; RxLy; RxRy].
Definition all_d := [SLx; SRx; SLy; SRy].
Definition who_eqb (a b : option who) : bool :=
  match a, b with None, None | Some Main, Some Main => true | Some (Blk x), Some (Blk y) => blk_eqb x y | _, _ => false end.
Definition zz_eqb (a b : Z * Z) : bool := (fst a =? fst b)%Z && (snd a =? snd b)%Z.
Definition beside (w : walls) (b : blk) (d : side) : option who :=
  let q := (fst (pos b) + fst (dir d), snd (pos b) + snd (dir d))%Z in
  if zz_eqb q (0, 0)%Z then Some Main else option_map Blk (List.find (fun b' => zz_eqb (pos b') q && needed w b') all_b).
Definition chk (w : walls) (s : pml2) : bool :=
  forallb (fun b => negb (needed w b) || b_sig s b && b_coef s b && forallb (fun d => who_eqb (b_link s b d) (beside w b d)) all_d) all_b.
Lemma who_eqb_ok : forall a b, who_eqb a b = true -> a = b.
Proof. intros [[|x]|] [[|y]|]; cbn; try discriminate; try reflexivity. destruct x, y; cbn; try discriminate; reflexivity. Qed.
Lemma beside_ok : forall w b d, let x := (fst (pos b) + fst (dir d))%Z in let y := (snd (pos b) + snd (dir d))%Z in
  (beside w b d = Some Main <-> x = 0%Z /\ y = 0%Z) /\ (forall b', beside w b d = Some (Blk b') <-> pos b' = (x, y) /\ needed w b' = true).
Proof.
  intros w b d x y. unfold beside. fold x y. destruct (zz_eqb (x, y) (0, 0)%Z) eqn:Z.
  - unfold zz_eqb in Z. cbn [fst snd] in Z. apply andb_true_iff in Z. destruct Z as [Z1 Z2]. apply Z.eqb_eq in Z1, Z2. split; [tauto|].
    intros b'. split; [discriminate|]. intros [P _]. rewrite Z1, Z2 in P. destruct b'; discriminate.
  - split; [split|].
    + destruct (List.find _ _); discriminate.
    + intros [X Y]. rewrite X, Y in Z. discriminate.
    + intros b'. split.
      * destruct (List.find _ _) eqn:F; [|discriminate]. cbn. intros E. injection E as <-. apply List.find_some in F. destruct F as [_ F]. apply andb_true_iff in F. destruct F as [F N].
        split; [|exact N]. unfold zz_eqb in F. cbn [fst snd] in F. apply andb_true_iff in F. destruct F as [F1 F2]. apply Z.eqb_eq in F1, F2. rewrite <- F1, <- F2. destruct (pos b0); reflexivity.
      * intros [P N]. destruct (List.find _ _) as [b''|] eqn:F.
        -- apply List.find_some in F. destruct F as [_ F]. apply andb_true_iff in F. destruct F as [F _]. unfold zz_eqb in F. cbn [fst snd] in F. apply andb_true_iff in F. destruct F as [F1 F2].
           apply Z.eqb_eq in F1, F2. assert (E : pos b'' = pos b') by (rewrite P, <- F1, <- F2; destruct (pos b''); reflexivity).
           destruct b', b''; try discriminate; reflexivity.
        -- exfalso. assert (I : In b' all_b) by (destruct b'; cbn; tauto). pose proof (List.find_none _ _ F b' I) as K. cbn beta in K. rewrite P, N in K. unfold zz_eqb in K. cbn [fst snd] in K. rewrite !Z.eqb_refl in K. discriminate.
Qed.
Lemma in_all_b : forall b, In b all_b. Proof. intros b; destruct b; cbn; tauto. Qed.
Lemma in_all_d : forall d, In d all_d. Proof. intros b; destruct b; cbn; tauto. Qed.
Lemma build2_table : forall w nx ny nlx nrx nly nry, good_walls w = true ->
  match build2 w nx ny nlx nrx nly nry with
  | Ok s => chk w s = true /\ map (b_size s) all_b = map (fun b => if needed w b then Some (width nlx nx nrx (fst (pos b)), width nly ny nry (snd (pos b))) else None) all_b
  | Err _ => False end.
Proof. intros [a b c d] nx ny nlx nrx nly nry H. destruct a, b, c, d; try discriminate H; vm_compute; split; reflexivity. Qed.
Theorem C112_complete_partial : forall w nx ny nlx nrx nly nry, good_walls w = true -> exists s, build2 w nx ny nlx nrx nly nry = Ok s /\ complete w nx ny nlx nrx nly nry s.
Proof.
  intros w nx ny nlx nrx nly nry H. pose proof (build2_table w nx ny nlx nrx nly nry H) as B. destruct (build2 w nx ny nlx nrx nly nry) as [s|]; [|contradiction].
  exists s. split; [reflexivity|]. destruct B as [C Z]. unfold chk in C. rewrite forallb_forall in C. split; [|split].
  - intros b. unfold all_b in Z. cbn [map] in Z. injection Z as Z1 Z2 Z3 Z4 Z5 Z6 Z7 Z8. destruct b; assumption.
  - intros b N. specialize (C b (in_all_b b)). rewrite N in C. cbn [negb orb] in C. apply andb_true_iff in C. destruct C as [C _]. apply andb_true_iff in C. exact C.
  - intros b d N. specialize (C b (in_all_b b)). rewrite N in C. cbn [negb orb] in C. apply andb_true_iff in C. destruct C as [_ C]. rewrite forallb_forall in C.
    specialize (C d (in_all_d d)). apply who_eqb_ok in C. rewrite C. apply beside_ok.
Qed.
Print Assumptions C112_complete_partial.
(** Construction fails for exactly these absorbing walls: high x with one of the y walls but not the other, and both x
    walls without both y walls. *)
Theorem C112_fails : forall w nx ny nlx nrx nly nry,
  (exists e, build2 w nx ny nlx nrx nly nry = Err e) <-> w_rx w = true /\ (w_ly w <> w_ry w \/ w_lx w = true /\ ~ (w_ly w = true /\ w_ry w = true)).
Proof.
  intros [a b c d] nx ny nlx nrx nly nry. cbn [w_lx w_rx w_ly w_ry].
  assert (B : match build2 {| w_lx := a; w_rx := b; w_ly := c; w_ry := d |} nx ny nlx nrx nly nry with Ok _ => true | Err _ => false end
            = negb (b && (xorb c d || a && negb (c && d)))) by (destruct a, b, c, d; vm_compute; reflexivity).
  destruct (build2 _ nx ny nlx nrx nly nry) as [s|e].
  - split; [intros [e E]; discriminate|]. intros [E [F|[F G]]]; destruct a, b, c, d; try discriminate; exfalso; (apply F; reflexivity) || (apply G; split; reflexivity).
  - split; [intros _|intros _; exists e; reflexivity].
    destruct a, b, c, d; try discriminate; (split; [reflexivity|]); ((left; discriminate) || (right; split; [reflexivity|]; intros [X Y]; discriminate)).
Qed.
Print Assumptions C112_fails.
(** With high x and both y walls but not low x, a corner block has no coefficients: its fields stay zero. *)
Theorem C112_refuted : exists w nx ny nlx nrx nly nry s, build2 w nx ny nlx nrx nly nry = Ok s /\ needed w RxRy = true /\ b_coef s RxRy = false /\
  needed w RxLy = true /\ b_link s RxLy SLx = Some (Blk Ly) /\ b_link s Ly SRx = None.
Proof.
  exists {| w_lx := false; w_rx := true; w_ly := true; w_ry := true |}, 20, 20, 10, 10, 10, 10.
  assert (B : match build2 {| w_lx := false; w_rx := true; w_ly := true; w_ry := true |} 20 20 10 10 10 10 with
              | Ok s => (b_coef s RxRy, b_link s RxLy SLx, b_link s Ly SRx) = (false, Some (Blk Ly), None) | Err _ => False end) by (vm_compute; reflexivity).
  destruct (build2 _ 20 20 10 10 10 10) as [s|]; [|contradiction]. exists s. injection B as B1 B2 B3. repeat split; try reflexivity; assumption.
Qed.
Print Assumptions C112_refuted.
Example C112_case : good_walls {| w_lx := true; w_rx := true; w_ly := true; w_ry := true |} = true /\ good_walls {| w_lx := true; w_rx := false; w_ly := true; w_ry := false |} = true.
Proof. split; reflexivity. Qed.
(** A run: a pulse on a 3 x 3 grid whose cell (1, 1) is cut by the line y = x + 1/2. *)
Example C109_case : let z := Q2Qc 0 in let u := Q2Qc 1 in
  let g := base_grid (plane u (Q2Qc (1 # 2)) z true) (Q2Qc (1 # 1000)) u u z z in
  let p := {| p_g := g; p_nx := 3; p_ny := 3; p_dx := u; p_dy := u; p_eps := u; p_mu := u; p_dt := Q2Qc (1 # 2) |} in
  let j := (fun i j => if Nat.eqb i 1 && Nat.eqb j 1 then u else z, fun _ _ : nat => z) in
  let s := run2 (step_fdtd p) [j; off] zero2 in let d := run2 (step_dm p) [j; off] zero2 in
  (this (g_S g 1 1), this (g_S g 0 1), this (ex s 1 1), this (hz s 1 1), this (hz d 1 1), this (hz d 1 0)) = (7 # 8, 1 # 8, -1 # 4, 1 # 4, 2 # 7, -1 # 4)%Q.
Proof. vm_compute. reflexivity. Qed.
(** An enlarged-cell run on a grid whose upper cells are cut in half. *)
Example C111_case : let z := Q2Qc 0 in let u := Q2Qc 1 in let two := Q2Qc (2 # 1) in
  match new_grid (Q2Qc (1 # 1000)) z two z two 2 2 (plane z (Q2Qc (3 # 2)) z true) "ECT" with
  | Ok (g, Some e) =>
      let p := {| p_g := g; p_nx := 2; p_ny := 2; p_dx := u; p_dy := u; p_eps := u; p_mu := u; p_dt := Q2Qc (1 # 2) |} in
      let j := (fun _ _ : nat => z, fun i j => if Nat.eqb i 1 && Nat.eqb j 1 then u else z) in
      Some (this (g_S g 0 1), this (hz (run2 (step_ect p e) [j; off] zero2) 0 1))
  | _ => None
  end = Some (1 # 2, 1 # 4)%Q.
Proof. vm_compute. reflexivity. Qed.
