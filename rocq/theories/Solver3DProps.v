(** Properties C123 and C124: the schemes of the three-dimensional legacy solver. *)
From Coq Require Import List Arith ZArith Bool String Lia Ring Field QArith Qcanon Reals Lra Psatz.
From Verif Require Import Num Vec FieldModel GridModel GridProofs2 SolverModel SolverCons WakeModel WakeNum StabSum StabGraded Grid2DModel Grid3DModel Solver2DProofs Grid2DProofs Grid2DArea Grid3DProofs Solver3DModel Solver3DProofs Solver3DDm.
Import ListNotations.
Open Scope nat_scope.

(** ** C123 *)
(** Sums over the arrays: eps times the squares of E, and mu times the products of H now and H after the next half step. *)
Definition energy3 {T} {NT : Num T} (p : @par3 T) (s hnext : @em3 T) : T :=
  let S3 a b c f := sum a (fun i => sum b (fun j => sum c (fun k => f i j k))) in
  let nx := c_nx p in let ny := c_ny p in let nz := c_nz p in
  (c_eps p * (S3 nx (S ny) (S nz) (fun i j k => fex s i j k * fex s i j k) + S3 (S nx) ny (S nz) (fun i j k => fey s i j k * fey s i j k) +
              S3 (S nx) (S ny) nz (fun i j k => fez s i j k * fez s i j k)) +
   c_mu p * (S3 (S nx) ny nz (fun i j k => fhx s i j k * fhx hnext i j k) + S3 nx (S ny) nz (fun i j k => fhy s i j k * fhy hnext i j k) +
             S3 nx ny (S nz) (fun i j k => fhz s i j k * fhz hnext i j k)))%num.
Definition okp3 {T} {NT : Num T} (p : @par3 T) : Prop := c_dx p <> nzero /\ c_dy p <> nzero /\ c_dz p <> nzero /\ c_eps p <> nzero /\ c_mu p <> nzero.
(** After any currents, once they are off: the energy stays the same, whatever the conductors. *)
Theorem C123_energy : forall (T : Type) (NT : Num T) (LT : NumLaws T) (OT : NumOrd T) (p : @par3 T) js n, okp3 p ->
  let s := run3 (step_fdtd3 p) js zero3 in let s' := run3 (step_fdtd3 p) (repeat off3 n) s in
  energy3 p s' (h_fdtd3 p s') = energy3 p s (h_fdtd3 p s).
Proof.
  intros T NT LT OT p js n (H1 & H2 & H3 & H4 & H5) s s'. apply (en3_run p H1 H2 H3 H4 H5 n s). apply quiet3_run, quiet3_zero.
Qed.
Print Assumptions C123_energy.

Section Bound3.
  Local Open Scope R_scope.
  Lemma drop_i a b c (f : nat -> nat -> nat -> R) : (forall i j k, 0 <= f i j k) -> sum3 a b c f <= sum3 (S a) b c f.
  Proof. intros H. unfold sum3. cbn [sum nadd Num_R]. assert (0 <= SR b (fun j => SR c (fun k => f a j k))); [|unfold SR in *; lra]. apply SR_pos. intros j _. apply SR_pos. intros k _. apply H. Qed.
  Lemma drop_j a b c (f : nat -> nat -> nat -> R) : (forall i j k, 0 <= f i j k) -> sum3 a b c f <= sum3 a (S b) c f.
  Proof. intros H. apply SR_le. intros i _. cbn [sum nadd Num_R]. assert (0 <= SR c (fun k => f i b k)); [|unfold SR in *; lra]. apply SR_pos. intros k _. apply H. Qed.
  Lemma drop_k a b c (f : nat -> nat -> nat -> R) : (forall i j k, 0 <= f i j k) -> sum3 a b c f <= sum3 a b (S c) f.
  Proof. intros H. apply SR_le. intros i _. apply SR_le. intros j _. cbn [sum nadd Num_R]. pose proof (H i j c). unfold SR in *; lra. Qed.
  Lemma full_i a b c (f : nat -> nat -> nat -> R) : (forall j k, f a j k = 0) -> sum3 (S a) b c f = sum3 a b c f.
  Proof. intros H. unfold sum3. cbn [sum nadd Num_R]. rewrite (sum_0 b (fun j => sum c (fun k => f a j k))); [cbn; ring|]. intros j _. apply sum_0. intros k _. apply H. Qed.
  Lemma full_j a b c (f : nat -> nat -> nat -> R) : (forall i k, f i b k = 0) -> sum3 a (S b) c f = sum3 a b c f.
  Proof. intros H. apply sum_ext. intros i _. cbn [sum nadd Num_R]. rewrite (sum_0 c (fun k => f i b k)); [cbn; ring|]. intros k _. apply H. Qed.
  Lemma full_k a b c (f : nat -> nat -> nat -> R) : (forall i j, f i j c = 0) -> sum3 a b (S c) f = sum3 a b c f.
  Proof. intros H. apply sum_ext. intros i _. apply sum_ext. intros j _. cbn [sum nadd Num_R]. rewrite H. ring. Qed.

  Context (p : @par3 R) (Dx0 : 0 < c_dx p) (Dy0 : 0 < c_dy p) (Dz0 : 0 < c_dz p).
  Let nx := c_nx p. Let ny := c_ny p. Let nz := c_nz p.
  Definition cux (s : em3) i j k : R := (fez s i (S j) k - fez s i j k) / c_dy p - (fey s i j (S k) - fey s i j k) / c_dz p.
  Definition cuy (s : em3) i j k : R := (fex s i j (S k) - fex s i j k) / c_dz p - (fez s (S i) j k - fez s i j k) / c_dx p.
  Definition cuz (s : em3) i j k : R := (fey s (S i) j k - fey s i j k) / c_dx p - (fex s i (S j) k - fex s i j k) / c_dy p.
  Definition K3 : R := / c_dx p * / c_dx p + / c_dy p * / c_dy p + / c_dz p * / c_dz p.
  Lemma curl3 s : quiet3 p s ->
    sum3 (S nx) ny nz (fun i j k => cux s i j k * cux s i j k) + sum3 nx (S ny) nz (fun i j k => cuy s i j k * cuy s i j k) +
      sum3 nx ny (S nz) (fun i j k => cuz s i j k * cuz s i j k) <= 4 * K3 * ee p s.
  Proof.
    intros Q. set (V := c_dx p * c_dy p * c_dz p). assert (V0 : 0 < V) by (unfold V; repeat apply Rmult_lt_0_compat; assumption).
    pose proof (curl_size (S nx) (S ny) (S nz) (fun _ => c_dx p) (fun _ => c_dy p) (fun _ => c_dz p) (fun _ => c_dx p) (fun _ => c_dy p) (fun _ => c_dz p)
      (c_dx p) (c_dy p) (c_dz p) Dx0 Dy0 Dz0 (fun _ _ => Rle_refl _) (fun _ _ => Rle_refl _) (fun _ _ => Rle_refl _) (fun _ _ => Rle_refl _) (fun _ _ => Rle_refl _) (fun _ _ => Rle_refl _)
      (fun _ _ => Rlt_le _ _ Dx0) (fun _ _ => Rlt_le _ _ Dy0) (fun _ _ => Rlt_le _ _ Dz0) (fex s) (fey s) (fez s)) as C.
    assert (En : forall n i, ends (S n) i -> (i = 0 \/ i = n)%nat) by (unfold ends; lia).
    specialize (C ltac:(intros i j k H; refine (wall_ex p s i j k Q _); unfold ny, nz in *; destruct H as [H|H]; apply En in H; tauto)).
    specialize (C ltac:(intros i j k H; refine (wall_ey p s i j k Q _); unfold nx, nz in *; destruct H as [H|H]; apply En in H; tauto)).
    specialize (C ltac:(intros i j k H; refine (wall_ez p s i j k Q _); unfold nx, ny in *; destruct H as [H|H]; apply En in H; tauto)).
    pose proof Q as (Q1 & Q2 & Q3 & _).
    assert (Ox : forall j k, fex s nx j k = 0) by (intros; apply Q1; unfold mex; fold nx; rewrite Nat.ltb_irrefl; reflexivity).
    assert (Oy : forall i k, fey s i ny k = 0) by (intros; apply Q2; unfold mey; fold ny; rewrite Nat.ltb_irrefl, !andb_false_r; reflexivity).
    assert (Oz : forall i j, fez s i j nz = 0) by (intros; apply Q3; unfold mez; fold nz; rewrite Nat.ltb_irrefl, !andb_false_r; reflexivity).
    assert (E : esize (S nx) (S ny) (S nz) (fun _ => c_dx p) (fun _ => c_dy p) (fun _ => c_dz p) (fun _ => c_dx p) (fun _ => c_dy p) (fun _ => c_dz p) (fex s) (fey s) (fez s) = V * ee p s).
    { unfold esize, ee. cbn [nadd nmul Num_R]. fold nx ny nz.
      rewrite <- (full_i nx (S ny) (S nz) (fun i j k => fex s i j k * fex s i j k)) by (intros; rewrite Ox; ring).
      rewrite <- (full_j (S nx) ny (S nz) (fun i j k => fey s i j k * fey s i j k)) by (intros; rewrite Oy; ring).
      rewrite <- (full_k (S nx) (S ny) nz (fun i j k => fez s i j k * fez s i j k)) by (intros; rewrite Oz; ring).
      rewrite !S3_scal. change (S3 (S nx) (S ny) (S nz)) with (@sum3 R Num_R (S nx) (S ny) (S nz)). cbn [nmul Num_R]. unfold V. ring. }
    rewrite E in C.
    assert (L : V * (sum3 (S nx) ny nz (fun i j k => cux s i j k * cux s i j k) + sum3 nx (S ny) nz (fun i j k => cuy s i j k * cuy s i j k) +
      sum3 nx ny (S nz) (fun i j k => cuz s i j k * cuz s i j k)) <=
      csize (S nx) (S ny) (S nz) (fun _ => c_dx p) (fun _ => c_dy p) (fun _ => c_dz p) (fun _ => c_dx p) (fun _ => c_dy p) (fun _ => c_dz p) (fex s) (fey s) (fez s)).
    { unfold csize. rewrite !S3_scal.
      assert (nn : forall n (u : nat -> R) j, (j < n)%nat -> StabGraded.nx (S n) u j = u (S j)) by (intros n u j H; unfold StabGraded.nx; destruct (Nat.ltb_spec (S j) (S n)); [reflexivity|lia]).
      assert (Lx : V * sum3 (S nx) ny nz (fun i j k => cux s i j k * cux s i j k) <= c_dx p / (c_dy p * c_dz p) * S3 (S nx) (S ny) (S nz) (fun i j k =>
        (c_dz p * Dy (S ny) (fez s) i j k - c_dy p * Dz (S nz) (fey s) i j k) * (c_dz p * Dy (S ny) (fez s) i j k - c_dy p * Dz (S nz) (fey s) i j k))).
      { set (F := fun i j k => (c_dz p * Dy (S ny) (fez s) i j k - c_dy p * Dz (S nz) (fey s) i j k) * (c_dz p * Dy (S ny) (fez s) i j k - c_dy p * Dz (S nz) (fey s) i j k)).
        apply Rle_trans with (c_dx p / (c_dy p * c_dz p) * sum3 (S nx) ny nz F).
        - apply Req_le. rewrite <- (@sum3_scale R Num_R NumLaws_R (S nx) ny nz V), <- (@sum3_scale R Num_R NumLaws_R (S nx) ny nz (c_dx p / (c_dy p * c_dz p))). apply sum3_ext. intros i j k Hi Hj Hk.
          unfold F, Dy, Dz. rewrite !nn by assumption. cbn [nmul Num_R]. unfold cux, V. field. lra.
        - apply Rmult_le_compat_l; [apply Rlt_le, Rdiv_lt_0_compat; [lra|apply Rmult_lt_0_compat; lra]|].
          eapply Rle_trans; [apply drop_j|apply drop_k]; intros; apply Rle_0_sqr. }
      assert (Ly : V * sum3 nx (S ny) nz (fun i j k => cuy s i j k * cuy s i j k) <= c_dy p / (c_dx p * c_dz p) * S3 (S nx) (S ny) (S nz) (fun i j k =>
        (c_dx p * Dz (S nz) (fex s) i j k - c_dz p * Dx (S nx) (fez s) i j k) * (c_dx p * Dz (S nz) (fex s) i j k - c_dz p * Dx (S nx) (fez s) i j k))).
      { set (F := fun i j k => (c_dx p * Dz (S nz) (fex s) i j k - c_dz p * Dx (S nx) (fez s) i j k) * (c_dx p * Dz (S nz) (fex s) i j k - c_dz p * Dx (S nx) (fez s) i j k)).
        apply Rle_trans with (c_dy p / (c_dx p * c_dz p) * sum3 nx (S ny) nz F).
        - apply Req_le. rewrite <- (@sum3_scale R Num_R NumLaws_R nx (S ny) nz V), <- (@sum3_scale R Num_R NumLaws_R nx (S ny) nz (c_dy p / (c_dx p * c_dz p))). apply sum3_ext. intros i j k Hi Hj Hk.
          unfold F, Dx, Dz. rewrite !nn by assumption. cbn [nmul Num_R]. unfold cuy, V. field. lra.
        - apply Rmult_le_compat_l; [apply Rlt_le, Rdiv_lt_0_compat; [lra|apply Rmult_lt_0_compat; lra]|].
          eapply Rle_trans; [apply drop_i|apply drop_k]; intros; apply Rle_0_sqr. }
      assert (Lz : V * sum3 nx ny (S nz) (fun i j k => cuz s i j k * cuz s i j k) <= c_dz p / (c_dx p * c_dy p) * S3 (S nx) (S ny) (S nz) (fun i j k =>
        (c_dy p * Dx (S nx) (fey s) i j k - c_dx p * Dy (S ny) (fex s) i j k) * (c_dy p * Dx (S nx) (fey s) i j k - c_dx p * Dy (S ny) (fex s) i j k))).
      { set (F := fun i j k => (c_dy p * Dx (S nx) (fey s) i j k - c_dx p * Dy (S ny) (fex s) i j k) * (c_dy p * Dx (S nx) (fey s) i j k - c_dx p * Dy (S ny) (fex s) i j k)).
        apply Rle_trans with (c_dz p / (c_dx p * c_dy p) * sum3 nx ny (S nz) F).
        - apply Req_le. rewrite <- (@sum3_scale R Num_R NumLaws_R nx ny (S nz) V), <- (@sum3_scale R Num_R NumLaws_R nx ny (S nz) (c_dz p / (c_dx p * c_dy p))). apply sum3_ext. intros i j k Hi Hj Hk.
          unfold F, Dx, Dy. rewrite !nn by assumption. cbn [nmul Num_R]. unfold cuz, V. field. lra.
        - apply Rmult_le_compat_l; [apply Rlt_le, Rdiv_lt_0_compat; [lra|apply Rmult_lt_0_compat; lra]|].
          eapply Rle_trans; [apply drop_i|apply drop_j]; intros; apply Rle_0_sqr. }
      lra. }
    apply (Rmult_le_reg_l V); [exact V0|]. eapply Rle_trans; [exact L|]. eapply Rle_trans; [exact C|]. apply Req_le. unfold K3. ring.
  Qed.
  Lemma mag_low a b c (m : nat -> nat -> nat -> bool) (h0 h cu : nat -> nat -> nat -> R) t k : 0 < k ->
    (forall i j l, m i j l = true -> h0 i j l = h i j l + t * cu i j l) -> (forall i j l, m i j l = false -> h i j l = 0) ->
    (1 - k) * sum3 a b c (fun i j l => h i j l * h i j l) - t * t / (4 * k) * sum3 a b c (fun i j l => cu i j l * cu i j l) <= sum3 a b c (fun i j l => h0 i j l * h i j l).
  Proof.
    intros Hk H1 H0.
    apply Rle_trans with (sum3 a b c (fun i j l => (1 - k) * (h i j l * h i j l) - t * t / (4 * k) * (cu i j l * cu i j l))).
    - apply Req_le. symmetry. etransitivity; [apply (@sum3_sub R Num_R NumLaws_R a b c (fun i j l => (1 - k) * (h i j l * h i j l)) (fun i j l => t * t / (4 * k) * (cu i j l * cu i j l)))|].
      rewrite <- (@sum3_scale R Num_R NumLaws_R a b c (1 - k)), <- (@sum3_scale R Num_R NumLaws_R a b c (t * t / (4 * k))). reflexivity.
    - apply SR_le. intros i _. apply SR_le. intros j _. apply SR_le. intros l _. destruct (m i j l) eqn:M.
      + rewrite (H1 i j l M). set (x := h i j l). set (y := t * cu i j l). replace (t * t / (4 * k) * (cu i j l * cu i j l)) with (y * y / (4 * k)) by (unfold y; field; lra).
        assert (S : 0 <= (2 * k * x + y) * (2 * k * x + y) / (4 * k)). { apply Rmult_le_pos; [apply Rle_0_sqr|]. left. apply Rinv_0_lt_compat. lra. }
        replace ((2 * k * x + y) * (2 * k * x + y) / (4 * k)) with (k * (x * x) + x * y + y * y / (4 * k)) in S by (field; lra). lra.
      + rewrite (H0 i j l M). assert (S : 0 <= t * t / (4 * k) * (cu i j l * cu i j l)).
        { apply Rmult_le_pos; [|apply Rle_0_sqr]. apply Rmult_le_pos; [apply Rle_0_sqr|]. left. apply Rinv_0_lt_compat. lra. }
        lra.
  Qed.
  Lemma energy_lower3 s k : 0 < c_eps p -> 0 < c_mu p -> 0 < k -> c_dt p * c_dt p * K3 <= k * k * (c_eps p * c_mu p) -> quiet3 p s ->
    let h := h_fdtd3 p s in
    (1 - k) * energy3 p {| fex := fex s; fey := fey s; fez := fez s; fhx := fhx h; fhy := fhy h; fhz := fhz h |} h <= energy3 p s h.
  Proof.
    intros He Hm Hk Hc Q h. pose proof (curl3 s Q) as C. pose proof (quiet3_h p s Q) as (_ & _ & _ & Q4 & Q5 & Q6). fold h in Q4, Q5, Q6.
    set (t := c_dt p / c_mu p).
    assert (LX := mag_low (S nx) ny nz (mhx p) (fhx s) (fhx h) (cux s) t k Hk
      ltac:(intros i j l M; unfold h, h_fdtd3; cbn [fhx]; fold (mhx p i j l); rewrite M; unfold cux, t; cbn [nsub nadd nmul ndiv Num_R]; field; lra) Q4).
    assert (LY := mag_low nx (S ny) nz (mhy p) (fhy s) (fhy h) (cuy s) t k Hk
      ltac:(intros i j l M; unfold h, h_fdtd3; cbn [fhy]; fold (mhy p i j l); rewrite M; unfold cuy, t; cbn [nsub nadd nmul ndiv Num_R]; field; lra) Q5).
    assert (LZ := mag_low nx ny (S nz) (mhz p) (fhz s) (fhz h) (cuz s) t k Hk
      ltac:(intros i j l M; unfold h, h_fdtd3; cbn [fhz]; fold (mhz p i j l); rewrite M; unfold cuz, t; cbn [nsub nadd nmul ndiv Num_R]; field; lra) Q6).
    set (cc := sum3 (S nx) ny nz (fun i j k => cux s i j k * cux s i j k) + sum3 nx (S ny) nz (fun i j k => cuy s i j k * cuy s i j k) +
      sum3 nx ny (S nz) (fun i j k => cuz s i j k * cuz s i j k)) in *.
    set (E := ee p s) in *.
    set (H2 := sum3 (S nx) ny nz (fun i j l => fhx h i j l * fhx h i j l) + sum3 nx (S ny) nz (fun i j l => fhy h i j l * fhy h i j l) + sum3 nx ny (S nz) (fun i j l => fhz h i j l * fhz h i j l)).
    set (H1 := sum3 (S nx) ny nz (fun i j l => fhx s i j l * fhx h i j l) + sum3 nx (S ny) nz (fun i j l => fhy s i j l * fhy h i j l) + sum3 nx ny (S nz) (fun i j l => fhz s i j l * fhz h i j l)).
    assert (L : (1 - k) * H2 - t * t / (4 * k) * cc <= H1) by (unfold H1, H2, cc; lra).
    change (energy3 p s h) with (c_eps p * E + c_mu p * H1).
    change (energy3 p {| fex := fex s; fey := fey s; fez := fez s; fhx := fhx h; fhy := fhy h; fhz := fhz h |} h) with (c_eps p * E + c_mu p * H2).
    assert (E0 : 0 <= E). { unfold E, ee. cbn [nadd nmul Num_R]. apply Rplus_le_le_0_compat; [apply Rplus_le_le_0_compat|]; apply SR_pos; intros i _; apply SR_pos; intros j _; apply SR_pos; intros l _; apply Rle_0_sqr. }
    assert (F : c_mu p * (t * t / (4 * k) * cc) <= k * (c_eps p * E)).
    { apply Rle_trans with (c_mu p * (t * t / (4 * k) * (4 * K3 * E))).
      - apply Rmult_le_compat_l; [lra|]. apply Rmult_le_compat_l; [|exact C]. apply Rmult_le_pos; [apply Rle_0_sqr|]. left. apply Rinv_0_lt_compat. lra.
      - replace (c_mu p * (t * t / (4 * k) * (4 * K3 * E))) with ((c_dt p * c_dt p * K3) * (E / (k * c_mu p))) by (unfold t; field; lra).
        apply Rle_trans with (k * k * (c_eps p * c_mu p) * (E / (k * c_mu p))).
        + apply Rmult_le_compat_r; [|exact Hc]. apply Rmult_le_pos; [exact E0|]. left. apply Rinv_0_lt_compat. apply Rmult_lt_0_compat; lra.
        + apply Req_le. field. lra. }
    apply (Rmult_le_compat_l (c_mu p)) in L; [|lra]. rewrite Rmult_minus_distr_l in L. lra.
  Qed.
End Bound3.
(** With the time step of the solver and cfln < 1, whatever the conductors and currents: once the currents are off, the squares
    of the fields, summed over the grid, never exceed the energy at that time over 1 - cfln. *)
Theorem C123_bounded : forall (p : @par3 R) (cfln c : R) js n, (0 < c_dx p)%R -> (0 < c_dy p)%R -> (0 < c_dz p)%R -> (0 < c_eps p)%R -> (0 < c_mu p)%R ->
  (0 < c)%R -> (c * c * (c_eps p * c_mu p) = 1)%R -> (0 < cfln < 1)%R -> c_dt p = dt3 sqrt cfln c (c_dx p) (c_dy p) (c_dz p) ->
  let s := run3 (step_fdtd3 p) js zero3 in let s' := run3 (step_fdtd3 p) (repeat off3 n) s in let h' := h_fdtd3 p s' in
  (energy3 p {| fex := fex s'; fey := fey s'; fez := fez s'; fhx := fhx h'; fhy := fhy h'; fhz := fhz h' |} h' <= energy3 p s (h_fdtd3 p s) / (1 - cfln))%R.
Proof.
  intros p cfln c js n Hx Hy Hz He Hm Hc Hl Hf Hd s s' h'.
  assert (O : okp3 p) by (unfold okp3; cbn; repeat split; lra).
  assert (Q : quiet3 p s') by (apply quiet3_run, quiet3_run, quiet3_zero).
  set (k2 := K3 p). assert (K : (0 < k2)%R).
  { unfold k2, K3. pose proof (Rinv_0_lt_compat _ Hx). pose proof (Rinv_0_lt_compat _ Hy). pose proof (Rinv_0_lt_compat _ Hz). repeat apply Rplus_lt_0_compat; apply Rmult_lt_0_compat; assumption. }
  assert (S0 : (0 < sqrt k2)%R) by (apply sqrt_lt_R0; exact K).
  assert (D : c_dt p = (cfln / (c * sqrt k2))%R).
  { rewrite Hd. unfold dt3. cbn [ndiv nmul nadd none_ Num_R]. do 3 f_equal. unfold k2, K3. field. lra. }
  assert (Dc : (c_dt p * c_dt p * k2 = cfln * cfln * (c_eps p * c_mu p))%R).
  { rewrite D. replace (cfln / (c * sqrt k2) * (cfln / (c * sqrt k2)) * k2)%R with (cfln * cfln * k2 / (c * c * (sqrt k2 * sqrt k2)))%R by (field; lra).
    rewrite sqrt_sqrt by lra. replace (c_eps p * c_mu p)%R with (/ (c * c))%R; [field; lra|]. apply (Rmult_eq_reg_l (c * c)); [|nra]. rewrite Hl. field. lra. }
  pose proof (energy_lower3 p Hx Hy Hz s' cfln He Hm ltac:(lra) (Req_le _ _ Dc) Q) as L. cbn zeta in L. fold h' in L.
  pose proof (C123_energy R _ _ _ p js n O) as E. cbn zeta in E. fold s in E. fold s' in E. fold h' in E. rewrite E in L.
  apply (Rmult_le_reg_l (1 - cfln)); [lra|]. eapply Rle_trans; [exact L|]. apply Req_le. field. lra.
Qed.
Print Assumptions C123_bounded.
(** A pulse on a 3 x 3 x 2 grid above the conducting plane z = 1/2. *)
Example C123_case : let z := Q2Qc 0 in let u := Q2Qc 1 in
  let g := base_grid3 (plane3 (Q2Qc 1000) z z (Q2Qc (1 # 2)) z z u) (Q2Qc (1 # 8)) u u u z z z in
  let p := {| c_g := g; c_nx := 3; c_ny := 3; c_nz := 2; c_dx := u; c_dy := u; c_dz := u; c_eps := u; c_mu := u; c_dt := Q2Qc (1 # 2) |} in
  let j := {| fjx := fun _ _ _ => z; fjy := fun _ _ _ => z; fjz := fun i j k => if Nat.eqb i 1 && Nat.eqb j 1 && Nat.eqb k 0 then u else z |} in
  let s := run3 (step_fdtd3 p) [j; off3] zero3 in let s' := step_fdtd3 p off3 s in let d := run3 (step_dm3 p) [j; off3] zero3 in
  (this (q_lz g 1 1 0), this (g_S (q_yz g 1) 1 0), this (fez s 1 1 0), this (fhx s 1 1 0), this (fhx d 1 1 0)) = (1 # 2, 1 # 2, 0, -1 # 4, -1 # 4)%Q /\
  this (energy3 p s (h_fdtd3 p s)) = (1 # 4)%Q /\ this (energy3 p s' (h_fdtd3 p s')) = (1 # 4)%Q.
Proof. vm_compute. repeat split. Qed.

(** ** C124 *)
(** The Dey-Mittra step keeps an energy of its own, whatever the conductors: the stored lengths and areas are weights. *)
Definition energy_dm3 {T} {NT : Num T} (p : @par3 T) (s hnext : @em3 T) : T :=
  let S3 a b c f := sum a (fun i => sum b (fun j => sum c (fun k => f i j k))) in
  let nx := c_nx p in let ny := c_ny p in let nz := c_nz p in let dx := c_dx p in let dy := c_dy p in let dz := c_dz p in
  ((S3 nx (S ny) (S nz) (fun i j k => c_eps p * (dy * dz) * q_lx (c_g p) i j k * (fex s i j k * fex s i j k)) +
    S3 (S nx) ny (S nz) (fun i j k => c_eps p * (dx * dz) * q_ly (c_g p) i j k * (fey s i j k * fey s i j k)) +
    S3 (S nx) (S ny) nz (fun i j k => c_eps p * (dx * dy) * q_lz (c_g p) i j k * (fez s i j k * fez s i j k))) +
   (S3 (S nx) ny nz (fun i j k => c_mu p * dx * g_S (q_yz (c_g p) i) j k * (fhx s i j k * fhx hnext i j k)) +
    S3 nx (S ny) nz (fun i j k => c_mu p * dy * g_S (q_zx (c_g p) j) i k * (fhy s i j k * fhy hnext i j k)) +
    S3 nx ny (S nz) (fun i j k => c_mu p * dz * g_S (q_xy (c_g p) k) i j * (fhz s i j k * fhz hnext i j k))))%num.
Theorem C124_energy : forall (T : Type) (NT : Num T) (LT : NumLaws T) (OT : NumOrd T) (FT : NumFl T) (FL : NumFlLaws T) (p : @par3 T) c tol xmin ymin zmin js n, okp3 p ->
  c_g p = base_grid3 c tol (c_dx p) (c_dy p) (c_dz p) xmin ymin zmin ->
  let s := run3 (step_dm3 p) js zero3 in let s' := run3 (step_dm3 p) (repeat off3 n) s in
  energy_dm3 p s' (h_dm3 p s') = energy_dm3 p s (h_dm3 p s).
Proof.
  intros T NT LT OT FT FL p c tol xmin ymin zmin js n (H1 & H2 & H3 & H4 & H5) Hg s s'.
  assert (A : forall i j k, g_int (q_xy (c_g p) k) i j = nltb nzero (g_S (q_xy (c_g p) k) i j)) by (rewrite Hg; reflexivity).
  assert (B : forall i j k, g_int (q_yz (c_g p) i) j k = nltb nzero (g_S (q_yz (c_g p) i) j k)) by (rewrite Hg; reflexivity).
  assert (C : forall i j k, g_int (q_zx (c_g p) j) i k = nltb nzero (g_S (q_zx (c_g p) j) i k)) by (rewrite Hg; reflexivity).
  apply (en_dm3_run p A B C ltac:(intros x K; apply lt_ne; exact K) H1 H2 H3 H4 H5 n s). apply quiet3_dm_run; [exact A|exact B|exact C|apply quiet3_zero].
Qed.
Print Assumptions C124_energy.

(** A grid without conductors. *)
Definition free_par3 (far tol xmin ymin zmin : R) (p : @par3 R) : Prop := (0 < tol < 1)%R /\ c_g p = base_grid3 (no_conductor3 far) tol (c_dx p) (c_dy p) (c_dz p) xmin ymin zmin /\
  (0 < c_dx p)%R /\ (0 < c_dy p)%R /\ (0 < c_dz p)%R /\ (0 < c_eps p)%R /\ (0 < c_mu p)%R.
Lemma snap_full (tol d : R) : (0 < tol < 1)%R -> (0 < d)%R -> snap_len tol d d = d.
Proof.
  intros Ht Hd. unfold snap_len. rewrite !nabs_R. cbn [ndiv nsub nmul none_ Num_R]. replace (d / d)%R with 1%R by (field; lra).
  replace (nltb (Rabs 1) tol) with false by (symmetry; apply R_ltb_f; rewrite Rabs_pos_eq; lra).
  replace (nltb (Rabs (1 - 1)) tol) with true by (symmetry; apply R_ltb; rewrite Rabs_pos_eq; lra). ring.
Qed.
Lemma renorm_full (d : R) : (0 < d)%R -> renorm d d = d. Proof. intros H. unfold renorm. cbn. field. lra. Qed.
Lemma free_grid3 (far tol xmin ymin zmin : R) p i j k : free_par3 far tol xmin ymin zmin p ->
  q_lx (c_g p) i j k = c_dx p /\ q_ly (c_g p) i j k = c_dy p /\ q_lz (c_g p) i j k = c_dz p /\
  g_S (q_xy (c_g p) k) i j = 1%R /\ g_S (q_yz (c_g p) i) j k = 1%R /\ g_S (q_zx (c_g p) j) i k = 1%R /\
  g_int (q_xy (c_g p) k) i j = true /\ g_int (q_yz (c_g p) i) j k = true /\ g_int (q_zx (c_g p) j) i k = true.
Proof.
  intros (Ht & -> & Hx & Hy & Hz & _). unfold base_grid3, edge3_x, edge3_y, edge3_z, edge_len. cbn [in3 no_conductor3].
  assert (O1 : close tol 1%R 1%R = true) by (unfold close; apply R_ltb; rewrite nabs_R; cbn; rewrite Rabs_pos_eq; lra).
  assert (D : forall d : R, (0 < d)%R -> (d / d)%R = 1%R) by (intros; field; lra).
  assert (A : area tol 1%R 1%R 1%R 1%R = 1%R) by (unfold area; cbn [none_ Num_R]; rewrite !O1; reflexivity).
  assert (P : nltb nzero 1%R = true) by (apply R_ltb; cbn; lra).
  cbn [q_lx q_ly q_lz q_xy q_yz q_zx faces g_S g_int]. rewrite !snap_full by assumption. repeat rewrite !renorm_full by assumption. cbn [ndiv Num_R]. rewrite !D by assumption. rewrite !A.
  repeat split; exact P.
Qed.
(** One half step of the magnetic field by Dey-Mittra changes every component by the area of its face times the change of the
    plain scheme. *)
Theorem C124_face : forall (far tol xmin ymin zmin : R) (p : @par3 R) s i j k, free_par3 far tol xmin ymin zmin p ->
  let d := h_dm3 p s in let f := h_fdtd3 p s in
  (fhx d i j k - fhx s i j k = c_dy p * c_dz p * (fhx f i j k - fhx s i j k))%R /\
  (fhy d i j k - fhy s i j k = c_dz p * c_dx p * (fhy f i j k - fhy s i j k))%R /\
  (fhz d i j k - fhz s i j k = c_dx p * c_dy p * (fhz f i j k - fhz s i j k))%R.
Proof.
  intros far tol xmin ymin zmin p s i j k F d f.
  assert (G := fun i j k => free_grid3 far tol xmin ymin zmin p i j k F). destruct F as (_ & _ & Hx & Hy & Hz & He & Hm).
  assert (P : nltb nzero 1%R = true) by (apply R_ltb; cbn; lra). unfold d, f, h_dm3, h_fdtd3, v_xy, v_yz, v_zx. cbn [fhx fhy fhz].
  destruct (G i j k) as (X & Y & Z & S1 & S2 & S3 & I1 & I2 & I3). destruct (G (S i) j k) as (_ & Yi & Zi & _). destruct (G i (S j) k) as (Xj & _ & Zj & _). destruct (G i j (S k)) as (Xk & Yk & _).
  rewrite X, Y, Z, S1, S2, S3, I1, I2, I3, Yi, Zi, Xj, Zj, Xk, Yk, P, !andb_true_r. cbn [nsub nadd nmul ndiv Num_R].
  split; [|split]; match goal with |- context [if ?b then _ else _] => destruct b end; field; lra.
Qed.
Print Assumptions C124_face.
Definition same3 {T} (s s' : @em3 T) : Prop := forall i j k, fex s i j k = fex s' i j k /\ fey s i j k = fey s' i j k /\ fez s i j k = fez s' i j k /\
  fhx s i j k = fhx s' i j k /\ fhy s i j k = fhy s' i j k /\ fhz s i j k = fhz s' i j k.
Lemma same3_h (p : @par3 R) s s' : same3 s s' -> same3 (h_fdtd3 p s) (h_fdtd3 p s').
Proof.
  intros E i j k. assert (X := fun i j k => proj1 (E i j k)). assert (Y := fun i j k => proj1 (proj2 (E i j k))). assert (Z := fun i j k => proj1 (proj2 (proj2 (E i j k)))).
  destruct (E i j k) as (_ & _ & _ & A & B & C). unfold h_fdtd3. cbn [fex fey fez fhx fhy fhz]. rewrite A, B, C, !X, !Y, !Z. repeat split.
Qed.
Lemma same3_e (p q : @par3 R) c s s' : c_g p = c_g q -> c_nx p = c_nx q -> c_ny p = c_ny q -> c_nz p = c_nz q -> c_dx p = c_dx q -> c_dy p = c_dy q -> c_dz p = c_dz q ->
  c_eps p = c_eps q -> c_dt p = c_dt q -> same3 s s' -> same3 (e_adv3 p c s) (e_adv3 q c s').
Proof.
  intros E1 E2 E3 E4 E5 E6 E7 E8 E9 E i j k. assert (X := fun i j k => proj1 (proj2 (proj2 (proj2 (E i j k))))). assert (Y := fun i j k => proj1 (proj2 (proj2 (proj2 (proj2 (E i j k)))))).
  assert (Z := fun i j k => proj2 (proj2 (proj2 (proj2 (proj2 (E i j k)))))).
  destruct (E i j k) as (A & B & C & _). unfold e_adv3. cbn [fex fey fez fhx fhy fhz]. rewrite E1, E2, E3, E4, E5, E6, E7, E8, E9, A, B, C, !X, !Y, !Z. repeat split.
Qed.
Definition thin3 (p : @par3 R) : par3 := {| c_g := c_g p; c_nx := c_nx p; c_ny := c_ny p; c_nz := c_nz p; c_dx := c_dx p; c_dy := c_dy p; c_dz := c_dz p; c_eps := c_eps p;
  c_mu := (c_mu p / (c_dx p * c_dx p))%R; c_dt := c_dt p |}.
(** On cubes without conductors Dey-Mittra is the plain scheme with mu divided by the area of a face. *)
Theorem C124_free : forall (far tol xmin ymin zmin : R) (p : @par3 R) js, free_par3 far tol xmin ymin zmin p -> c_dy p = c_dx p -> c_dz p = c_dx p ->
  let p' := {| c_g := c_g p; c_nx := c_nx p; c_ny := c_ny p; c_nz := c_nz p; c_dx := c_dx p; c_dy := c_dy p; c_dz := c_dz p; c_eps := c_eps p;
               c_mu := (c_mu p / (c_dx p * c_dx p))%R; c_dt := c_dt p |} in
  same3 (run3 (step_dm3 p) js zero3) (run3 (step_fdtd3 p') js zero3).
Proof.
  intros far tol xmin ymin zmin p js F Ey Ez p'.
  assert (G : forall s s', same3 s s' -> same3 (run3 (step_dm3 p) js s) (run3 (step_fdtd3 p') js s')).
  { induction js as [|c js IH]; intros s s' E; [exact E|]. cbn. apply IH. unfold step_dm3, step_fdtd3. apply same3_e; try reflexivity.
    assert (H : same3 (h_dm3 p s) (h_fdtd3 p' s)).
    { intros i j k. destruct (C124_face far tol xmin ymin zmin p s i j k F) as (X & Y & Z). destruct F as (_ & _ & Hx & Hy & Hz & He & Hm).
      assert (U : forall i j k, fhx (h_fdtd3 p' s) i j k = (fhx s i j k + c_dx p * c_dx p * (fhx (h_fdtd3 p s) i j k - fhx s i j k))%R /\
         fhy (h_fdtd3 p' s) i j k = (fhy s i j k + c_dx p * c_dx p * (fhy (h_fdtd3 p s) i j k - fhy s i j k))%R /\
         fhz (h_fdtd3 p' s) i j k = (fhz s i j k + c_dx p * c_dx p * (fhz (h_fdtd3 p s) i j k - fhz s i j k))%R).
      { intros a b c'. unfold h_fdtd3, p'. cbn [fhx fhy fhz c_g c_nx c_ny c_nz c_dx c_dy c_dz c_mu c_dt]. rewrite Ey, Ez. cbn [nsub nadd nmul ndiv Num_R].
        split; [|split]; match goal with |- context [if ?b then _ else _] => destruct b end; field; lra. }
      destruct (U i j k) as (U1 & U2 & U3). rewrite U1, U2, U3. cbn zeta in X, Y, Z. rewrite Ey, Ez in X. rewrite Ez in Y. rewrite Ey in Z.
      repeat split; lra. }
    intros i j k. pose proof (same3_h p' s s' E i j k) as K. specialize (H i j k). intuition congruence. }
  apply G. repeat split.
Qed.
Print Assumptions C124_free.
(** Hence the fields stay bounded when cfln times the side of the cubes is below 1. *)
Lemma bound_gen3 (p : @par3 R) k js n : (0 < c_dx p)%R -> (0 < c_dy p)%R -> (0 < c_dz p)%R -> (0 < c_eps p)%R -> (0 < c_mu p)%R -> (0 < k < 1)%R ->
  (c_dt p * c_dt p * K3 p <= k * k * (c_eps p * c_mu p))%R ->
  let s := run3 (step_fdtd3 p) js zero3 in let s' := run3 (step_fdtd3 p) (repeat off3 n) s in let h' := h_fdtd3 p s' in
  (energy3 p {| fex := fex s'; fey := fey s'; fez := fez s'; fhx := fhx h'; fhy := fhy h'; fhz := fhz h' |} h' <= energy3 p s (h_fdtd3 p s) / (1 - k))%R.
Proof.
  intros Hx Hy Hz He Hm Hf Dc s s' h'.
  assert (O : okp3 p) by (unfold okp3; cbn; repeat split; lra).
  assert (Q : quiet3 p s') by (apply quiet3_run, quiet3_run, quiet3_zero).
  pose proof (energy_lower3 p Hx Hy Hz s' k He Hm ltac:(lra) Dc Q) as L. cbn zeta in L. fold h' in L.
  pose proof (C123_energy R _ _ _ p js n O) as E. cbn zeta in E. fold s in E. fold s' in E. fold h' in E. rewrite E in L.
  apply (Rmult_le_reg_l (1 - k)); [lra|]. eapply Rle_trans; [exact L|]. apply Req_le. field. lra.
Qed.
Definition esum3 (p : @par3 R) (s : @em3 R) : R :=
  let S3 a b c f := sum a (fun i => sum b (fun j => sum c (fun k => f i j k))) in
  (S3 (c_nx p) (S (c_ny p)) (S (c_nz p)) (fun i j k => fex s i j k * fex s i j k) + S3 (S (c_nx p)) (c_ny p) (S (c_nz p)) (fun i j k => fey s i j k * fey s i j k) +
   S3 (S (c_nx p)) (S (c_ny p)) (c_nz p) (fun i j k => fez s i j k * fez s i j k))%R.
Theorem C124_bounded_partial : forall (far tol xmin ymin zmin : R) (p : @par3 R) (cfln c : R) js, free_par3 far tol xmin ymin zmin p -> c_dy p = c_dx p -> c_dz p = c_dx p ->
  (0 < c)%R -> (c * c * (c_eps p * c_mu p) = 1)%R -> (0 < cfln)%R -> (cfln * c_dx p < 1)%R -> c_dt p = dt3 sqrt cfln c (c_dx p) (c_dy p) (c_dz p) ->
  exists B : R, forall n, (esum3 p (run3 (step_dm3 p) (js ++ repeat off3 n)%list zero3) <= B)%R.
Proof.
  intros far tol xmin ymin zmin p cfln c js F Ey Ez Hc Hl Hf Hs Hd. pose proof F as (Ht & Hg & Hx & Hy & Hz & He & Hm).
  set (p' := thin3 p). set (d := c_dx p) in *. set (k := (cfln * d)%R).
  assert (K0 : (0 < k)%R) by (apply Rmult_lt_0_compat; assumption).
  assert (Hm' : (0 < c_mu p')%R) by (cbn; apply Rdiv_lt_0_compat; [exact Hm|fold d; nra]).
  assert (Dc : (c_dt p' * c_dt p' * K3 p' <= k * k * (c_eps p' * c_mu p'))%R).
  { change (c_dt p') with (c_dt p). change (c_eps p') with (c_eps p). change (c_mu p') with (c_mu p / (d * d))%R. change (K3 p') with (K3 p). apply Req_le.
    assert (Kd : K3 p = (3 / (d * d))%R) by (unfold K3; rewrite Ey, Ez; fold d; field; lra).
    assert (D : c_dt p = (cfln / (c * sqrt (3 / (d * d))))%R).
    { rewrite Hd. unfold dt3. cbn [ndiv nmul nadd none_ Num_R]. do 3 f_equal. rewrite Ey, Ez. field. lra. }
    assert (P3 : (0 < 3 / (d * d))%R) by (apply Rdiv_lt_0_compat; nra). set (q := (3 / (d * d))%R) in *.
    assert (S0 : (0 < sqrt q)%R) by (apply sqrt_lt_R0; exact P3). rewrite Kd, D.
    replace (cfln / (c * sqrt q) * (cfln / (c * sqrt q)) * q)%R with (cfln * cfln * q / (c * c * (sqrt q * sqrt q)))%R by (field; lra).
    rewrite sqrt_sqrt by lra. replace (k * k * (c_eps p * (c_mu p / (d * d))))%R with (cfln * cfln * (c_eps p * c_mu p))%R by (unfold k; field; lra).
    replace (c_eps p * c_mu p)%R with (/ (c * c))%R; [field; lra|]. apply (Rmult_eq_reg_l (c * c)); [|nra]. rewrite Hl. field. lra. }
  set (s := run3 (step_fdtd3 p') js zero3). exists (energy3 p' s (h_fdtd3 p' s) / (1 - k) / c_eps p)%R. intros n.
  pose proof (bound_gen3 p' k js n Hx Hy Hz He Hm' (conj K0 Hs) Dc) as B. cbn zeta in B. fold s in B.
  pose proof (C124_free far tol xmin ymin zmin p (js ++ repeat off3 n)%list F Ey Ez) as E. cbn zeta in E. change {| c_g := c_g p; c_nx := _ |} with p' in E.
  unfold run3 in E at 2. rewrite fold_left_app in E. fold (run3 (step_fdtd3 p') js zero3) in E. fold s in E. fold (run3 (step_fdtd3 p') (repeat off3 n) s) in E.
  set (s' := run3 (step_fdtd3 p') (repeat off3 n) s) in *.
  assert (EE : esum3 p (run3 (step_dm3 p) (js ++ repeat off3 n)%list zero3) = esum3 p s').
  { unfold esum3. cbn zeta. apply (f_equal2 Rplus); [apply (f_equal2 Rplus)|]; (apply (@sum_ext R Num_R); intros i _; apply (@sum_ext R Num_R); intros j _; apply (@sum_ext R Num_R); intros l _); destruct (E i j l) as (E1 & E2 & E3 & _); rewrite ?E1, ?E2, ?E3; reflexivity. }
  rewrite EE. apply (Rmult_le_reg_l (c_eps p)); [exact He|].
  replace (c_eps p * (energy3 p' s (h_fdtd3 p' s) / (1 - k) / c_eps p))%R with (energy3 p' s (h_fdtd3 p' s) / (1 - k))%R by (field; unfold k; lra).
  eapply Rle_trans; [|exact B]. unfold energy3. cbn [fex fey fez fhx fhy fhz]. cbn zeta. change (c_eps p') with (c_eps p). cbn [nadd nmul Num_R].
  match goal with |- (?a <= ?b + ?m * ?x)%R => assert (0 <= m * x)%R; [apply Rmult_le_pos; [lra|]|change b with a; lra] end.
  apply Rplus_le_le_0_compat; [apply Rplus_le_le_0_compat|]; apply SR_pos; intros i _; apply SR_pos; intros j _; apply SR_pos; intros l _; apply Rle_0_sqr.
Qed.
Print Assumptions C124_bounded_partial.
(** Cubes of side 5 without any conductor, cfln = 1/2: after one pulse the field grows fourfold in every step. *)
Definition pgrow3 : @par3 R := {| c_g := base_grid3 (no_conductor3 1000%R) (/ 1000)%R 5%R 5%R 5%R 0%R 0%R 0%R; c_nx := 2; c_ny := 2; c_nz := 1; c_dx := 5%R; c_dy := 5%R; c_dz := 5%R;
  c_eps := 1%R; c_mu := 1%R; c_dt := dt3 sqrt (1/2)%R 1%R 5%R 5%R 5%R |}.
Lemma free_grow3 : free_par3 1000%R (/ 1000)%R 0%R 0%R 0%R pgrow3.
Proof. unfold free_par3. cbn [c_g c_dx c_dy c_dz c_eps c_mu pgrow3]. repeat split; lra. Qed.
Lemma grow3_dt : (c_dt pgrow3 * c_dt pgrow3 = 25/12)%R /\ (0 < c_dt pgrow3)%R.
Proof.
  cbn [c_dt pgrow3]. unfold dt3. cbn [nadd nmul ndiv none_ Num_R]. set (k := (1 / (5 * 5) + 1 / (5 * 5) + 1 / (5 * 5))%R).
  assert (K : (0 < sqrt k)%R) by (apply sqrt_lt_R0; unfold k; lra). split; [|apply Rdiv_lt_0_compat; lra].
  replace (1 / 2 / (1 * sqrt k) * (1 / 2 / (1 * sqrt k)))%R with (1 / 4 / (sqrt k * sqrt k))%R by (field; lra). rewrite sqrt_sqrt by (unfold k; lra). unfold k. field.
Qed.
Definition grown3 (n : nat) (s : @em3 R) : Prop := exists r h, (0 <= r <= 5/4)%R /\ (4 ^ n <= Rabs (fez s 1 1 0))%R /\
  (fhx s 1 0 0 = - h /\ fhx s 1 1 0 = h /\ fhy s 0 1 0 = h /\ fhy s 1 1 0 = - h)%R /\ (4 * c_dt pgrow3 * h / 5 = - r * fez s 1 1 0)%R /\
  fez s 1 0 0 = 0%R /\ fez s 1 2 0 = 0%R /\ fez s 0 1 0 = 0%R /\ fez s 2 1 0 = 0%R /\ (forall i j k, fex s i j k = 0%R) /\ (forall i j k, fey s i j k = 0%R).
Lemma dm3_hx s j : (j < 2)%nat -> (forall i j k, fey s i j k = 0%R) -> fhx (h_dm3 pgrow3 s) 1 j 0 = (fhx s 1 j 0 - 5 * c_dt pgrow3 * (fez s 1 (S j) 0 - fez s 1 j 0))%R.
Proof.
  intros Hj Y. destruct (free_grid3 _ _ _ _ _ _ 1 j 0 free_grow3) as (_ & _ & Z & _ & S2 & _ & _ & I2 & _). destruct (free_grid3 _ _ _ _ _ _ 1 (S j) 0 free_grow3) as (_ & _ & Z' & _).
  unfold h_dm3, v_yz. cbn [fhx]. rewrite I2, S2, Z, Z', !Y. change (c_dz pgrow3) with 5%R. change (c_mu pgrow3) with 1%R.
  replace ((1 <=? c_nx pgrow3) && (j <? c_ny pgrow3) && (0 <? c_nz pgrow3) && true) with true; [|symmetry; rewrite !andb_true_iff, !Nat.ltb_lt, Nat.leb_le; cbn; lia].
  cbn [nsub nadd nmul ndiv Num_R]. field.
Qed.
Lemma dm3_hy s i : (i < 2)%nat -> (forall i j k, fex s i j k = 0%R) -> fhy (h_dm3 pgrow3 s) i 1 0 = (fhy s i 1 0 - 5 * c_dt pgrow3 * (fez s i 1 0 - fez s (S i) 1 0))%R.
Proof.
  intros Hi X. destruct (free_grid3 _ _ _ _ _ _ i 1 0 free_grow3) as (_ & _ & Z & _ & _ & S3 & _ & _ & I3). destruct (free_grid3 _ _ _ _ _ _ (S i) 1 0 free_grow3) as (_ & _ & Z' & _).
  unfold h_dm3, v_zx. cbn [fhy]. rewrite I3, S3, Z, Z', !X. change (c_dz pgrow3) with 5%R. change (c_mu pgrow3) with 1%R.
  replace ((i <? c_nx pgrow3) && (1 <=? c_ny pgrow3) && (0 <? c_nz pgrow3) && true) with true; [|symmetry; rewrite !andb_true_iff, !Nat.ltb_lt, Nat.leb_le; cbn; lia].
  cbn [nsub nadd nmul ndiv Num_R]. field.
Qed.
Lemma dm3_ez c s : fez (e_adv3 pgrow3 c s) 1 1 0 = (fez s 1 1 0 - c_dt pgrow3 * fjz c 1 1 0 + c_dt pgrow3 / 5 * (fhy s 1 1 0 - fhy s 0 1 0) - c_dt pgrow3 / 5 * (fhx s 1 1 0 - fhx s 1 0 0))%R.
Proof.
  destruct (free_grid3 _ _ _ _ _ _ 1 1 0 free_grow3) as (_ & _ & Z & _). unfold e_adv3. cbn [fez]. rewrite Z. change (c_dz pgrow3) with 5%R.
  replace (nltb nzero 5%R) with true by (symmetry; apply R_ltb; cbn; lra). change (c_nx pgrow3) with 2. change (c_ny pgrow3) with 2. change (c_nz pgrow3) with 1. cbn [Nat.ltb Nat.leb andb Nat.sub].
  change (c_eps pgrow3) with 1%R. change (c_dx pgrow3) with 5%R. change (c_dy pgrow3) with 5%R. set (t := c_dt pgrow3). cbn [nsub nadd nmul ndiv Num_R]. field.
Qed.
Lemma dm3_still c s : (forall i j k, fex s i j k = 0%R) -> (forall i j k, fey s i j k = 0%R) ->
  let s' := step_dm3 pgrow3 c s in (forall i j k, fex s' i j k = 0%R) /\ (forall i j k, fey s' i j k = 0%R) /\
  fez s' 1 0 0 = fez s 1 0 0 /\ fez s' 1 2 0 = fez s 1 2 0 /\ fez s' 0 1 0 = fez s 0 1 0 /\ fez s' 2 1 0 = fez s 2 1 0.
Proof.
  intros X Y s'. split; [|split].
  - intros i j k. unfold s', step_dm3, e_adv3. cbn [fex]. match goal with |- (if ?b then _ else _) = _ => replace b with false; [apply X|] end. symmetry. apply not_true_is_false. rewrite !andb_true_iff, !Nat.ltb_lt, !Nat.leb_le. cbn. lia.
  - intros i j k. unfold s', step_dm3, e_adv3. cbn [fey]. match goal with |- (if ?b then _ else _) = _ => replace b with false; [apply Y|] end. symmetry. apply not_true_is_false. rewrite !andb_true_iff, !Nat.ltb_lt, !Nat.leb_le. cbn. lia.
  - repeat split.
Qed.
Lemma grow3_step n s : grown3 n s -> grown3 (S n) (step_dm3 pgrow3 off3 s).
Proof.
  intros (r & h & Hr & He & (H1 & H2 & H3 & H4) & Hu & Z0 & Z2 & Z3 & Z4 & Zx & Zy). destruct grow3_dt as [T2 T0].
  destruct (dm3_still off3 s Zx Zy) as (X & Y & A & B & C & D).
  pose proof (dm3_hx s 0 ltac:(lia) Zy) as P0. pose proof (dm3_hx s 1 ltac:(lia) Zy) as P1. pose proof (dm3_hy s 0 ltac:(lia) Zx) as Q0. pose proof (dm3_hy s 1 ltac:(lia) Zx) as Q1.
  pose proof (dm3_ez off3 (h_dm3 pgrow3 s)) as E. change (e_adv3 pgrow3 off3 (h_dm3 pgrow3 s)) with (step_dm3 pgrow3 off3 s) in E.
  set (s' := step_dm3 pgrow3 off3 s) in *. set (t := c_dt pgrow3) in *. set (e := fez s 1 1 0) in *.
  change (fez (h_dm3 pgrow3 s) 1 1 0) with e in E. change (fjz off3 1 1 0) with 0%R in E.
  rewrite H1, Z0 in P0. rewrite H2, Z2 in P1. rewrite H3, Z3 in Q0. rewrite H4, Z4 in Q1. rewrite P0, P1, Q0, Q1 in E. fold e in P0, P1, Q0, Q1, E.
  assert (E1 : fez s' 1 1 0 = ((r - 22/3) * e)%R).
  { rewrite E. transitivity (e - 4 * t * h / 5 - 4 * (t * t) * e)%R; [field|]. rewrite Hu, T2. field. }
  assert (L : (0 < 22/3 - r)%R) by lra.
  exists ((25/3 - r) / (22/3 - r))%R, (h + 5 * t * e)%R. rewrite E1. split; [|split; [|split; [|split; [|split; [|split; [|split; [|split; [|split]]]]]]]].
  - split; [apply Rmult_le_pos; [lra|left; apply Rinv_0_lt_compat; exact L]|]. apply (Rmult_le_reg_r (22/3 - r)); [exact L|].
    replace ((25/3 - r) / (22/3 - r) * (22/3 - r))%R with (25/3 - r)%R by (field; lra). lra.
  - rewrite Rabs_mult, (Rabs_left1 (r - 22/3)) by lra. cbn [pow]. pose proof (Rabs_pos e). nra.
  - change (fhx s') with (fhx (h_dm3 pgrow3 s)). change (fhy s') with (fhy (h_dm3 pgrow3 s)). rewrite P0, P1, Q0, Q1. repeat split; ring.
  - fold t. replace (4 * t * (h + 5 * t * e) / 5)%R with (4 * t * h / 5 + 4 * (t * t) * e)%R by field. rewrite Hu, T2. field. lra.
  - rewrite A. exact Z0.
  - rewrite B. exact Z2.
  - rewrite C. exact Z3.
  - rewrite D. exact Z4.
  - exact X.
  - exact Y.
Qed.
Theorem C124_refuted : exists (far tol xmin ymin zmin cfln c : R) (p : @par3 R) js, free_par3 far tol xmin ymin zmin p /\
  (0 < c)%R /\ (c * c * (c_eps p * c_mu p) = 1)%R /\ (0 < cfln < 1)%R /\ c_dt p = dt3 sqrt cfln c (c_dx p) (c_dy p) (c_dz p) /\
  forall n, (4 ^ n <= Rabs (fez (run3 (step_dm3 p) (repeat off3 n) (run3 (step_dm3 p) js zero3)) 1 1 0))%R.
Proof.
  set (pulse := {| fjx := fun _ _ _ => 0%R; fjy := fun _ _ _ => 0%R; fjz := fun _ _ _ => (- / c_dt pgrow3)%R |} : @cur3 R).
  exists 1000%R, (/ 1000)%R, 0%R, 0%R, 0%R, (1/2)%R, 1%R, pgrow3, [pulse].
  split; [exact free_grow3|]. split; [lra|]. split; [cbn; lra|]. split; [lra|]. split; [reflexivity|]. intros n. destruct grow3_dt as [T2 T0].
  assert (B : grown3 0 (run3 (step_dm3 pgrow3) [pulse] zero3)).
  { change (run3 (step_dm3 pgrow3) [pulse] zero3) with (step_dm3 pgrow3 pulse zero3). destruct (dm3_still pulse (@zero3 R Num_R) ltac:(intros; reflexivity) ltac:(intros; reflexivity)) as (X & Y & A & B & C & D).
    pose proof (dm3_hx (@zero3 R Num_R) 0 ltac:(lia) ltac:(intros; reflexivity)) as P0. pose proof (dm3_hx (@zero3 R Num_R) 1 ltac:(lia) ltac:(intros; reflexivity)) as P1.
    pose proof (dm3_hy (@zero3 R Num_R) 0 ltac:(lia) ltac:(intros; reflexivity)) as Q0. pose proof (dm3_hy (@zero3 R Num_R) 1 ltac:(lia) ltac:(intros; reflexivity)) as Q1. cbn [fhx fhy fez zero3 nzero Num_R] in P0, P1, Q0, Q1.
    pose proof (dm3_ez pulse (h_dm3 pgrow3 zero3)) as E. change (e_adv3 pgrow3 pulse (h_dm3 pgrow3 zero3)) with (step_dm3 pgrow3 pulse zero3) in E.
    set (s' := step_dm3 pgrow3 pulse zero3) in *. change (fez (h_dm3 pgrow3 zero3) 1 1 0) with 0%R in E. cbn [fjz pulse] in E. rewrite P0, P1, Q0, Q1 in E.
    assert (E1 : fez s' 1 1 0 = 1%R) by (rewrite E; set (t := c_dt pgrow3) in *; field; lra).
    exists 0%R, 0%R. rewrite E1. split; [lra|]. split; [rewrite Rabs_pos_eq; cbn; lra|]. split; [|split; [lra|]].
    - change (fhx s') with (fhx (h_dm3 pgrow3 zero3)). change (fhy s') with (fhy (h_dm3 pgrow3 zero3)). rewrite P0, P1, Q0, Q1. repeat split; ring.
    - rewrite A, B, C, D. repeat split; try exact X; exact Y. }
  set (s := run3 _ _ _) in B. assert (R : grown3 n (run3 (step_dm3 pgrow3) (repeat off3 n) s)).
  { assert (Rr : forall m s k, grown3 k s -> grown3 (m + k) (run3 (step_dm3 pgrow3) (repeat off3 m) s)).
    { induction m as [|m IH]; intros s0 k Hs; [exact Hs|]. cbn [repeat run3 fold_left]. change (fold_left _ (repeat off3 m) ?x) with (run3 (step_dm3 pgrow3) (repeat off3 m) x).
      replace (S m + k) with (m + S k) by lia. apply IH, grow3_step, Hs. }
    specialize (Rr n s 0 B). rewrite Nat.add_0_r in Rr. exact Rr. }
  destruct R as (r & h & _ & L & _). exact L.
Qed.
Print Assumptions C124_refuted.
(** The parameters of C124_bounded_partial: cubes of side 1/2. *)
Example C124_case : let p := {| c_g := base_grid3 (no_conductor3 1000%R) (/ 1000)%R (1/2)%R (1/2)%R (1/2)%R 0%R 0%R 0%R; c_nx := 4; c_ny := 4; c_nz := 4;
    c_dx := (1/2)%R; c_dy := (1/2)%R; c_dz := (1/2)%R; c_eps := 1%R; c_mu := 1%R; c_dt := dt3 sqrt (1/2)%R 1%R (1/2)%R (1/2)%R (1/2)%R |} in
  free_par3 1000%R (/ 1000)%R 0%R 0%R 0%R p /\ (1/2 * c_dx p < 1)%R /\ okp3 p.
Proof. unfold free_par3, okp3. cbn. repeat split; lra. Qed.
