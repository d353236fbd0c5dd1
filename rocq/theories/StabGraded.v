(** Lemmas: the norm of the discrete curl on a graded mesh in a box whose walls hold the tangential E at zero. *)
From Coq Require Import List Arith Bool Lia Reals Lra.
From Verif Require Import Num Vec Index Matrix StabSum.
Open Scope nat_scope.

Lemma SR_swap a b (f : nat -> nat -> R) : SR a (fun i => SR b (fun j => f i j)) = SR b (fun j => SR a (fun i => f i j)).
Proof.
  induction a as [|a IH].
  - symmetry. apply SR_zero. intros; reflexivity.
  - rewrite SR_S, IH, <- SR_plus. apply SR_ext. intros j _. rewrite SR_S. reflexivity.
Qed.
Lemma sq_pos (x : R) : (0 <= x * x)%R.
Proof. apply Rle_0_sqr. Qed.

(** Next and previous value, 0 beyond the ends. *)
Definition nx (n : nat) (u : nat -> R) (j : nat) : R := if S j <? n then u (S j) else 0%R.
Definition pv (u : nat -> R) (j : nat) : R := match j with 0 => 0%R | S j => u j end.
Lemma SR_adj n u v : SR n (fun j => (nx n u j * v j)%R) = SR n (fun j => (u j * pv v j)%R).
Proof.
  destruct n as [|m]; [reflexivity|]. rewrite SR_S, SR_first. unfold nx at 2. rewrite Nat.ltb_irrefl. cbn [pv].
  rewrite (SR_ext m (fun j => (nx (S m) u j * v j)%R) (fun j => (u (S j) * v j)%R)); [lra|].
  intros j Hj. unfold nx. destruct (Nat.ltb_spec (S j) (S m)); [reflexivity|lia].
Qed.
Lemma SR_nx n u : (SR n (fun j => nx n u j * nx n u j) <= SR n (fun j => u j * u j))%R.
Proof.
  destruct n as [|m]; [right; reflexivity|]. rewrite SR_S, SR_first. unfold nx at 3 4. rewrite Nat.ltb_irrefl.
  rewrite (SR_ext m (fun j => (nx (S m) u j * nx (S m) u j)%R) (fun j => (u (S j) * u (S j))%R)).
  - pose proof (sq_pos (u 0%nat)). lra.
  - intros j Hj. unfold nx. destruct (Nat.ltb_spec (S j) (S m)); [reflexivity|lia].
Qed.
Lemma SR_pv n u : (SR n (fun j => pv u j * pv u j) <= SR n (fun j => u j * u j))%R.
Proof.
  destruct n as [|m]; [right; reflexivity|]. rewrite SR_first, SR_S. cbn [pv]. pose proof (sq_pos (u m)). lra.
Qed.

Section Line.
  Context (n : nat) (h : R) (Ph : (0 < h)%R).
  Lemma line_next (l t u : nat -> R) : (forall j, j < n -> (h <= l j)%R) -> (forall j, j < n -> (h <= t j)%R \/ u j = 0%R) ->
    (SR n (fun j => (nx n u j - u j) * (nx n u j - u j) / l j) <= 4 * (/ h * / h) * SR n (fun j => t j * (u j * u j)))%R.
  Proof.
    intros Hl Ht. pose proof (Rinv_0_lt_compat h Ph) as Pi.
    assert (A : (SR n (fun j => (nx n u j - u j) * (nx n u j - u j) / l j) <= SR n (fun j => / h * (2 * (nx n u j * nx n u j) + 2 * (u j * u j))))%R).
    { apply SR_le. intros j Hj. pose proof (Hl j Hj) as L. unfold Rdiv. rewrite Rmult_comm. apply Rmult_le_compat.
      - left. apply Rinv_0_lt_compat. lra.
      - apply sq_pos.
      - apply Rinv_le_contravar; assumption.
      - pose proof (sq_pos (nx n u j + u j)). lra. }
    rewrite SR_scal, SR_plus, !SR_scal in A. pose proof (SR_nx n u) as B.
    assert (C : (SR n (fun j => u j * u j) <= / h * SR n (fun j => t j * (u j * u j)))%R).
    { rewrite <- SR_scal. apply SR_le. intros j Hj. destruct (Ht j Hj) as [Q|Q].
      - pose proof (sq_pos (u j)) as P2. assert (1 <= / h * t j)%R. { rewrite <- (Rinv_l h) by lra. apply Rmult_le_compat_l; lra. } rewrite <- Rmult_assoc. nra.
      - rewrite Q. lra. }
    eapply Rle_trans; [exact A|]. 
    apply Rle_trans with (/ h * (4 * SR n (fun j => u j * u j)))%R; [apply Rmult_le_compat_l; lra|].
    replace (4 * (/ h * / h) * SR n (fun j => t j * (u j * u j)))%R with (/ h * (4 * (/ h * SR n (fun j => t j * (u j * u j)))))%R by ring.
    apply Rmult_le_compat_l; lra.
  Qed.
  Lemma line_prev (l u : nat -> R) : (forall j, j < n -> (h <= l j)%R) ->
    (SR n (fun j => (u j - pv u j) * (u j - pv u j) / h) <= 4 * (/ h * / h) * SR n (fun j => l j * (u j * u j)))%R.
  Proof.
    intros Hl. pose proof (Rinv_0_lt_compat h Ph) as Pi.
    assert (A : (SR n (fun j => (u j - pv u j) * (u j - pv u j) / h) <= SR n (fun j => / h * (2 * (pv u j * pv u j) + 2 * (u j * u j))))%R).
    { apply SR_le. intros j Hj. unfold Rdiv. rewrite Rmult_comm. apply Rmult_le_compat_l; [lra|]. pose proof (sq_pos (u j + pv u j)). lra. }
    rewrite SR_scal, SR_plus, !SR_scal in A. pose proof (SR_pv n u) as B.
    assert (C : (SR n (fun j => u j * u j) <= / h * SR n (fun j => l j * (u j * u j)))%R).
    { rewrite <- SR_scal. apply SR_le. intros j Hj. pose proof (Hl j Hj).
      pose proof (sq_pos (u j)) as P2. assert (1 <= / h * l j)%R. { rewrite <- (Rinv_l h) by lra. apply Rmult_le_compat_l; lra. } rewrite <- Rmult_assoc. nra. }
    eapply Rle_trans; [exact A|].
    apply Rle_trans with (/ h * (4 * SR n (fun j => u j * u j)))%R; [apply Rmult_le_compat_l; lra|].
    replace (4 * (/ h * / h) * SR n (fun j => l j * (u j * u j)))%R with (/ h * (4 * (/ h * SR n (fun j => l j * (u j * u j)))))%R by ring.
    apply Rmult_le_compat_l; lra.
  Qed.
End Line.

(** Differences in two directions: forward ones pair as backward ones do. *)
Section Plane.
  Context (Y Z : nat) (u v : nat -> nat -> R).
  Let S2 (f : nat -> nat -> R) : R := SR Y (fun j => SR Z (fun k => f j k)).
  Lemma S2_ext f g : (forall j k, j < Y -> k < Z -> f j k = g j k) -> S2 f = S2 g.
  Proof. intros H. apply SR_ext. intros j Hj. apply SR_ext. intros k Hk. apply H; assumption. Qed.
  Lemma S2_plus f g : S2 (fun j k => (f j k + g j k)%R) = (S2 f + S2 g)%R.
  Proof. unfold S2. rewrite <- SR_plus. apply SR_ext. intros j _. apply SR_plus. Qed.
  Lemma S2_neg f : S2 (fun j k => (- f j k)%R) = (- S2 f)%R.
  Proof.
    unfold S2. rewrite (SR_ext Y _ (fun j => (-1 * SR Z (fun k => f j k))%R)).
    - rewrite SR_scal. ring.
    - intros j _. rewrite <- SR_scal. apply SR_ext. intros; ring.
  Qed.
  Lemma adjK f g : S2 (fun j k => (nx Z (f j) k * g j k)%R) = S2 (fun j k => (f j k * pv (g j) k)%R).
  Proof. apply SR_ext. intros j _. apply SR_adj. Qed.
  Lemma adjJ f g : S2 (fun j k => (nx Y (fun j => f j k) j * g j k)%R) = S2 (fun j k => (f j k * pv (fun j => g j k) j)%R).
  Proof. unfold S2. rewrite SR_swap. rewrite (SR_swap Y Z (fun j k => (f j k * pv (fun j => g j k) j)%R)). apply SR_ext. intros k _. apply SR_adj. Qed.
  Lemma plane_cross :
    S2 (fun j k => ((nx Y (fun j => u j k) j - u j k) * (nx Z (v j) k - v j k))%R) =
    S2 (fun j k => ((u j k - pv (u j) k) * (v j k - pv (fun j => v j k) j))%R).
  Proof.
    rewrite (S2_ext _ (fun j k => (nx Y (fun j => u j k) j * nx Z (v j) k + (u j k * v j k + (- (nx Y (fun j => u j k) j * v j k) + - (u j k * nx Z (v j) k))))%R)) by (intros; ring).
    rewrite (S2_ext (fun j k => ((u j k - pv (u j) k) * (v j k - pv (fun j => v j k) j))%R)
                    (fun j k => (pv (u j) k * pv (fun j => v j k) j + (u j k * v j k + (- (u j k * pv (fun j => v j k) j) + - (pv (u j) k * v j k))))%R)) by (intros; ring).
    rewrite !S2_plus, !S2_neg. f_equal; [|f_equal; f_equal; f_equal].
    - rewrite (S2_ext _ (fun j k => (nx Z (v j) k * nx Y (fun j => u j k) j)%R)) by (intros; ring).
      rewrite (adjK v (fun j k => nx Y (fun j => u j k) j)).
      rewrite (S2_ext _ (fun j k => (nx Y (fun j => pv (u j) k) j * v j k)%R)).
      + rewrite (adjJ (fun j k => pv (u j) k) v). reflexivity.
      + intros j k Hj Hk. rewrite Rmult_comm. f_equal. destruct k as [|k]; cbn [pv]; [|reflexivity]. unfold nx. destruct (S j <? Y); reflexivity.
    - apply adjJ.
    - rewrite (S2_ext _ (fun j k => (nx Z (v j) k * u j k)%R)) by (intros; ring). rewrite (adjK v u). apply S2_ext. intros; ring.
  Qed.
End Plane.

Section Box.
  Context (X Y Z : nat) (lx ly lz tx ty tz : nat -> R) (hx hy hz : R).
  Context (Px : (0 < hx)%R) (Py : (0 < hy)%R) (Pz : (0 < hz)%R).
  Context (Lx : forall i, i < X -> (hx <= lx i)%R) (Ly : forall j, j < Y -> (hy <= ly j)%R) (Lz : forall k, k < Z -> (hz <= lz k)%R).
  (** Dual lengths; the last one is of no interest. *)
  Context (Tx : forall i, i + 1 < X -> (hx <= tx i)%R) (Ty : forall j, j + 1 < Y -> (hy <= ty j)%R) (Tz : forall k, k + 1 < Z -> (hz <= tz k)%R).
  Context (Nx : forall i, i < X -> (0 <= tx i)%R) (Ny : forall j, j < Y -> (0 <= ty j)%R) (Nz : forall k, k < Z -> (0 <= tz k)%R).
  Definition S3 (f : nat -> nat -> nat -> R) : R := SR X (fun i => SR Y (fun j => SR Z (fun k => f i j k))).
  Definition ends (n i : nat) : Prop := i = 0 \/ i + 1 = n.

  Lemma S3_ext f g : (forall i j k, i < X -> j < Y -> k < Z -> f i j k = g i j k) -> S3 f = S3 g.
  Proof. intros H. apply SR_ext. intros i Hi. apply SR_ext. intros j Hj. apply SR_ext. intros k Hk. apply H; assumption. Qed.
  Lemma S3_le f g : (forall i j k, i < X -> j < Y -> k < Z -> (f i j k <= g i j k)%R) -> (S3 f <= S3 g)%R.
  Proof. intros H. apply SR_le. intros i Hi. apply SR_le. intros j Hj. apply SR_le. intros k Hk. apply H; assumption. Qed.
  Lemma S3_plus f g : S3 (fun i j k => (f i j k + g i j k)%R) = (S3 f + S3 g)%R.
  Proof. unfold S3. rewrite <- SR_plus. apply SR_ext. intros i _. rewrite <- SR_plus. apply SR_ext. intros j _. apply SR_plus. Qed.
  Lemma S3_scal c f : S3 (fun i j k => (c * f i j k)%R) = (c * S3 f)%R.
  Proof. unfold S3. rewrite <- SR_scal. apply SR_ext. intros i _. rewrite <- SR_scal. apply SR_ext. intros j _. apply SR_scal. Qed.
  Lemma S3_jki f : S3 f = SR Y (fun j => SR Z (fun k => SR X (fun i => f i j k))).
  Proof. unfold S3. rewrite SR_swap. apply SR_ext. intros j _. apply SR_swap. Qed.
  Lemma S3_ikj f : S3 f = SR X (fun i => SR Z (fun k => SR Y (fun j => f i j k))).
  Proof. unfold S3. apply SR_ext. intros i _. apply SR_swap. Qed.

  Definition Dx (f : nat -> nat -> nat -> R) i j k : R := (nx X (fun i => f i j k) i - f i j k)%R.
  Definition Dy (f : nat -> nat -> nat -> R) i j k : R := (nx Y (fun j => f i j k) j - f i j k)%R.
  Definition Dz (f : nat -> nat -> nat -> R) i j k : R := (nx Z (fun k => f i j k) k - f i j k)%R.
  Definition Bx (f : nat -> nat -> nat -> R) i j k : R := (f i j k - pv (fun i => f i j k) i)%R.
  Definition By (f : nat -> nat -> nat -> R) i j k : R := (f i j k - pv (fun j => f i j k) j)%R.
  Definition Bz (f : nat -> nat -> nat -> R) i j k : R := (f i j k - pv (fun k => f i j k) k)%R.

  (** One direction at a time, with weights that do not depend on it. *)
  Lemma next_x (w f : nat -> nat -> nat -> R) : (forall i j k, w i j k = w 0 j k) -> (forall j k, j < Y -> k < Z -> (0 <= w 0%nat j k)%R) ->
    (forall i j k, j < Y -> k < Z -> ends X i -> f i j k = 0%R) ->
    (S3 (fun i j k => w i j k * (Dx f i j k * Dx f i j k / lx i)) <= 4 * (/ hx * / hx) * S3 (fun i j k => w i j k * (tx i * (f i j k * f i j k))))%R.
  Proof.
    intros Hw Pw Hf. rewrite !S3_jki, <- SR_scal. apply SR_le. intros j Hj. rewrite <- SR_scal. apply SR_le. intros k Hk.
    rewrite (SR_ext X _ (fun i => (w 0%nat j k * (Dx f i j k * Dx f i j k / lx i))%R)) by (intros i _; rewrite (Hw i); reflexivity).
    rewrite (SR_ext X (fun i => (w i j k * (tx i * (f i j k * f i j k)))%R) (fun i => (w 0%nat j k * (tx i * (f i j k * f i j k)))%R)) by (intros i _; rewrite (Hw i); reflexivity).
    rewrite !SR_scal. pose proof (line_next X hx Px lx tx (fun i => f i j k) Lx) as L.
    assert (C : forall i, i < X -> (hx <= tx i)%R \/ f i j k = 0%R). { intros i Hi. destruct (Nat.eq_dec (i + 1) X) as [E|E]; [right; apply Hf; [assumption..|right; exact E]|left; apply Tx; lia]. }
    specialize (L C). assert (Q := Rmult_le_compat_l _ _ _ (Pw j k Hj Hk) L). unfold Dx. lra.
  Qed.
  Lemma next_y (w f : nat -> nat -> nat -> R) : (forall i j k, w i j k = w i 0 k) -> (forall i k, i < X -> k < Z -> (0 <= w i 0%nat k)%R) ->
    (forall i j k, i < X -> k < Z -> ends Y j -> f i j k = 0%R) ->
    (S3 (fun i j k => w i j k * (Dy f i j k * Dy f i j k / ly j)) <= 4 * (/ hy * / hy) * S3 (fun i j k => w i j k * (ty j * (f i j k * f i j k))))%R.
  Proof.
    intros Hw Pw Hf. rewrite !S3_ikj, <- SR_scal. apply SR_le. intros i Hi. rewrite <- SR_scal. apply SR_le. intros k Hk.
    rewrite (SR_ext Y _ (fun j => (w i 0%nat k * (Dy f i j k * Dy f i j k / ly j))%R)) by (intros j _; rewrite (Hw i j); reflexivity).
    rewrite (SR_ext Y (fun j => (w i j k * (ty j * (f i j k * f i j k)))%R) (fun j => (w i 0%nat k * (ty j * (f i j k * f i j k)))%R)) by (intros j _; rewrite (Hw i j); reflexivity).
    rewrite !SR_scal. pose proof (line_next Y hy Py ly ty (fun j => f i j k) Ly) as L.
    assert (C : forall j, j < Y -> (hy <= ty j)%R \/ f i j k = 0%R). { intros j Hj. destruct (Nat.eq_dec (j + 1) Y) as [E|E]; [right; apply Hf; [assumption..|right; exact E]|left; apply Ty; lia]. }
    specialize (L C). assert (Q := Rmult_le_compat_l _ _ _ (Pw i k Hi Hk) L). unfold Dy. lra.
  Qed.
  Lemma next_z (w f : nat -> nat -> nat -> R) : (forall i j k, w i j k = w i j 0) -> (forall i j, i < X -> j < Y -> (0 <= w i j 0%nat)%R) ->
    (forall i j k, i < X -> j < Y -> ends Z k -> f i j k = 0%R) ->
    (S3 (fun i j k => w i j k * (Dz f i j k * Dz f i j k / lz k)) <= 4 * (/ hz * / hz) * S3 (fun i j k => w i j k * (tz k * (f i j k * f i j k))))%R.
  Proof.
    intros Hw Pw Hf. unfold S3. rewrite <- SR_scal. apply SR_le. intros i Hi. rewrite <- SR_scal. apply SR_le. intros j Hj.
    rewrite (SR_ext Z _ (fun k => (w i j 0%nat * (Dz f i j k * Dz f i j k / lz k))%R)) by (intros k _; rewrite (Hw i j k); reflexivity).
    rewrite (SR_ext Z (fun k => (w i j k * (tz k * (f i j k * f i j k)))%R) (fun k => (w i j 0%nat * (tz k * (f i j k * f i j k)))%R)) by (intros k _; rewrite (Hw i j k); reflexivity).
    rewrite !SR_scal. pose proof (line_next Z hz Pz lz tz (fun k => f i j k) Lz) as L.
    assert (C : forall k, k < Z -> (hz <= tz k)%R \/ f i j k = 0%R). { intros k Hk. destruct (Nat.eq_dec (k + 1) Z) as [E|E]; [right; apply Hf; [assumption..|right; exact E]|left; apply Tz; lia]. }
    specialize (L C). assert (Q := Rmult_le_compat_l _ _ _ (Pw i j Hi Hj) L). unfold Dz. lra.
  Qed.
  Lemma prev_x (w f : nat -> nat -> nat -> R) : (forall i j k, w i j k = w 0 j k) -> (forall j k, j < Y -> k < Z -> (0 <= w 0%nat j k)%R) ->
    (S3 (fun i j k => w i j k * (Bx f i j k * Bx f i j k / hx)) <= 4 * (/ hx * / hx) * S3 (fun i j k => w i j k * (lx i * (f i j k * f i j k))))%R.
  Proof.
    intros Hw Pw. rewrite !S3_jki, <- SR_scal. apply SR_le. intros j Hj. rewrite <- SR_scal. apply SR_le. intros k Hk.
    rewrite (SR_ext X _ (fun i => (w 0%nat j k * (Bx f i j k * Bx f i j k / hx))%R)) by (intros i _; rewrite (Hw i); reflexivity).
    rewrite (SR_ext X (fun i => (w i j k * (lx i * (f i j k * f i j k)))%R) (fun i => (w 0%nat j k * (lx i * (f i j k * f i j k)))%R)) by (intros i _; rewrite (Hw i); reflexivity).
    rewrite !SR_scal. pose proof (line_prev X hx Px lx (fun i => f i j k) Lx) as L.
    assert (Q := Rmult_le_compat_l _ _ _ (Pw j k Hj Hk) L). unfold Bx. lra.
  Qed.
  Lemma prev_y (w f : nat -> nat -> nat -> R) : (forall i j k, w i j k = w i 0 k) -> (forall i k, i < X -> k < Z -> (0 <= w i 0%nat k)%R) ->
    (S3 (fun i j k => w i j k * (By f i j k * By f i j k / hy)) <= 4 * (/ hy * / hy) * S3 (fun i j k => w i j k * (ly j * (f i j k * f i j k))))%R.
  Proof.
    intros Hw Pw. rewrite !S3_ikj, <- SR_scal. apply SR_le. intros i Hi. rewrite <- SR_scal. apply SR_le. intros k Hk.
    rewrite (SR_ext Y _ (fun j => (w i 0%nat k * (By f i j k * By f i j k / hy))%R)) by (intros j _; rewrite (Hw i j); reflexivity).
    rewrite (SR_ext Y (fun j => (w i j k * (ly j * (f i j k * f i j k)))%R) (fun j => (w i 0%nat k * (ly j * (f i j k * f i j k)))%R)) by (intros j _; rewrite (Hw i j); reflexivity).
    rewrite !SR_scal. pose proof (line_prev Y hy Py ly (fun j => f i j k) Ly) as L.
    assert (Q := Rmult_le_compat_l _ _ _ (Pw i k Hi Hk) L). unfold By. lra.
  Qed.
  Lemma prev_z (w f : nat -> nat -> nat -> R) : (forall i j k, w i j k = w i j 0) -> (forall i j, i < X -> j < Y -> (0 <= w i j 0%nat)%R) ->
    (S3 (fun i j k => w i j k * (Bz f i j k * Bz f i j k / hz)) <= 4 * (/ hz * / hz) * S3 (fun i j k => w i j k * (lz k * (f i j k * f i j k))))%R.
  Proof.
    intros Hw Pw. unfold S3. rewrite <- SR_scal. apply SR_le. intros i Hi. rewrite <- SR_scal. apply SR_le. intros j Hj.
    rewrite (SR_ext Z _ (fun k => (w i j 0%nat * (Bz f i j k * Bz f i j k / hz))%R)) by (intros k _; rewrite (Hw i j k); reflexivity).
    rewrite (SR_ext Z (fun k => (w i j k * (lz k * (f i j k * f i j k)))%R) (fun k => (w i j 0%nat * (lz k * (f i j k * f i j k)))%R)) by (intros k _; rewrite (Hw i j k); reflexivity).
    rewrite !SR_scal. pose proof (line_prev Z hz Pz lz (fun k => f i j k) Lz) as L.
    assert (Q := Rmult_le_compat_l _ _ _ (Pw i j Hi Hj) L). unfold Bz. lra.
  Qed.
  (** The mixed sums. *)
  Lemma cross_x (u v : nat -> nat -> nat -> R) : S3 (fun i j k => (tx i * (Dy u i j k * Dz v i j k))%R) = S3 (fun i j k => (tx i * (Bz u i j k * By v i j k))%R).
  Proof.
    unfold S3. apply SR_ext. intros i _.
    rewrite (SR_ext Y (fun j => SR Z (fun k => (tx i * (Dy u i j k * Dz v i j k))%R)) (fun j => (tx i * SR Z (fun k => (Dy u i j k * Dz v i j k)%R))%R)) by (intros j _; apply SR_scal).
    rewrite (SR_ext Y (fun j => SR Z (fun k => (tx i * (Bz u i j k * By v i j k))%R)) (fun j => (tx i * SR Z (fun k => (Bz u i j k * By v i j k)%R))%R)) by (intros j _; apply SR_scal).
    rewrite !SR_scal. f_equal. exact (plane_cross Y Z (u i) (v i)).
  Qed.
  Lemma cross_y (u v : nat -> nat -> nat -> R) : S3 (fun i j k => (ty j * (Dx u i j k * Dz v i j k))%R) = S3 (fun i j k => (ty j * (Bz u i j k * Bx v i j k))%R).
  Proof.
    unfold S3. rewrite !(SR_swap X Y). apply SR_ext. intros j _.
    rewrite (SR_ext X (fun i => SR Z (fun k => (ty j * (Dx u i j k * Dz v i j k))%R)) (fun i => (ty j * SR Z (fun k => (Dx u i j k * Dz v i j k)%R))%R)) by (intros i _; apply SR_scal).
    rewrite (SR_ext X (fun i => SR Z (fun k => (ty j * (Bz u i j k * Bx v i j k))%R)) (fun i => (ty j * SR Z (fun k => (Bz u i j k * Bx v i j k)%R))%R)) by (intros i _; apply SR_scal).
    rewrite !SR_scal. f_equal. exact (plane_cross X Z (fun i k => u i j k) (fun i k => v i j k)).
  Qed.
  Lemma cross_z (u v : nat -> nat -> nat -> R) : S3 (fun i j k => (tz k * (Dx u i j k * Dy v i j k))%R) = S3 (fun i j k => (tz k * (By u i j k * Bx v i j k))%R).
  Proof.
    rewrite !S3_ikj, !(SR_swap X Z). apply SR_ext. intros k _.
    rewrite (SR_ext X (fun i => SR Y (fun j => (tz k * (Dx u i j k * Dy v i j k))%R)) (fun i => (tz k * SR Y (fun j => (Dx u i j k * Dy v i j k)%R))%R)) by (intros i _; apply SR_scal).
    rewrite (SR_ext X (fun i => SR Y (fun j => (tz k * (By u i j k * Bx v i j k))%R)) (fun i => (tz k * SR Y (fun j => (By u i j k * Bx v i j k)%R))%R)) by (intros i _; apply SR_scal).
    rewrite !SR_scal. f_equal. exact (plane_cross X Y (fun i j => u i j k) (fun i j => v i j k)).
  Qed.

  (** The three fields, zero on the walls they run along. *)
  Context (ex ey ez : nat -> nat -> nat -> R).
  Context (Zx : forall i j k, ends Y j \/ ends Z k -> ex i j k = 0%R)
          (Zy : forall i j k, ends X i \/ ends Z k -> ey i j k = 0%R)
          (Zz : forall i j k, ends X i \/ ends Y j -> ez i j k = 0%R).

  Lemma square_x i j k : i < X -> j < Y -> k < Z ->
    (tx i / (ly j * lz k) * ((lz k * Dy ez i j k - ly j * Dz ey i j k) * (lz k * Dy ez i j k - ly j * Dz ey i j k)) =
     tx i * lz k * (Dy ez i j k * Dy ez i j k / ly j) + (tx i * ly j * (Dz ey i j k * Dz ey i j k / lz k) + -2 * (tx i * (Dy ez i j k * Dz ey i j k))))%R.
  Proof. intros Hi Hj Hk. pose proof (Ly j Hj). pose proof (Lz k Hk). field. split; lra. Qed.
  Lemma square_y i j k : i < X -> j < Y -> k < Z ->
    (ty j / (lx i * lz k) * ((lx i * Dz ex i j k - lz k * Dx ez i j k) * (lx i * Dz ex i j k - lz k * Dx ez i j k)) =
     ty j * lz k * (Dx ez i j k * Dx ez i j k / lx i) + (ty j * lx i * (Dz ex i j k * Dz ex i j k / lz k) + -2 * (ty j * (Dx ez i j k * Dz ex i j k))))%R.
  Proof. intros Hi Hj Hk. pose proof (Lx i Hi). pose proof (Lz k Hk). field. split; lra. Qed.
  Lemma square_z i j k : i < X -> j < Y -> k < Z ->
    (tz k / (lx i * ly j) * ((ly j * Dx ey i j k - lx i * Dy ex i j k) * (ly j * Dx ey i j k - lx i * Dy ex i j k)) =
     tz k * ly j * (Dx ey i j k * Dx ey i j k / lx i) + (tz k * lx i * (Dy ex i j k * Dy ex i j k / ly j) + -2 * (tz k * (Dx ey i j k * Dy ex i j k))))%R.
  Proof. intros Hi Hj Hk. pose proof (Lx i Hi). pose proof (Ly j Hj). field. split; lra. Qed.

  Lemma three_squares a b c p q r : (0 < a -> 0 < b -> 0 < c ->
    -2 * (a * (r * q)) + (-2 * (b * (r * p)) + -2 * (c * (q * p))) <= b * c * (p * p / a) + (a * c * (q * q / b) + a * b * (r * r / c)))%R.
  Proof.
    intros Ha Hb Hc. assert (Q : (0 <= a * b * c * ((p / a + q / b + r / c) * (p / a + q / b + r / c)))%R).
    { apply Rmult_le_pos; [|apply sq_pos]. apply Rmult_le_pos; [apply Rmult_le_pos|]; lra. }
    replace (a * b * c * ((p / a + q / b + r / c) * (p / a + q / b + r / c)))%R with
      (b * c * (p * p / a) + (a * c * (q * q / b) + a * b * (r * r / c)) + (2 * (a * (r * q)) + (2 * (b * (r * p)) + 2 * (c * (q * p)))))%R in Q by (field; repeat split; lra).
    lra.
  Qed.
  Lemma shrink (w x a h : R) : (0 <= w -> 0 < h -> h <= a -> w * (x * x / a) <= w * (x * x / h))%R.
  Proof.
    intros Pw Ph H. apply Rmult_le_compat_l; [exact Pw|]. unfold Rdiv. apply Rmult_le_compat_l; [apply sq_pos|]. apply Rinv_le_contravar; assumption.
  Qed.
  Lemma cross_node i j k : i < X -> j < Y -> k < Z ->
    (-2 * (tx i * (Bz ez i j k * By ey i j k)) + (-2 * (ty j * (Bz ez i j k * Bx ex i j k)) + -2 * (tz k * (By ey i j k * Bx ex i j k))) <=
     ty j * tz k * (Bx ex i j k * Bx ex i j k / hx) + (tx i * tz k * (By ey i j k * By ey i j k / hy) + tx i * ty j * (Bz ez i j k * Bz ez i j k / hz)))%R.
  Proof.
    intros Hi Hj Hk. pose proof (Nx i Hi) as X0. pose proof (Ny j Hj) as Y0. pose proof (Nz k Hk) as Z0.
    assert (W : forall a b x h, (0 <= a -> 0 <= b -> 0 < h -> 0 <= a * b * (x * x / h))%R).
    { intros a b x h Pa Pb Ph. apply Rmult_le_pos; [apply Rmult_le_pos; assumption|]. unfold Rdiv. apply Rmult_le_pos; [apply sq_pos|]. left. apply Rinv_0_lt_compat, Ph. }
    pose proof (W _ _ (Bx ex i j k) hx Y0 Z0 Px) as W1. pose proof (W _ _ (By ey i j k) hy X0 Z0 Py) as W2. pose proof (W _ _ (Bz ez i j k) hz X0 Y0 Pz) as W3.
    assert (D : ends X i \/ ends Y j \/ ends Z k \/ (0 < i /\ i + 1 < X /\ 0 < j /\ j + 1 < Y /\ 0 < k /\ k + 1 < Z)) by (unfold ends; lia).
    destruct D as [E|[E|[E|(I0 & I1 & J0 & J1 & K0 & K1)]]].
    - assert (A : By ey i j k = 0%R). { unfold By. rewrite (Zy i j k) by (left; exact E). destruct j; cbn [pv]; [|rewrite (Zy i j k) by (left; exact E)]; lra. }
      assert (B : Bz ez i j k = 0%R). { unfold Bz. rewrite (Zz i j k) by (left; exact E). destruct k; cbn [pv]; [|rewrite (Zz i j k) by (left; exact E)]; lra. }
      rewrite A, B in *. lra.
    - assert (A : Bx ex i j k = 0%R). { unfold Bx. rewrite (Zx i j k) by (left; exact E). destruct i; cbn [pv]; [|rewrite (Zx i j k) by (left; exact E)]; lra. }
      assert (B : Bz ez i j k = 0%R). { unfold Bz. rewrite (Zz i j k) by (right; exact E). destruct k; cbn [pv]; [|rewrite (Zz i j k) by (right; exact E)]; lra. }
      rewrite A, B in *. lra.
    - assert (A : By ey i j k = 0%R). { unfold By. rewrite (Zy i j k) by (right; exact E). destruct j; cbn [pv]; [|rewrite (Zy i j k) by (right; exact E)]; lra. }
      assert (B : Bx ex i j k = 0%R). { unfold Bx. rewrite (Zx i j k) by (right; exact E). destruct i; cbn [pv]; [|rewrite (Zx i j k) by (right; exact E)]; lra. }
      rewrite A, B in *. lra.
    - pose proof (Tx i I1) as T1. pose proof (Ty j J1) as T2. pose proof (Tz k K1) as T3.
      assert (Q := three_squares (tx i) (ty j) (tz k) (Bx ex i j k) (By ey i j k) (Bz ez i j k) ltac:(lra) ltac:(lra) ltac:(lra)).
      pose proof (shrink (ty j * tz k) (Bx ex i j k) (tx i) hx ltac:(apply Rmult_le_pos; lra) Px T1).
      pose proof (shrink (tx i * tz k) (By ey i j k) (ty j) hy ltac:(apply Rmult_le_pos; lra) Py T2).
      pose proof (shrink (tx i * ty j) (Bz ez i j k) (tz k) hz ltac:(apply Rmult_le_pos; lra) Pz T3). lra.
  Qed.

  Definition esize : R :=
    (S3 (fun i j k => lx i * (ty j * tz k) * (ex i j k * ex i j k)) + (S3 (fun i j k => ly j * (tx i * tz k) * (ey i j k * ey i j k)) +
     S3 (fun i j k => lz k * (tx i * ty j) * (ez i j k * ez i j k))))%R.
  Definition csize : R :=
    (S3 (fun i j k => tx i / (ly j * lz k) * ((lz k * Dy ez i j k - ly j * Dz ey i j k) * (lz k * Dy ez i j k - ly j * Dz ey i j k))) +
     (S3 (fun i j k => ty j / (lx i * lz k) * ((lx i * Dz ex i j k - lz k * Dx ez i j k) * (lx i * Dz ex i j k - lz k * Dx ez i j k))) +
      S3 (fun i j k => tz k / (lx i * ly j) * ((ly j * Dx ey i j k - lx i * Dy ex i j k) * (ly j * Dx ey i j k - lx i * Dy ex i j k)))))%R.

  Lemma curl_size : (csize <= 4 * (/ hx * / hx + / hy * / hy + / hz * / hz) * esize)%R.
  Proof.
    unfold csize. rewrite (S3_ext _ _ square_x), (S3_ext _ _ square_y), (S3_ext _ _ square_z), !S3_plus, !S3_scal, cross_x, cross_y, cross_z.
    assert (C : (-2 * S3 (fun i j k => tx i * (Bz ez i j k * By ey i j k)) + (-2 * S3 (fun i j k => ty j * (Bz ez i j k * Bx ex i j k)) + -2 * S3 (fun i j k => tz k * (By ey i j k * Bx ex i j k))) <=
      S3 (fun i j k => ty j * tz k * (Bx ex i j k * Bx ex i j k / hx)) + (S3 (fun i j k => tx i * tz k * (By ey i j k * By ey i j k / hy)) + S3 (fun i j k => tx i * ty j * (Bz ez i j k * Bz ez i j k / hz))))%R).
    { rewrite <- !S3_scal, <- !S3_plus. apply S3_le. exact cross_node. }
    assert (G : forall a b, (0 <= a -> 0 <= b -> 0 <= a * b)%R) by (intros; apply Rmult_le_pos; assumption).
    assert (LX : forall i, i < X -> (0 <= lx i)%R) by (intros i Hi; pose proof (Lx i Hi); lra).
    assert (LY : forall i, i < Y -> (0 <= ly i)%R) by (intros i Hi; pose proof (Ly i Hi); lra).
    assert (LZ : forall i, i < Z -> (0 <= lz i)%R) by (intros i Hi; pose proof (Lz i Hi); lra).
    pose proof (next_y (fun i j k => (tx i * lz k)%R) ez ltac:(reflexivity) ltac:(intros; apply G; auto) ltac:(intros; apply Zz; right; assumption)) as A1.
    pose proof (next_z (fun i j k => (tx i * ly j)%R) ey ltac:(reflexivity) ltac:(intros; apply G; auto) ltac:(intros; apply Zy; right; assumption)) as A2.
    pose proof (next_x (fun i j k => (ty j * lz k)%R) ez ltac:(reflexivity) ltac:(intros; apply G; auto) ltac:(intros; apply Zz; left; assumption)) as A3.
    pose proof (next_z (fun i j k => (ty j * lx i)%R) ex ltac:(reflexivity) ltac:(intros; apply G; auto) ltac:(intros; apply Zx; right; assumption)) as A4.
    pose proof (next_x (fun i j k => (tz k * ly j)%R) ey ltac:(reflexivity) ltac:(intros; apply G; auto) ltac:(intros; apply Zy; left; assumption)) as A5.
    pose proof (next_y (fun i j k => (tz k * lx i)%R) ex ltac:(reflexivity) ltac:(intros; apply G; auto) ltac:(intros; apply Zx; left; assumption)) as A6.
    pose proof (prev_x (fun i j k => (ty j * tz k)%R) ex ltac:(reflexivity) ltac:(intros; apply G; auto)) as B1.
    pose proof (prev_y (fun i j k => (tx i * tz k)%R) ey ltac:(reflexivity) ltac:(intros; apply G; auto)) as B2.
    pose proof (prev_z (fun i j k => (tx i * ty j)%R) ez ltac:(reflexivity) ltac:(intros; apply G; auto)) as B3.
    cbv beta in *. unfold esize.
    set (ex2 := S3 (fun i j k => (lx i * (ty j * tz k) * (ex i j k * ex i j k))%R)) in *.
    set (ey2 := S3 (fun i j k => (ly j * (tx i * tz k) * (ey i j k * ey i j k))%R)) in *.
    set (ez2 := S3 (fun i j k => (lz k * (tx i * ty j) * (ez i j k * ez i j k))%R)) in *.
    rewrite (S3_ext (fun i j k => (tx i * lz k * (ty j * (ez i j k * ez i j k)))%R) (fun i j k => (lz k * (tx i * ty j) * (ez i j k * ez i j k))%R)) in A1 by (intros; ring).
    rewrite (S3_ext (fun i j k => (tx i * ly j * (tz k * (ey i j k * ey i j k)))%R) (fun i j k => (ly j * (tx i * tz k) * (ey i j k * ey i j k))%R)) in A2 by (intros; ring).
    rewrite (S3_ext (fun i j k => (ty j * lz k * (tx i * (ez i j k * ez i j k)))%R) (fun i j k => (lz k * (tx i * ty j) * (ez i j k * ez i j k))%R)) in A3 by (intros; ring).
    rewrite (S3_ext (fun i j k => (ty j * lx i * (tz k * (ex i j k * ex i j k)))%R) (fun i j k => (lx i * (ty j * tz k) * (ex i j k * ex i j k))%R)) in A4 by (intros; ring).
    rewrite (S3_ext (fun i j k => (tz k * ly j * (tx i * (ey i j k * ey i j k)))%R) (fun i j k => (ly j * (tx i * tz k) * (ey i j k * ey i j k))%R)) in A5 by (intros; ring).
    rewrite (S3_ext (fun i j k => (tz k * lx i * (ty j * (ex i j k * ex i j k)))%R) (fun i j k => (lx i * (ty j * tz k) * (ex i j k * ex i j k))%R)) in A6 by (intros; ring).
    rewrite (S3_ext (fun i j k => (ty j * tz k * (lx i * (ex i j k * ex i j k)))%R) (fun i j k => (lx i * (ty j * tz k) * (ex i j k * ex i j k))%R)) in B1 by (intros; ring).
    rewrite (S3_ext (fun i j k => (tx i * tz k * (ly j * (ey i j k * ey i j k)))%R) (fun i j k => (ly j * (tx i * tz k) * (ey i j k * ey i j k))%R)) in B2 by (intros; ring).
    rewrite (S3_ext (fun i j k => (tx i * ty j * (lz k * (ez i j k * ez i j k)))%R) (fun i j k => (lz k * (tx i * ty j) * (ez i j k * ez i j k))%R)) in B3 by (intros; ring).
    fold ex2 in A4, A6, B1. fold ey2 in A2, A5, B2. fold ez2 in A1, A3, B3. lra.
  Qed.
End Box.
