(** Lemmas for stability: sums of squares on a cycle, and the norm of the discrete curl. *)
From Coq Require Import List Arith Bool Lia Reals Lra.
From Verif Require Import Num Vec Index Matrix.
Open Scope nat_scope.

(** Finite sums of reals. *)
Definition SR (n : nat) (f : nat -> R) : R := @sum R Num_R n f.
Lemma SR_S n f : SR (S n) f = (SR n f + f n)%R.
Proof. reflexivity. Qed.
Lemma SR_ext n f g : (forall m, m < n -> f m = g m) -> SR n f = SR n g.
Proof. apply sum_ext. Qed.
Lemma SR_plus n f g : SR n (fun m => (f m + g m)%R) = (SR n f + SR n g)%R.
Proof. induction n as [|n IH]; [unfold SR; cbn; lra|]. rewrite !SR_S, IH. lra. Qed.
Lemma SR_scal n c f : SR n (fun m => (c * f m)%R) = (c * SR n f)%R.
Proof. induction n as [|n IH]; [unfold SR; cbn; lra|]. rewrite !SR_S, IH. lra. Qed.
Lemma SR_pos n f : (forall m, m < n -> (0 <= f m)%R) -> (0 <= SR n f)%R.
Proof. induction n as [|n IH]; intros H; [unfold SR; cbn; lra|]. rewrite SR_S. pose proof (H n ltac:(lia)). specialize (IH ltac:(intros; apply H; lia)). lra. Qed.
Lemma SR_le n f g : (forall m, m < n -> (f m <= g m)%R) -> (SR n f <= SR n g)%R.
Proof. induction n as [|n IH]; intros H; [unfold SR; cbn; lra|]. rewrite !SR_S. pose proof (H n ltac:(lia)). specialize (IH ltac:(intros; apply H; lia)). lra. Qed.
Lemma SR_split a b f : SR (a + b) f = (SR a f + SR b (fun m => f (a + m)%nat))%R.
Proof. induction b as [|b IH]; [rewrite Nat.add_0_r; unfold SR at 3; cbn; lra|]. rewrite Nat.add_succ_r, !SR_S, IH. lra. Qed.
Lemma SR_zero n f : (forall m, m < n -> f m = 0%R) -> SR n f = 0%R.
Proof. induction n as [|n IH]; intros H; [reflexivity|]. rewrite SR_S, IH, H by (intros; try apply H; lia). lra. Qed.
Lemma SR_first n f : SR (S n) f = (f 0%nat + SR n (fun m => f (S m)))%R.
Proof. induction n as [|n IH]; [unfold SR; cbn; lra|]. rewrite SR_S, IH, SR_S. lra. Qed.

Section Cycle.
  Context (M : nat) (HM : 0 < M).
  (** [f] turned by [s] on a cycle of [M] places. *)
  Definition cy (s : nat) (f : nat -> R) (m : nat) : R := f ((m + s) mod M).
  Lemma cy_cy a b f m : cy a (cy b f) m = f ((m + (a + b)) mod M).
  Proof. unfold cy. rewrite Nat.add_mod_idemp_l by lia. f_equal. f_equal. lia. Qed.
  Lemma cy_comm a b f m : cy a (cy b f) m = cy b (cy a f) m.
  Proof. rewrite !cy_cy. f_equal. f_equal. lia. Qed.
  Lemma SR_cy1 f : SR M (cy 1 f) = SR M f.
  Proof.
    destruct M as [|n] eqn:E; [lia|]. rewrite SR_S, SR_first. 
    assert (X : cy 1 f n = f 0%nat). { unfold cy. rewrite E. replace (n + 1) with (S n) by lia. rewrite Nat.mod_same by lia. reflexivity. }
    rewrite X. rewrite (SR_ext n (cy 1 f) (fun m => f (S m))); [lra|]. intros m Hm. unfold cy. rewrite E, Nat.mod_small by lia. f_equal. lia.
  Qed.
  Lemma SR_cy s f : SR M (cy s f) = SR M f.
  Proof.
    revert f. induction s as [|s IH]; intros f.
    - apply SR_ext. intros m Hm. unfold cy. rewrite Nat.add_0_r, Nat.mod_small by lia. reflexivity.
    - rewrite <- (SR_cy1 f), <- (IH (cy 1 f)). apply SR_ext. intros m _. rewrite cy_cy. unfold cy. f_equal. f_equal. lia.
  Qed.
  Definition ip (f g : nat -> R) : R := SR M (fun m => (f m * g m)%R).
  Lemma ip_cy s f g : ip (cy s f) (cy s g) = ip f g.
  Proof. exact (SR_cy s (fun m => (f m * g m)%R)). Qed.
  Lemma ip_ext f f' g g' : (forall m, f m = f' m) -> (forall m, g m = g' m) -> ip f g = ip f' g'.
  Proof. intros A B. apply SR_ext. intros m _. rewrite A, B. reflexivity. Qed.

  Definition df (s : nat) (f : nat -> R) (m : nat) : R := (cy s f m - f m)%R.
  Lemma df_norm s f : (ip (df s f) (df s f) <= 4 * ip f f)%R.
  Proof.
    assert (E : (ip (df s f) (df s f) <= 2 * ip (cy s f) (cy s f) + 2 * ip f f)%R).
    { unfold ip. rewrite <- !SR_scal, <- SR_plus. apply SR_le. intros m _. unfold df.
      pose proof (Rle_0_sqr (cy s f m + f m)) as Q. unfold Rsqr in Q. lra. }
    rewrite ip_cy in E. lra.
  Qed.

  (** The two ways to write the mixed term. *)
  Lemma mixed a b c f g : ip (cy c (cy b (df a f))) (cy c (cy a (df b g))) = ip (df b f) (df a g).
  Proof.
    rewrite ip_cy.
    assert (L : ip (cy b (df a f)) (cy a (df b g)) =
      (ip (cy b (cy a f)) (cy a (cy b g)) + (-1) * ip (cy b (cy a f)) (cy a g) + (-1) * ip (cy b f) (cy a (cy b g)) + ip (cy b f) (cy a g))%R).
    { unfold ip. rewrite <- !SR_scal, <- !SR_plus. apply SR_ext. intros m _. unfold df at 1, df at 1. unfold cy at 1, cy at 2.
      unfold df. fold (cy b (cy a f) m). unfold cy. ring. }
    assert (Rr : ip (df b f) (df a g) = (ip (cy b f) (cy a g) + (-1) * ip (cy b f) g + (-1) * ip f (cy a g) + ip f g)%R).
    { unfold ip. rewrite <- !SR_scal, <- !SR_plus. apply SR_ext. intros m _. unfold df. ring. }
    rewrite L, Rr.
    rewrite (ip_ext (cy b (cy a f)) (cy a (cy b f)) (cy a g) (cy a g)) by (intros; try reflexivity; apply cy_comm). rewrite (ip_cy a).
    rewrite (ip_ext (cy b f) (cy b f) (cy a (cy b g)) (cy b (cy a g))) by (intros; try reflexivity; apply cy_comm). rewrite (ip_cy b).
    rewrite (ip_ext (cy b (cy a f)) (cy b (cy a f)) (cy a (cy b g)) (cy b (cy a g))) by (intros; try reflexivity; apply cy_comm). rewrite (ip_cy b), (ip_cy a). lra.
  Qed.

  (** |curl v|^2 + |div v|^2 = sum of the squares of all differences. *)
  Lemma curl_norm (a0 a1 a2 : R) (s0 s1 s2 : nat) (v0 v1 v2 : nat -> R) :
    (SR M (fun m => (a1 * df s1 v2 m - a2 * df s2 v1 m) * (a1 * df s1 v2 m - a2 * df s2 v1 m)) +
     SR M (fun m => (a2 * df s2 v0 m - a0 * df s0 v2 m) * (a2 * df s2 v0 m - a0 * df s0 v2 m)) +
     SR M (fun m => (a0 * df s0 v1 m - a1 * df s1 v0 m) * (a0 * df s0 v1 m - a1 * df s1 v0 m))
     <= 4 * (a0 * a0 + a1 * a1 + a2 * a2) * (ip v0 v0 + ip v1 v1 + ip v2 v2))%R.
  Proof.
    assert (Sq : forall p q f g, SR M (fun m => ((p * f m - q * g m) * (p * f m - q * g m))%R) = (p * p * ip f f + (-(2)) * (p * q) * ip f g + q * q * ip g g)%R).
    { intros p q f g. unfold ip. rewrite <- !SR_scal, <- !SR_plus. apply SR_ext. intros m _. ring. }
    rewrite !Sq.
    set (g0 := cy s2 (cy s1 (df s0 v0))). set (g1 := cy s2 (cy s0 (df s1 v1))). set (g2 := cy s1 (cy s0 (df s2 v2))).
    assert (G : (0 <= SR M (fun m => (a0 * g0 m + a1 * g1 m + a2 * g2 m) * (a0 * g0 m + a1 * g1 m + a2 * g2 m)))%R).
    { apply SR_pos. intros m _. apply Rle_0_sqr. }
    assert (GE : SR M (fun m => ((a0 * g0 m + a1 * g1 m + a2 * g2 m) * (a0 * g0 m + a1 * g1 m + a2 * g2 m))%R) =
      (a0 * a0 * ip g0 g0 + a1 * a1 * ip g1 g1 + a2 * a2 * ip g2 g2 + 2 * (a0 * a1) * ip g0 g1 + 2 * (a0 * a2) * ip g0 g2 + 2 * (a1 * a2) * ip g1 g2)%R).
    { unfold ip. rewrite <- !SR_scal, <- !SR_plus. apply SR_ext. intros m _. ring. }
    rewrite GE in G. clear GE.
    assert (N0 : ip g0 g0 = ip (df s0 v0) (df s0 v0)) by (unfold g0; rewrite !ip_cy; reflexivity).
    assert (N1 : ip g1 g1 = ip (df s1 v1) (df s1 v1)) by (unfold g1; rewrite !ip_cy; reflexivity).
    assert (N2 : ip g2 g2 = ip (df s2 v2) (df s2 v2)) by (unfold g2; rewrite !ip_cy; reflexivity).
    assert (X01 : ip g0 g1 = ip (df s1 v0) (df s0 v1)) by apply mixed.
    assert (X02 : ip g0 g2 = ip (df s2 v0) (df s0 v2)).
    { rewrite <- (mixed s0 s2 s1 v0 v2). apply ip_ext; intros m; [unfold g0; apply cy_comm|reflexivity]. }
    assert (X12 : ip g1 g2 = ip (df s2 v1) (df s1 v2)).
    { rewrite <- (mixed s1 s2 s0 v1 v2). apply ip_ext; intros m; [unfold g1; apply cy_comm|unfold g2; apply cy_comm]. }
    rewrite N0, N1, N2, X01, X02, X12 in G.
    assert (Sy : forall f g, ip f g = ip g f) by (intros; unfold ip; apply SR_ext; intros; ring).
    rewrite (Sy (df s1 v0)), (Sy (df s2 v1)) in G.
    assert (B : forall a s f, (a * a * ip (df s f) (df s f) <= a * a * (4 * ip f f))%R).
    { intros a s f. apply Rmult_le_compat_l; [apply Rle_0_sqr|apply df_norm]. }
    pose proof (B a0 s0 v0). pose proof (B a0 s0 v1). pose proof (B a0 s0 v2). pose proof (B a1 s1 v0). pose proof (B a1 s1 v1). pose proof (B a1 s1 v2).
    pose proof (B a2 s2 v0). pose proof (B a2 s2 v1). pose proof (B a2 s2 v2). clear B.
    lra.
  Qed.
End Cycle.
