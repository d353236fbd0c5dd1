(** A line of cells with losses: the energy of the leapfrog scheme does not grow. *)
From Coq Require Import List Arith Bool Lia Ring Field Reals Lra Psatz.
From Verif Require Import Num SolverModel StabSum Grid2DModel Solver2DModel Solver2DProofs.
Open Scope nat_scope.
Section Line.
  Local Open Scope R_scope.
  Context (N : nat) (eps mu dt dx kap : R) (He : 0 < eps) (Hm : 0 < mu) (Ht : 0 < dt) (Hx : 0 < dx) (Hk : 0 < kap) (Hc : dt / dx * (dt / dx) <= kap * kap * (eps * mu)).
  Definition esq (e : nat -> R) : R := SR (S N) (fun i => e i * e i).
  Definition hsq (h : nat -> R) : R := SR N (fun i => h i * h i).
  Definition cross (h e : nat -> R) : R := SR N (fun i => h i * (e (S i) - e i)).
  Definition WW (e h : nat -> R) : R := eps * esq e + mu * hsq h - dt / dx * cross h e.
  Definition QQ (e h : nat -> R) : R := eps * esq e + mu * hsq h.
  Lemma cross_bound h e : Rabs (dt / dx * cross h e) <= kap * QQ e h.
  Proof.
    set (a := dt / dx). assert (A0 : 0 < a) by (apply Rdiv_lt_0_compat; assumption). fold a in Hc.
    assert (P : forall sg i, (sg = 1 \/ sg = -1) -> sg * (a * (h i * (e (S i) - e i))) <= kap * mu * (h i * h i) + kap * eps / 2 * (e (S i) * e (S i) + e i * e i)).
    { intros sg i Hs. set (x := h i). set (u := e (S i)). set (v := e i). set (d := u - v).
      assert (D2 : d * d <= 2 * (u * u + v * v)) by (unfold d; pose proof (Rle_0_sqr (u + v)) as S0; unfold Rsqr in S0; lra).
      assert (S1 : 0 <= (2 * kap * mu * x - sg * a * d) * (2 * kap * mu * x - sg * a * d)) by apply Rle_0_sqr.
      assert (S2 : sg * sg = 1) by (destruct Hs as [-> | ->]; ring).
      assert (S3 : a * a * (d * d) <= kap * kap * (eps * mu) * (2 * (u * u + v * v))).
      { apply Rmult_le_compat; [apply Rle_0_sqr|apply Rle_0_sqr|exact Hc|exact D2]. }
      assert (Km : 0 < kap * mu) by (apply Rmult_lt_0_compat; assumption).
      assert (S4 : 4 * (kap * mu) * (sg * (a * (x * d))) <= 4 * (kap * mu) * (kap * mu * (x * x) + kap * eps / 2 * (u * u + v * v))).
      { replace ((2 * kap * mu * x - sg * a * d) * (2 * kap * mu * x - sg * a * d)) with (4 * (kap * mu) * (kap * mu) * (x * x) - 4 * (kap * mu) * (sg * (a * (x * d))) + sg * sg * (a * a * (d * d))) in S1 by ring.
        rewrite S2 in S1. replace (4 * (kap * mu) * (kap * mu * (x * x) + kap * eps / 2 * (u * u + v * v))) with (4 * (kap * mu) * (kap * mu) * (x * x) + kap * kap * (eps * mu) * (2 * (u * u + v * v))) by field. lra. }
      apply (Rmult_le_reg_l (4 * (kap * mu))); lra. }
    assert (Q : forall sg, (sg = 1 \/ sg = -1) -> sg * (a * cross h e) <= kap * QQ e h).
    { intros sg Hs. apply Rle_trans with (SR N (fun i => kap * mu * (h i * h i) + kap * eps / 2 * (e (S i) * e (S i) + e i * e i))).
      - apply Rle_trans with (SR N (fun i => sg * (a * (h i * (e (S i) - e i))))).
        + apply Req_le. unfold cross. rewrite <- !SR_scal. reflexivity.
        + apply SR_le. intros i _. apply P. exact Hs.
      - rewrite SR_plus, !SR_scal, SR_plus. unfold QQ, esq, hsq.
        pose proof (SR_first N (fun i => e i * e i)) as F1. pose proof (SR_S N (fun i => e i * e i)) as F2. cbv beta in F1, F2.
        pose proof (Rle_0_sqr (e 0%nat)) as Z0. pose proof (Rle_0_sqr (e N)) as ZN. unfold Rsqr in Z0, ZN.
        assert (Y : SR N (fun m => e (S m) * e (S m)) + SR N (fun m => e m * e m) <= 2 * SR (S N) (fun i => e i * e i)) by lra.
        assert (Ke : 0 < kap * eps) by (apply Rmult_lt_0_compat; assumption).
        apply (Rmult_le_compat_l (kap * eps / 2)) in Y; [|lra]. lra. }
    apply Rabs_le. pose proof (Q 1 (or_introl eq_refl)). pose proof (Q (-1) (or_intror eq_refl)). lra.
  Qed.
  (** one step *)
  Context (sh se : nat -> R) (Hsh : forall i, 0 <= sh i) (Hse : forall i, 0 <= se i).
  Definition line_step (e h e' h' : nat -> R) : Prop :=
    (forall i, (i < N)%nat -> mu * (h' i - h i) = - (dt / dx) * (e (S i) - e i) - dt * sh i / 2 * (h' i + h i)) /\
    (forall i, (0 < i < N)%nat -> eps * (e' i - e i) = - (dt / dx) * (h' i - h' (i - 1)%nat) - dt * se i / 2 * (e' i + e i)) /\
    e 0%nat = 0 /\ e N = 0 /\ e' 0%nat = 0 /\ e' N = 0.
  Lemma line_decay e h e' h' : line_step e h e' h' -> WW e' h' <= WW e h.
  Proof.
    intros (Eh & Ee & Z1 & Z2 & Z3 & Z4). set (a := dt / dx) in *. unfold WW. fold a.
    assert (Ih : mu * hsq h' - mu * hsq h <= - a * SR N (fun i => (h' i + h i) * (e (S i) - e i))).
    { unfold hsq. rewrite <- !SR_scal. replace (SR N (fun m => mu * (h' m * h' m)) - SR N (fun m => mu * (h m * h m))) with (SR N (fun m => mu * (h' m * h' m) + - (1) * (mu * (h m * h m)))) by (rewrite SR_plus, (SR_scal N (-(1))); ring).
      apply SR_le. intros i Hi. specialize (Eh i Hi).
      replace (mu * (h' i * h' i) + - (1) * (mu * (h i * h i))) with ((h' i + h i) * (mu * (h' i - h i))) by ring. rewrite Eh.
      pose proof (Rle_0_sqr (h' i + h i)) as S0. unfold Rsqr in S0. assert (L : 0 <= dt * sh i / 2 * ((h' i + h i) * (h' i + h i))) by (apply Rmult_le_pos; [specialize (Hsh i); apply Rmult_le_pos; [apply Rmult_le_pos; lra|lra]|exact S0]). lra. }
    assert (Ie : eps * esq e' - eps * esq e <= - a * SR (S N) (fun i => (e' i + e i) * (h' i - h' (i - 1)%nat))).
    { unfold esq. rewrite <- !SR_scal. replace (SR (S N) (fun m => eps * (e' m * e' m)) - SR (S N) (fun m => eps * (e m * e m))) with (SR (S N) (fun m => eps * (e' m * e' m) + - (1) * (eps * (e m * e m)))) by (rewrite SR_plus, (SR_scal (S N) (-(1))); ring).
      apply SR_le. intros i Hi.
      replace (eps * (e' i * e' i) + - (1) * (eps * (e i * e i))) with ((e' i + e i) * (eps * (e' i - e i))) by ring.
      assert (C : i = 0%nat \/ i = N \/ (0 < i < N)%nat) by lia. destruct C as [-> | [-> | C]]; [rewrite Z1, Z3; lra|rewrite Z2, Z4; lra|]. rewrite (Ee i C).
      pose proof (Rle_0_sqr (e' i + e i)) as S0. unfold Rsqr in S0. assert (L : 0 <= dt * se i / 2 * ((e' i + e i) * (e' i + e i))) by (apply Rmult_le_pos; [specialize (Hse i); apply Rmult_le_pos; [apply Rmult_le_pos; lra|lra]|exact S0]). lra. }
    pose proof (@parts R Num_R NumLaws_R N (fun i => e' i + e i) h') as P. cbv beta in P.
    assert (P' : SR N (fun j => h' j * (e' (S j) + e (S j) - (e' j + e j))) + SR (S N) (fun j => (e' j + e j) * (h' j - h' (j - 1)%nat)) = 0) by (apply P; [rewrite Z1, Z3|rewrite Z2, Z4]; cbn; ring). clear P.
    assert (X1 : SR N (fun j => h' j * (e' (S j) + e (S j) - (e' j + e j))) = cross h' e' + cross h' e).
    { unfold cross. rewrite <- SR_plus. apply SR_ext. intros; ring. }
    assert (X2 : SR N (fun i => (h' i + h i) * (e (S i) - e i)) = cross h' e + cross h e).
    { unfold cross. rewrite <- SR_plus. apply SR_ext. intros; ring. }
    rewrite X1 in P'. rewrite X2 in Ih.
    assert (X3 : SR (S N) (fun j => (e' j + e j) * (h' j - h' (j - 1)%nat)) = - (cross h' e' + cross h' e)) by lra. rewrite X3 in Ie. lra.
  Qed.
End Line.
