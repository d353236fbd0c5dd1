(** Index arithmetic: the bijection between flat indices and (i, j, k). *)
From Coq Require Import Arith ZArith Lia List.

(** Fortran-order cell index used throughout wakis (x fastest). *)
Definition cell (Nx Ny i j k : nat) : nat := i + Nx * (j + Ny * k).
Arguments cell : simpl never.

Lemma mod_add_l a b c : a < b -> (a + b * c) mod b = a.
Proof.
  intros H. symmetry. apply (Nat.mod_unique _ _ c); lia.
Qed.

Lemma div_add_l a b c : a < b -> (a + b * c) / b = c.
Proof. intros H. symmetry. apply (Nat.div_unique _ _ c a); lia. Qed.

Lemma cell_lt Nx Ny Nz i j k :
  i < Nx -> j < Ny -> k < Nz -> cell Nx Ny i j k < Nx * Ny * Nz.
Proof.
  intros Hi Hj Hk. unfold cell.
  assert (j + Ny * k < Ny * Nz) by nia. nia.
Qed.

Lemma cell_i Nx Ny i j k : i < Nx -> cell Nx Ny i j k mod Nx = i.
Proof. apply mod_add_l. Qed.

Lemma cell_j Nx Ny i j k : i < Nx -> j < Ny -> (cell Nx Ny i j k / Nx) mod Ny = j.
Proof. intros Hi Hj. unfold cell. rewrite div_add_l, mod_add_l by assumption. reflexivity. Qed.

Lemma cell_k Nx Ny i j k : i < Nx -> j < Ny -> cell Nx Ny i j k / (Nx * Ny) = k.
Proof.
  intros Hi Hj. unfold cell. rewrite <- Nat.div_div by lia.
  rewrite div_add_l, div_add_l by assumption. reflexivity.
Qed.

Lemma cell_inj Nx Ny i j k i' j' k' :
  i < Nx -> j < Ny -> i' < Nx -> j' < Ny ->
  cell Nx Ny i j k = cell Nx Ny i' j' k' -> i = i' /\ j = j' /\ k = k'.
Proof.
  intros H1 H2 H3 H4 E. repeat split.
  - rewrite <- (cell_i Nx Ny i j k), <- (cell_i Nx Ny i' j' k') by assumption. congruence.
  - rewrite <- (cell_j Nx Ny i j k), <- (cell_j Nx Ny i' j' k') by assumption. congruence.
  - rewrite <- (cell_k Nx Ny i j k), <- (cell_k Nx Ny i' j' k') by assumption. congruence.
Qed.

Lemma cell_decode Nx Ny Nz n :
  n < Nx * Ny * Nz ->
  n mod Nx < Nx /\ (n / Nx) mod Ny < Ny /\ n / (Nx * Ny) < Nz /\
  cell Nx Ny (n mod Nx) ((n / Nx) mod Ny) (n / (Nx * Ny)) = n.
Proof.
  intros H.
  assert (Hx : Nx <> 0) by (intros ->; cbn in H; lia).
  assert (Hy : Ny <> 0) by (intros ->; rewrite Nat.mul_0_r in H; cbn in H; lia).
  repeat split.
  - apply Nat.mod_upper_bound; assumption.
  - apply Nat.mod_upper_bound; assumption.
  - apply Nat.div_lt_upper_bound; nia.
  - unfold cell. rewrite <- Nat.div_div by assumption.
    pose proof (Nat.div_mod n Nx Hx). pose proof (Nat.div_mod (n / Nx) Ny Hy). lia.
Qed.

(** C-order decoding of a matrix of shape (d0, d1, d2). *)
Lemma corder_lt d0 d1 d2 i j k :
  i < d0 -> j < d1 -> k < d2 -> (i * d1 + j) * d2 + k < d0 * d1 * d2.
Proof. intros. assert (i * d1 + j < d0 * d1) by nia. nia. Qed.

Lemma corder_dec d1 d2 i j k :
  j < d1 -> k < d2 ->
  let p := (i * d1 + j) * d2 + k in
  p / (d1 * d2) = i /\ (p / d2) mod d1 = j /\ p mod d2 = k.
Proof.
  intros Hj Hk p.
  assert (E : p = k + d2 * (j + d1 * i)) by (unfold p; lia).
  rewrite E. repeat split.
  - rewrite (Nat.mul_comm d1 d2), <- Nat.div_div by lia.
    rewrite !div_add_l by assumption. reflexivity.
  - rewrite div_add_l, mod_add_l by assumption. reflexivity.
  - apply mod_add_l. assumption.
Qed.

(** Component / cell split of the flat array of length 3N. *)
Lemma comp_div N c m : m < N -> (c * N + m) / N = c.
Proof. intros H. rewrite Nat.add_comm, Nat.mul_comm. apply div_add_l. exact H. Qed.
Lemma comp_mod N c m : m < N -> (c * N + m) mod N = m.
Proof. intros H. rewrite Nat.add_comm, Nat.mul_comm. apply mod_add_l. exact H. Qed.
Lemma comp_decode N n :
  n < 3 * N -> n / N < 3 /\ n mod N < N /\ n = (n / N) * N + n mod N.
Proof.
  intros H. assert (HN : N <> 0) by lia. repeat split.
  - apply Nat.div_lt_upper_bound; lia.
  - apply Nat.mod_upper_bound; exact HN.
  - rewrite (Nat.mul_comm (n / N)). apply Nat.div_mod. exact HN.
Qed.
