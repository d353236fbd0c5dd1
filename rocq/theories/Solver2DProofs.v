(** Energy of the two-dimensional solver, for any lengths, areas and flags. *)
From Coq Require Import List Arith ZArith Bool String Lia.
From Verif Require Import Num Vec FieldModel GridModel SolverModel WakeModel Grid2DModel Solver2DModel.
Import ListNotations.

Section Energy.
  Context {T : Type} {NT : Num T} {LT : NumLaws T}.
  Add Field s2 : (@num_field T NT LT).
  Local Open Scope num_scope.

  Definition sum2 (m n : nat) (f : nat -> nat -> T) : T := sum m (fun i => sum n (fun j => f i j)).
  Lemma sum2_ext m n f g : (forall i j, (i < m)%nat -> (j < n)%nat -> f i j = g i j) -> sum2 m n f = sum2 m n g.
  Proof. intros H. apply sum_ext. intros i Hi. apply sum_ext. intros j Hj. apply H; assumption. Qed.
  Lemma sum2_add m n f g : sum2 m n (fun i j => f i j + g i j) = sum2 m n f + sum2 m n g.
  Proof. unfold sum2. rewrite <- sum_add. apply sum_ext. intros i _. apply sum_add. Qed.
  Lemma sum2_sub m n f g : sum2 m n (fun i j => f i j - g i j) = sum2 m n f - sum2 m n g.
  Proof. unfold sum2. rewrite <- sum_sub. apply sum_ext. intros i _. apply sum_sub. Qed.
  Lemma sum2_scale m n a f : sum2 m n (fun i j => a * f i j) = a * sum2 m n f.
  Proof. unfold sum2. rewrite <- sum_scale. apply sum_ext. intros i _. apply sum_scale. Qed.
  Lemma sum2_swap m n f : sum2 m n f = sum2 n m (fun j i => f i j).
  Proof. apply sum_swap. Qed.

  (** summation by parts, with f vanishing at both ends *)
  Lemma parts n (f h : nat -> T) : f 0%nat = 0 -> f n = 0 ->
    sum n (fun j => h j * (f (S j) - f j)) + sum (S n) (fun j => f j * (h j - h (j - 1)%nat)) = 0.
  Proof.
    intros F0 Fn.
    assert (G : forall m, sum m (fun j => h j * (f (S j) - f j)) + sum m (fun j => f j * (h j - h (j - 1)%nat)) = f m * h (m - 1)%nat - f 0%nat * h 0%nat).
    { induction m as [|m IH]; [cbn; ring|]. cbn [sum]. replace (S m - 1)%nat with m by lia.
      transitivity ((sum m (fun j => h j * (f (S j) - f j)) + sum m (fun j => f j * (h j - h (j - 1)%nat))) + (h m * (f (S m) - f m) + f m * (h m - h (m - 1)%nat))); [ring|].
      rewrite IH. ring. }
    specialize (G n). cbn [sum]. rewrite F0, Fn in *. transitivity (sum n (fun j => h j * (f (S j) - f j)) + sum n (fun j => f j * (h j - h (j - 1)%nat))); [ring|].
    rewrite G. ring.
  Qed.

  Context (nx ny : nat).
  (** A step with currents off: masks mh mx my, cell factors kh, edge factors kx ky, weights lx ly of the circulation. *)
  Context (mh mx my : nat -> nat -> bool) (kh kx ky lx ly wh wx wy : nat -> nat -> T).
  Definition ci (s : em2) i j : T := ly (S i) j * ey s (S i) j - ly i j * ey s i j - lx i (S j) * ex s i (S j) + lx i j * ex s i j.
  Definition hstep (s : em2) i j : T := if mh i j then hz s i j - kh i j * ci s i j else hz s i j.
  (** states whose frozen entries are zero, and whose tangential field at the walls is zero *)
  Definition quiet (s : em2) : Prop :=
    (forall i j, mh i j = false -> hz s i j = 0) /\ (forall i j, mx i j = false -> ex s i j = 0) /\ (forall i j, my i j = false -> ey s i j = 0).
  Context (Mx : forall i j, mx i j = true -> (i < nx)%nat /\ (1 <= j)%nat /\ (j < ny)%nat)
    (My : forall i j, my i j = true -> (1 <= i)%nat /\ (i < nx)%nat /\ (j < ny)%nat)
    (Wh : forall i j, mh i j = true -> wh i j * kh i j = none_)
    (Wx : forall i j, mx i j = true -> wx i j * kx i j = lx i j) (Wy : forall i j, my i j = true -> wy i j * ky i j = ly i j).
  Definition en (s : em2) : T :=
    sum2 nx (S ny) (fun i j => wx i j * (ex s i j * ex s i j)) + sum2 (S nx) ny (fun i j => wy i j * (ey s i j * ey s i j)) +
    sum2 nx ny (fun i j => wh i j * (hz s i j * hstep s i j)).

  Lemma en_const s s' : quiet s ->
    (forall i j, hz s' i j = hstep s i j) ->
    (forall i j, ex s' i j = if mx i j then ex s i j + kx i j * (hz s' i j - hz s' i (j - 1)%nat) else ex s i j) ->
    (forall i j, ey s' i j = if my i j then ey s i j - ky i j * (hz s' i j - hz s' (i - 1)%nat j) else ey s i j) ->
    en s' = en s /\ quiet s'.
  Proof.
    intros (Qh & Qx & Qy) Hh Hx Hy.
    assert (Q' : quiet s').
    { repeat split; intros i j M.
      - rewrite Hh. unfold hstep. rewrite M. apply Qh. exact M.
      - rewrite Hx, M. apply Qx. exact M.
      - rewrite Hy, M. apply Qy. exact M. }
    split; [|exact Q'].
    set (h := hz s'). set (fx i j := lx i j * (ex s' i j + ex s i j)). set (fy i j := ly i j * (ey s' i j + ey s i j)).
    assert (F0 : forall i j, mx i j = false -> fx i j = 0) by (intros i j M; unfold fx; rewrite Hx, M, Qx by exact M; ring).
    assert (G0 : forall i j, my i j = false -> fy i j = 0) by (intros i j M; unfold fy; rewrite Hy, M, Qy by exact M; ring).
    assert (Bx : forall i j, (j = 0 \/ j = ny)%nat -> fx i j = 0) by (intros i j B; apply F0; destruct (mx i j) eqn:M; [apply Mx in M; lia|reflexivity]).
    assert (By : forall i j, (i = 0 \/ i = nx)%nat -> fy i j = 0) by (intros i j B; apply G0; destruct (my i j) eqn:M; [apply My in M; lia|reflexivity]).
    (* change of the electric part *)
    assert (A : sum2 nx (S ny) (fun i j => wx i j * (ex s' i j * ex s' i j)) - sum2 nx (S ny) (fun i j => wx i j * (ex s i j * ex s i j)) =
      sum2 nx (S ny) (fun i j => fx i j * (h i j - h i (j - 1)%nat))).
    { rewrite <- sum2_sub. apply sum2_ext. intros i j _ _. destruct (mx i j) eqn:M.
      - unfold fx. rewrite <- (Wx i j M). transitivity (wx i j * ((ex s' i j + ex s i j) * (ex s' i j - ex s i j))); [ring|]. rewrite (Hx i j), M. fold h. ring.
      - rewrite (F0 i j M), (Hx i j), M. ring. }
    assert (B : sum2 (S nx) ny (fun i j => wy i j * (ey s' i j * ey s' i j)) - sum2 (S nx) ny (fun i j => wy i j * (ey s i j * ey s i j)) =
      - sum2 (S nx) ny (fun i j => fy i j * (h i j - h (i - 1)%nat j))).
    { rewrite <- sum2_sub. transitivity (sum2 (S nx) ny (fun i j => (- none_) * (fy i j * (h i j - h (i - 1)%nat j)))); [|rewrite sum2_scale; ring].
      apply sum2_ext. intros i j _ _. destruct (my i j) eqn:M.
      - unfold fy. rewrite <- (Wy i j M). transitivity (wy i j * ((ey s' i j + ey s i j) * (ey s' i j - ey s i j))); [ring|]. rewrite (Hy i j), M. fold h. ring.
      - rewrite (G0 i j M), (Hy i j), M. ring. }
    (* of the magnetic part *)
    assert (C : sum2 nx ny (fun i j => wh i j * (hz s' i j * hstep s' i j)) - sum2 nx ny (fun i j => wh i j * (hz s i j * hstep s i j)) =
      - sum2 nx ny (fun i j => h i j * ((fy (S i) j - fy i j) - (fx i (S j) - fx i j)))).
    { rewrite <- sum2_sub. transitivity (sum2 nx ny (fun i j => (- none_) * (h i j * ((fy (S i) j - fy i j) - (fx i (S j) - fx i j))))); [|rewrite sum2_scale; ring].
      apply sum2_ext. intros i j _ _. unfold hstep at 1. rewrite <- (Hh i j). fold h. destruct (mh i j) eqn:M.
      - assert (E : hz s i j = h i j + kh i j * ci s i j) by (unfold h; rewrite Hh; unfold hstep; rewrite M; ring). rewrite E.
        transitivity ((wh i j * kh i j) * (- (h i j * (ci s' i j + ci s i j)))); [fold h; ring|]. rewrite Wh by exact M. unfold ci, fy, fx. ring.
      - assert (E : h i j = 0) by (unfold h; apply (proj1 Q'); exact M). fold h. rewrite E, (Qh i j M). ring. }
    (* by parts *)
    assert (P1 : sum2 nx ny (fun i j => h i j * (fx i (S j) - fx i j)) = - sum2 nx (S ny) (fun i j => fx i j * (h i j - h i (j - 1)%nat))).
    { transitivity (sum2 nx ny (fun i j => h i j * (fx i (S j) - fx i j)) + sum2 nx (S ny) (fun i j => fx i j * (h i j - h i (j - 1)%nat))
        - sum2 nx (S ny) (fun i j => fx i j * (h i j - h i (j - 1)%nat))); [ring|].
      unfold sum2 at 1 2. rewrite <- sum_add. rewrite (sum_0 nx); [ring|]. intros i _. apply (parts ny (fx i) (h i)); apply Bx; [left|right]; reflexivity. }
    assert (P2 : sum2 nx ny (fun i j => h i j * (fy (S i) j - fy i j)) = - sum2 (S nx) ny (fun i j => fy i j * (h i j - h (i - 1)%nat j))).
    { transitivity (sum2 nx ny (fun i j => h i j * (fy (S i) j - fy i j)) + sum2 (S nx) ny (fun i j => fy i j * (h i j - h (i - 1)%nat j))
        - sum2 (S nx) ny (fun i j => fy i j * (h i j - h (i - 1)%nat j))); [ring|].
      rewrite (sum2_swap nx ny), (sum2_swap (S nx) ny). unfold sum2 at 1 2. rewrite <- sum_add. rewrite (sum_0 ny); [ring|]. intros j _.
      apply (parts nx (fun i => fy i j) (fun i => h i j)); apply By; [left|right]; reflexivity. }
    assert (P : sum2 nx ny (fun i j => h i j * ((fy (S i) j - fy i j) - (fx i (S j) - fx i j))) =
      sum2 nx (S ny) (fun i j => fx i j * (h i j - h i (j - 1)%nat)) - sum2 (S nx) ny (fun i j => fy i j * (h i j - h (i - 1)%nat j))).
    { transitivity (sum2 nx ny (fun i j => h i j * (fy (S i) j - fy i j)) - sum2 nx ny (fun i j => h i j * (fx i (S j) - fx i j))).
      - rewrite <- sum2_sub. apply sum2_ext. intros. ring.
      - rewrite P1, P2. ring. }
    rewrite P in C. unfold en.
    set (x1 := sum2 nx (S ny) (fun i j => wx i j * (ex s' i j * ex s' i j))) in *. set (x0 := sum2 nx (S ny) (fun i j => wx i j * (ex s i j * ex s i j))) in *.
    set (y1 := sum2 (S nx) ny (fun i j => wy i j * (ey s' i j * ey s' i j))) in *. set (y0 := sum2 (S nx) ny (fun i j => wy i j * (ey s i j * ey s i j))) in *.
    set (z1 := sum2 nx ny (fun i j => wh i j * (hz s' i j * hstep s' i j))) in *. set (z0 := sum2 nx ny (fun i j => wh i j * (hz s i j * hstep s i j))) in *.
    transitivity ((x1 - x0) + (y1 - y0) + (z1 - z0) + (x0 + y0 + z0)); [ring|]. rewrite A, B, C. ring.
  Qed.
End Energy.
