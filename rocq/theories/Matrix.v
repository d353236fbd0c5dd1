(** Square matrices as functions, and their action on vectors.

    Models scipy.sparse diags / vstack / hstack / "*" / transpose as used in
    /repo/wakis/solverFIT3D.py:186-206 and 290-297.  Sparse storage formats are not
    modelled: a matrix is its entries. *)
From Coq Require Import List Arith Lia Ring Field Bool.
From Verif Require Import Num Vec Index.
Import ListNotations.

Section Matrix.
  Context {T : Type} {NT : Num T}.

  Definition mat : Type := nat -> nat -> T.

  (** diags(d): d on the main diagonal. *)
  Definition mdiag (d : nat -> T) : mat := fun r c => if Nat.eqb r c then d r else nzero.
  (** diags([-1, 1], [0, off]). *)
  Definition mshift (off : nat) : mat := fun r c =>
    if Nat.eqb c r then nopp none_ else if Nat.eqb c (r + off) then none_ else nzero.
  Definition mzero : mat := fun _ _ => nzero.
  Definition mopp (A : mat) : mat := fun r c => nopp (A r c).
  Definition mtrans (A : mat) : mat := fun r c => A c r.
  Definition mmul (n : nat) (A B : mat) : mat := fun r c => sum n (fun k => nmul (A r k) (B k c)).
  (** vstack of three hstacks of N x N blocks. *)
  Definition mblock (N : nat) (B : nat -> nat -> mat) : mat :=
    fun r c => B (r / N) (c / N) (r mod N) (c mod N).

  (** Matrix times vector. *)
  Definition mv (n : nat) (A : mat) (x : nat -> T) (r : nat) : T :=
    sum n (fun c => nmul (A r c) (x c)).
  Definition mvec (n : nat) (A : mat) (x : list T) : list T := tab n (mv n A (get x)).
End Matrix.
Arguments mat T : clear implicits.

Section MatrixLaws.
  Context {T : Type} {NT : Num T} {LT : NumLaws T}.
  Add Field field_T_mat : (@num_field T NT LT).
  Local Open Scope num_scope.
  Implicit Types A B : mat T.

  Lemma mv_ext n A B x y r :
    (forall c, (c < n)%nat -> A r c = B r c) -> (forall c, (c < n)%nat -> x c = y c) ->
    mv n A x r = mv n B y r.
  Proof. intros H1 H2. apply sum_ext. intros c Hc. rewrite H1, H2 by exact Hc. reflexivity. Qed.

  Lemma mv_mmul n A B x r : mv n (mmul n A B) x r = mv n A (mv n B x) r.
  Proof.
    unfold mv, mmul.
    rewrite (sum_ext n _ (fun c => sum n (fun k => A r k * B k c * x c)))
      by (intros c _; rewrite <- sum_scale_r; reflexivity).
    rewrite sum_swap. apply sum_ext. intros k _.
    rewrite <- sum_scale. apply sum_ext. intros c _. ring.
  Qed.

  Lemma mv_mdiag n d x r : (r < n)%nat -> mv n (mdiag d) x r = d r * x r.
  Proof.
    intros Hr. unfold mv, mdiag.
    rewrite (sum_ext n _ (fun c => (if Nat.eqb c r then d r else 0) * x c)).
    - apply sum_mul_pick. exact Hr.
    - intros c _. rewrite (Nat.eqb_sym r c). reflexivity.
  Qed.

  Lemma mv_mdiag_mmul n d A x r : (r < n)%nat ->
    mv n (mmul n (mdiag d) A) x r = d r * mv n A x r.
  Proof. intros Hr. rewrite mv_mmul. apply mv_mdiag. exact Hr. Qed.

  Lemma mv_mmul_mdiag n d A x r :
    mv n (mmul n A (mdiag d)) x r = mv n A (fun c => d c * x c) r.
  Proof.
    rewrite mv_mmul. apply mv_ext; [reflexivity|]. intros c Hc. apply mv_mdiag. exact Hc.
  Qed.

  Lemma mmul_mdiag_l n d A r c : (r < n)%nat -> mmul n (mdiag d) A r c = d r * A r c.
  Proof.
    intros Hr. unfold mmul.
    rewrite (sum_ext n _ (fun k => (if Nat.eqb k r then d r else 0) * A k c)).
    - apply (sum_mul_pick n r (fun k => A k c)). exact Hr.
    - intros k _. unfold mdiag. rewrite (Nat.eqb_sym r k). reflexivity.
  Qed.

  Lemma mmul_mdiag_r n d A r c : (c < n)%nat -> mmul n A (mdiag d) r c = A r c * d c.
  Proof.
    intros Hc. unfold mmul.
    rewrite (sum_ext n _ (fun k => (if Nat.eqb k c then d c else 0) * A r k)).
    - rewrite (sum_mul_pick n c (fun k => A r k)) by exact Hc. ring.
    - intros k _. unfold mdiag. destruct (Nat.eqb_spec k c) as [->|]; ring.
  Qed.

  (** Transpose is the adjoint for the plain dot product. *)
  Lemma mv_adjoint n A u v :
    sum n (fun r => u r * mv n A v r) = sum n (fun c => v c * mv n (mtrans A) u c).
  Proof.
    unfold mv, mtrans.
    rewrite (sum_ext n _ (fun r => sum n (fun c => u r * (A r c * v c))))
      by (intros r _; rewrite sum_scale; reflexivity).
    rewrite sum_swap. apply sum_ext. intros c _. rewrite <- sum_scale.
    apply sum_ext. intros r _. ring.
  Qed.

  Lemma mv_add n A x y r : mv n A (fun c => x c + y c) r = mv n A x r + mv n A y r.
  Proof. unfold mv. rewrite <- sum_add. apply sum_ext. intros; ring. Qed.
  Lemma mv_scale n A a x r : mv n A (fun c => a * x c) r = a * mv n A x r.
  Proof. unfold mv. rewrite <- sum_scale. apply sum_ext. intros; ring. Qed.
  Lemma mv_zero n A x r : (forall c, (c < n)%nat -> x c = 0) -> mv n A x r = 0.
  Proof. intros H. apply sum_0. intros c Hc. rewrite H by exact Hc. ring. Qed.
  Lemma mv_mopp n A x r : mv n (mopp A) x r = - mv n A x r.
  Proof. unfold mv, mopp. rewrite <- sum_opp. apply sum_ext. intros; ring. Qed.
  Lemma mv_mzero n x r : mv n (@mzero T NT) x r = 0.
  Proof. apply sum_0. intros. unfold mzero. ring. Qed.

  (** Stencils of the shift matrices; the vector is read as zero outside [0, N). *)
  Definition ext (N : nat) (x : nat -> T) (m : nat) : T := if (m <? N)%nat then x m else 0.

  Lemma mv_mshift N off x r : (0 < off)%nat -> (r < N)%nat ->
    mv N (mshift off) x r = ext N x (r + off)%nat - x r.
  Proof.
    intros Ho Hr. unfold mv, mshift.
    rewrite (sum_ext N _ (fun c => (if Nat.eqb c r then -(1) else 0) * x c
                                 + (if Nat.eqb c (r + off) then 1 else 0) * x c)).
    - rewrite sum_add. rewrite sum_mul_pick by exact Hr.
      unfold ext. destruct (Nat.ltb_spec (r + off) N).
      + rewrite sum_mul_pick by assumption. ring.
      + rewrite (sum_0 N (fun c => (if Nat.eqb c (r + off) then 1 else 0) * x c)); [ring|].
        intros c Hc. destruct (Nat.eqb_spec c (r + off)); [lia|ring].
    - intros c _. destruct (Nat.eqb_spec c r) as [->|].
      + destruct (Nat.eqb_spec r (r + off)); [lia|ring].
      + destruct (Nat.eqb_spec c (r + off)); ring.
  Qed.

  Lemma mv_mshift_t N off x c : (0 < off)%nat -> (c < N)%nat ->
    mv N (mtrans (mshift off)) x c = (if (off <=? c)%nat then x (c - off)%nat else 0) - x c.
  Proof.
    intros Ho Hc. unfold mv, mtrans, mshift.
    rewrite (sum_ext N _ (fun r => (if Nat.eqb r c then -(1) else 0) * x r
                    + (if (Nat.eqb (r + off) c) then 1 else 0) * x r)).
    - rewrite sum_add. rewrite sum_mul_pick by exact Hc.
      destruct (Nat.leb_spec off c).
      + rewrite (sum_ext N (fun i => (if Nat.eqb (i + off) c then 1 else 0) * x i)
                   (fun i => (if Nat.eqb i (c - off) then 1 else 0) * x i)).
        * rewrite sum_mul_pick by lia. ring.
        * intros i _. destruct (Nat.eqb_spec (i + off) c), (Nat.eqb_spec i (c - off)); try lia; reflexivity.
      + rewrite (sum_0 N (fun i => (if Nat.eqb (i + off) c then 1 else 0) * x i)); [ring|].
        intros i Hi. destruct (Nat.eqb_spec (i + off) c); [lia|ring].
    - intros r _. rewrite (Nat.eqb_sym r c), (Nat.eqb_sym (r + off) c).
      destruct (Nat.eqb_spec c r) as [->|].
      + destruct (Nat.eqb_spec r (r + off)); [lia|ring].
      + destruct (Nat.eqb_spec c (r + off)); ring.
  Qed.

  (** Block row times a vector of three components. *)
  Lemma mv_mblock N (B : nat -> nat -> mat T) (x : nat -> T) d m : (m < N)%nat ->
    mv (3 * N) (mblock N B) x (d * N + m) =
    mv N (B d 0%nat) (fun c => x c) m + mv N (B d 1%nat) (fun c => x (N + c)%nat) m
    + mv N (B d 2%nat) (fun c => x (2 * N + c)%nat) m.
  Proof.
    intros Hm. unfold mv, mblock. rewrite comp_div, comp_mod by exact Hm.
    replace (3 * N)%nat with (N + (N + N))%nat by lia. rewrite !sum_split.
    match goal with |- ?a + (?b + ?c) = _ => transitivity (a + b + c); [ring|] end.
    f_equal; [f_equal|].
    - apply sum_ext. intros c Hc. replace c with (0 * N + c)%nat at 1 2 by lia.
      rewrite comp_div, comp_mod by exact Hc. reflexivity.
    - apply sum_ext. intros c Hc. replace (N + c)%nat with (1 * N + c)%nat by lia.
      rewrite comp_div, comp_mod by exact Hc. reflexivity.
    - apply sum_ext. intros c Hc. replace (N + (N + c))%nat with (2 * N + c)%nat by lia.
      rewrite comp_div, comp_mod by exact Hc. reflexivity.
  Qed.

  Lemma mtrans_mblock N (B : nat -> nat -> mat T) r c :
    mtrans (mblock N B) r c = mblock N (fun i j => mtrans (B j i)) r c.
  Proof. reflexivity. Qed.
End MatrixLaws.
