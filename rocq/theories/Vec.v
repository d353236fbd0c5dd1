(** One-dimensional arrays as lists, and finite sums over a [Num]. *)
From Coq Require Import List Arith Lia Ring Field.
From Verif Require Import Num.
Import ListNotations.

(** [tab n f] is the array [f 0, ..., f (n-1)]. *)
Definition tab {A} (n : nat) (f : nat -> A) : list A := map f (seq 0 n).
Arguments tab : simpl never.

Section Arrays.
  Context {A : Type}.

  Lemma tab_length n (f : nat -> A) : length (tab n f) = n.
  Proof. unfold tab. rewrite map_length, seq_length. reflexivity. Qed.

  Lemma nth_tab n (f : nat -> A) i d : i < n -> nth i (tab n f) d = f i.
  Proof.
    intros Hi. unfold tab.
    rewrite (nth_indep _ d (f 0)) by (rewrite map_length, seq_length; exact Hi).
    rewrite map_nth, seq_nth by exact Hi. reflexivity.
  Qed.

  Lemma tab_ext n (f g : nat -> A) :
    (forall i, i < n -> f i = g i) -> tab n f = tab n g.
  Proof.
    intros H. unfold tab. apply map_ext_in. intros i Hi.
    apply in_seq in Hi. apply H. lia.
  Qed.

  Lemma list_eq_nth (u v : list A) d :
    length u = length v ->
    (forall i, i < length u -> nth i u d = nth i v d) -> u = v.
  Proof. intros H1 H2. apply (nth_ext u v d d H1 H2). Qed.

  Lemma tab_nth (v : list A) d : tab (length v) (fun i => nth i v d) = v.
  Proof.
    apply (list_eq_nth _ _ d).
    - apply tab_length.
    - intros i Hi. rewrite tab_length in Hi. apply nth_tab. exact Hi.
  Qed.

  Lemma tab_S n (f : nat -> A) : tab (S n) f = tab n f ++ [f n].
  Proof.
    unfold tab. rewrite seq_S, map_app. reflexivity.
  Qed.
End Arrays.

Section Vec.
  Context {T : Type} {NT : Num T}.
  Local Open Scope num_scope.

  (** Array read; the default is only reached outside the array, which every
      user of [get] guards against. *)
  Definition get (v : list T) (i : nat) : T := nth i v 0.
  Arguments get : simpl never.

  Lemma get_tab n f i : (i < n)%nat -> get (tab n f) i = f i.
  Proof. apply nth_tab. Qed.

  Lemma get_over v i : (length v <= i)%nat -> get v i = 0.
  Proof. apply nth_overflow. Qed.

  Lemma get_tab_over n f i : (n <= i)%nat -> get (tab n f) i = 0.
  Proof. intros. apply get_over. rewrite tab_length. assumption. Qed.

  Lemma vec_eq (u v : list T) :
    length u = length v ->
    (forall i, (i < length u)%nat -> get u i = get v i) -> u = v.
  Proof. apply list_eq_nth. Qed.

  Lemma tab_get (v : list T) : tab (length v) (get v) = v.
  Proof. apply tab_nth. Qed.

  (** Pointwise update of one entry. *)
  Definition upd (v : list T) (k : nat) (x : T) : list T :=
    tab (length v) (fun i => if Nat.eqb i k then x else get v i).

  Lemma upd_length v k x : length (upd v k x) = length v.
  Proof. apply tab_length. Qed.

  Lemma get_upd v k x i :
    (i < length v)%nat -> get (upd v k x) i = if Nat.eqb i k then x else get v i.
  Proof. intros H. unfold upd. rewrite get_tab by exact H. reflexivity. Qed.

  (** Pointwise arithmetic (numpy elementwise operators on equal-length arrays). *)
  Definition vmap2 (f : T -> T -> T) (u v : list T) : list T :=
    tab (length u) (fun i => f (get u i) (get v i)).
  Definition vadd := vmap2 nadd.
  Definition vsub := vmap2 nsub.
  Definition vmul := vmap2 nmul.
  Definition vscale (a : T) (u : list T) : list T :=
    tab (length u) (fun i => a * get u i).

  Lemma vmap2_length f u v : length (vmap2 f u v) = length u.
  Proof. apply tab_length. Qed.
  Lemma vscale_length a u : length (vscale a u) = length u.
  Proof. apply tab_length. Qed.
  Lemma get_vmap2 f u v i :
    (i < length u)%nat -> get (vmap2 f u v) i = f (get u i) (get v i).
  Proof. intros H. unfold vmap2. rewrite get_tab by exact H. reflexivity. Qed.
  Lemma get_vscale a u i :
    (i < length u)%nat -> get (vscale a u) i = a * get u i.
  Proof. intros H. unfold vscale. rewrite get_tab by exact H. reflexivity. Qed.

  (** Finite sums [f 0 + ... + f (n-1)]. *)
  Fixpoint sum (n : nat) (f : nat -> T) : T :=
    match n with
    | O => 0
    | S m => sum m f + f m
    end.

  Lemma sum_ext n f g : (forall i, (i < n)%nat -> f i = g i) -> sum n f = sum n g.
  Proof.
    induction n as [|n IH]; intros H; cbn [sum]; [reflexivity|].
    rewrite IH by (intros; apply H; lia). rewrite H by lia. reflexivity.
  Qed.
End Vec.

Arguments get : simpl never.

Section SumLaws.
  Context {T : Type} {NT : Num T} {LT : NumLaws T}.
  Add Field field_T_vec : (@num_field T NT LT).
  Local Open Scope num_scope.

  Lemma sum_0 n (f : nat -> T) : (forall i, (i < n)%nat -> f i = 0) -> sum n f = 0.
  Proof.
    induction n as [|n IH]; intros H; cbn [sum]; [reflexivity|].
    rewrite IH by (intros; apply H; lia). rewrite H by lia. ring.
  Qed.

  Lemma sum_add n (f g : nat -> T) :
    sum n (fun i => f i + g i) = sum n f + sum n g.
  Proof. induction n as [|n IH]; cbn [sum]; [ring|]. rewrite IH. ring. Qed.

  Lemma sum_sub n (f g : nat -> T) :
    sum n (fun i => f i - g i) = sum n f - sum n g.
  Proof. induction n as [|n IH]; cbn [sum]; [ring|]. rewrite IH. ring. Qed.

  Lemma sum_scale n (a : T) (f : nat -> T) :
    sum n (fun i => a * f i) = a * sum n f.
  Proof. induction n as [|n IH]; cbn [sum]; [ring|]. rewrite IH. ring. Qed.

  Lemma sum_scale_r n (a : T) (f : nat -> T) :
    sum n (fun i => f i * a) = sum n f * a.
  Proof. induction n as [|n IH]; cbn [sum]; [ring|]. rewrite IH. ring. Qed.

  Lemma sum_opp n (f : nat -> T) : sum n (fun i => - f i) = - sum n f.
  Proof. induction n as [|n IH]; cbn [sum]; [ring|]. rewrite IH. ring. Qed.

  Lemma sum_swap n m (f : nat -> nat -> T) :
    sum n (fun i => sum m (fun j => f i j)) = sum m (fun j => sum n (fun i => f i j)).
  Proof.
    induction n as [|n IH]; cbn [sum].
    - symmetry. apply sum_0. reflexivity.
    - rewrite IH, <- sum_add. reflexivity.
  Qed.

  (** Only one index contributes. *)
  Lemma sum_single n k (f : nat -> T) :
    (k < n)%nat -> (forall i, (i < n)%nat -> i <> k -> f i = 0) -> sum n f = f k.
  Proof.
    induction n as [|n IH]; intros Hk H; [lia|]. cbn [sum].
    destruct (Nat.eq_dec k n) as [->|Hne].
    - rewrite sum_0 by (intros; apply H; lia). ring.
    - rewrite IH by (try lia; intros; apply H; lia). rewrite (H n) by lia. ring.
  Qed.

  Lemma sum_split n m (f : nat -> T) :
    sum (n + m) f = sum n f + sum m (fun i => f (n + i)%nat).
  Proof.
    induction m as [|m IH]; cbn [sum].
    - rewrite Nat.add_0_r. ring.
    - rewrite Nat.add_succ_r. cbn [sum]. rewrite IH. ring.
  Qed.

  Lemma sum_telescope n (f : nat -> T) :
    sum n (fun i => f (S i) - f i) = f n - f 0%nat.
  Proof. induction n as [|n IH]; cbn [sum]; [ring|]. rewrite IH. ring. Qed.

  Lemma sum_mul_pick n k (g : nat -> T) (a : T) :
    (k < n)%nat -> sum n (fun i => (if Nat.eqb i k then a else 0) * g i) = a * g k.
  Proof.
    intros Hk. rewrite (sum_single n k); [rewrite Nat.eqb_refl; reflexivity|exact Hk|].
    intros i _ Hi. apply Nat.eqb_neq in Hi. rewrite Hi. ring.
  Qed.
End SumLaws.
