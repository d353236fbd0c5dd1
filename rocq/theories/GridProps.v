(** Properties C11-C13: grid metrics. *)
From Coq Require Import List Arith ZArith Bool Reals Lra Lia QArith Qcanon.
From Verif Require Import Num Vec FieldModel FieldSpec GridModel GridProofs GridProofs2.
Import ListNotations.
Open Scope nat_scope.

(** C11 *)
Theorem C11_primal_metrics : forall x y z : list R,
  2 <= List.length x -> 2 <= List.length y -> 2 <= List.length z ->
  increasing x -> increasing y -> increasing z ->
  exists g, grid_from_axes x y z = Ok g /\ gx g = x /\ gy g = y /\ gz g = z /\
    (forall a, In a [x; y; z] ->
       (forall i, i + 1 < List.length a -> get (diff a) i = (get a (i + 1) - get a i)%R /\
                                           (0 < get (diff a) i)%R) /\
       sum (List.length a - 1) (get (diff a)) = (get a (List.length a - 1) - get a 0)%R) /\
    (forall i j k, i + 1 < List.length x -> j + 1 < List.length y -> k + 1 < List.length z ->
       let dx := get (diff x) i in let dy := get (diff y) j in let dz := get (diff z) k in
       entry (gL g) 0 i j k = dx /\ entry (gL g) 1 i j k = dy /\ entry (gL g) 2 i j k = dz /\
       (entry (giA g) 0 i j k * (dy * dz) = 1)%R /\
       (entry (giA g) 1 i j k * (dx * dz) = 1)%R /\
       (entry (giA g) 2 i j k * (dx * dy) = 1)%R).
Proof. exact primal_metrics. Qed.
Print Assumptions C11_primal_metrics.

(** A uniform grid is the special case of an even axis; its axes meet the hypotheses. *)
Theorem C11_uniform_axis : forall (a b : R) n, n > 0 -> (a < b)%R ->
  List.length (linspace a b n) = n + 1 /\ increasing (linspace a b n) /\
  get (linspace a b n) 0 = a /\ get (linspace a b n) n = b /\
  forall i, i < n -> get (diff (linspace a b n)) i = ((b - a) / INR n)%R.
Proof. exact uniform_axis. Qed.
Print Assumptions C11_uniform_axis.

Example C11_case : increasing [0; 1; 3; 3.5]%R.
Proof. intros i Hi. cbn in Hi. destruct i as [|[|[|i]]]; cbn; unfold get; cbn; try lra. lia. Qed.

(** C12 *)
Theorem C12_dual_metrics : forall x y z : list R,
  2 <= List.length x -> 2 <= List.length y -> 2 <= List.length z ->
  increasing x -> increasing y -> increasing z ->
  exists g, grid_from_axes x y z = Ok g /\
    forall i j k, i + 1 < List.length x -> j + 1 < List.length y -> k + 1 < List.length z ->
      (* half sums, zero on the last layer *)
      entry (gtL g) 0 i j k = (if i + 2 <? List.length x
                               then (get (diff x) i + get (diff x) (i + 1)) / 2 else 0)%R /\
      entry (gtL g) 1 i j k = (if j + 2 <? List.length y
                               then (get (diff y) j + get (diff y) (j + 1)) / 2 else 0)%R /\
      entry (gtL g) 2 i j k = (if k + 2 <? List.length z
                               then (get (diff z) k + get (diff z) (k + 1)) / 2 else 0)%R /\
      (* inverse areas *)
      (entry (gitA g) 0 i j k = 0%R <-> (j + 2 = List.length y \/ k + 2 = List.length z)) /\
      (entry (gitA g) 1 i j k = 0%R <-> (i + 2 = List.length x \/ k + 2 = List.length z)) /\
      (entry (gitA g) 2 i j k = 0%R <-> (i + 2 = List.length x \/ j + 2 = List.length y)) /\
      (entry (gitA g) 0 i j k <> 0 -> entry (gitA g) 0 i j k * (entry (gtL g) 1 i j k * entry (gtL g) 2 i j k) = 1)%R /\
      (entry (gitA g) 1 i j k <> 0 -> entry (gitA g) 1 i j k * (entry (gtL g) 0 i j k * entry (gtL g) 2 i j k) = 1)%R /\
      (entry (gitA g) 2 i j k <> 0 -> entry (gitA g) 2 i j k * (entry (gtL g) 0 i j k * entry (gtL g) 1 i j k) = 1)%R.
Proof. exact dual_metrics. Qed.
Print Assumptions C12_dual_metrics.

(** C13.  Full claim: the dual length stored at index i is the distance between the
    centres of the cells i-1 and i that meet at node i.  False on a graded axis. *)
Definition centre (x : list Qc) (i : nat) : Qc := ((get x i + get x (i + 1)) / Q2Qc 2)%Qc.

Theorem C13_dual_index_refuted : exists (x y z : list Qc) g,
  (forall a i, In a [x; y; z] -> i + 1 < List.length a -> (get a i < get a (i + 1))%Qc) /\
  grid_from_axes x y z = Ok g /\
  exists i, 0 < i /\ i + 1 < gNx g /\
    entry (gtL g) 0 i 0 0 <> (centre x i - centre x (i - 1))%Qc.
Proof. exact dual_index_refuted. Qed.
Print Assumptions C13_dual_index_refuted.

(** What holds: away from the ends the claim is true exactly when cells i-1 and i+1 have
    equal sizes, in particular on every uniform axis. *)
Theorem C13_dual_index_partial : forall x y z : list R,
  2 <= List.length x -> 2 <= List.length y -> 2 <= List.length z ->
  increasing x -> increasing y -> increasing z ->
  exists g, grid_from_axes x y z = Ok g /\
    forall i j k, i + 1 < List.length x -> j + 1 < List.length y -> k + 1 < List.length z ->
      (0 < i -> i + 2 < List.length x ->
       (entry (gtL g) 0 i j k =
          (get x i + get x (i + 1)) / 2 - (get x (i - 1) + get x i) / 2 <->
        get (diff x) (i - 1) = get (diff x) (i + 1))%R) /\
      (0 < j -> j + 2 < List.length y ->
       (entry (gtL g) 1 i j k =
          (get y j + get y (j + 1)) / 2 - (get y (j - 1) + get y j) / 2 <->
        get (diff y) (j - 1) = get (diff y) (j + 1))%R) /\
      (0 < k -> k + 2 < List.length z ->
       (entry (gtL g) 2 i j k =
          (get z k + get z (k + 1)) / 2 - (get z (k - 1) + get z k) / 2 <->
        get (diff z) (k - 1) = get (diff z) (k + 1))%R).
Proof. exact dual_index_partial. Qed.
Print Assumptions C13_dual_index_partial.

Example C13_case : increasing [0; 1; 2; 3]%R /\ get (diff [0; 1; 2; 3]%R) 0 = get (diff [0; 1; 2; 3]%R) 2.
Proof.
  split.
  - intros i Hi. cbn in Hi. destruct i as [|[|[|i]]]; cbn; unfold get; cbn; try lra. lia.
  - unfold diff. rewrite !get_tab by (cbn; lia). unfold get; cbn. lra.
Qed.
