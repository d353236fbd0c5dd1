(** Proofs of C11-C13. *)
From Coq Require Import List Arith ZArith Bool Reals Lra Lia QArith Qcanon.
From Verif Require Import Num Vec FieldModel FieldSpec FieldProofs GridModel GridProofs.
Import ListNotations.
Open Scope nat_scope.

Lemma get_diff (x : list R) i : i + 1 < List.length x ->
  get (diff x) i = (get x (i + 1) - get x i)%R.
Proof. intros H. unfold diff. rewrite get_tab by lia. reflexivity. Qed.

Lemma axis_facts (a : list R) : 2 <= List.length a -> increasing a ->
  (forall i, i + 1 < List.length a -> get (diff a) i = (get a (i + 1) - get a i)%R /\
                                      (0 < get (diff a) i)%R) /\
  sum (List.length a - 1) (get (diff a)) = (get a (List.length a - 1) - get a 0)%R.
Proof.
  intros Hl Ha. split.
  - intros i Hi. rewrite get_diff by exact Hi. split; [reflexivity|].
    specialize (Ha i Hi). lra.
  - apply diff_sum. lia.
Qed.

Lemma primal_metrics (x y z : list R) :
  2 <= List.length x -> 2 <= List.length y -> 2 <= List.length z ->
  increasing x -> increasing y -> increasing z ->
  exists g, grid_from_axes x y z = Ok g /\ gx g = x /\ gy g = y /\ gz g = z /\
    (forall a, In a [x; y; z] ->
       (forall i, i + 1 < List.length a -> get (diff a) i = (get a (i + 1) - get a i)%R /\
                                           (0 < get (diff a) i)%R) /\
       sum (List.length a - 1) (get (diff a)) = (get a (List.length a - 1) - get a 0)%R) /\
    (forall i j k, i + 1 < List.length x -> j + 1 < List.length y -> k + 1 < List.length z ->
       let dx := get (diff x) i in let dy := get (diff y) j in let dz := get (diff z) k in
       entry (gL g) 0 i j k = dx /\ entry (gL g) 1 i j k = dy /\ entry (gL g) 2 i j k = dz /\
       (entry (giA g) 0 i j k * (dy * dz) = 1)%R /\
       (entry (giA g) 1 i j k * (dx * dz) = 1)%R /\
       (entry (giA g) 2 i j k * (dx * dy) = 1)%R).
Proof.
  intros Hx Hy Hz Ix Iy Iz.
  destruct (compute_grid_spec x y z Hx Hy Hz)
    as [g [Eg [Ex [Ey [Ez [SL [SA [StL [StA H]]]]]]]]].
  exists g. split; [exact Eg|]. repeat (split; [assumption|]). split.
  - intros a [<-|[<-|[<-|[]]]]; apply axis_facts; assumption.
  - intros i j k Hi Hj Hk dx dy dz.
    specialize (H i j k). unfold gNx, gNy, gNz in H. rewrite Ex, Ey, Ez in H.
    destruct (H ltac:(lia) ltac:(lia) ltac:(lia)) as [L0 [L1 [L2 [_ [_ [_ HA]]]]]].
    assert (Edx : dx = (get x (i + 1) - get x i)%R) by (apply get_diff; exact Hi).
    assert (Edy : dy = (get y (j + 1) - get y j)%R) by (apply get_diff; exact Hj).
    assert (Edz : dz = (get z (k + 1) - get z k)%R) by (apply get_diff; exact Hk).
    pose proof (Ix i Hi). pose proof (Iy j Hj). pose proof (Iz k Hk).
    destruct (HA 0 ltac:(lia)) as [A0 _]. destruct (HA 1 ltac:(lia)) as [A1 _].
    destruct (HA 2 ltac:(lia)) as [A2 _]. cbn [tr1 tr2] in A0, A1, A2.
    rewrite ?L0, ?L1, ?L2 in *. rewrite A0, A1, A2, Edx, Edy, Edz.
    cbn. repeat split; field; lra.
Qed.

Lemma nofnat_INR n : @nofnat R _ n = INR n.
Proof. induction n as [|n IH]; [reflexivity|]. rewrite S_INR. cbn [nofnat]. rewrite IH. reflexivity. Qed.

Lemma uniform_axis (a b : R) n : n > 0 -> (a < b)%R ->
  List.length (linspace a b n) = n + 1 /\ increasing (linspace a b n) /\
  get (linspace a b n) 0 = a /\ get (linspace a b n) n = b /\
  forall i, i < n -> get (diff (linspace a b n)) i = ((b - a) / INR n)%R.
Proof.
  intros Hn Hab.
  assert (Hl : List.length (linspace a b n) = n + 1) by apply tab_length.
  assert (Hn' : (0 < INR n)%R) by (apply lt_0_INR; lia).
  assert (Hg : forall i, i <= n -> get (linspace a b n) i = (a + INR i * ((b - a) / INR n))%R).
  { intros i Hi. unfold linspace. rewrite get_tab by lia. rewrite !nofnat_INR. reflexivity. }
  assert (Hd : (0 < (b - a) / INR n)%R) by (apply Rdiv_lt_0_compat; lra).
  split; [exact Hl|]. split; [|split; [|split]].
  - intros i Hi. rewrite Hl in Hi. rewrite !Hg by lia. rewrite Nat.add_1_r, S_INR. nra.
  - rewrite Hg by lia. cbn. ring.
  - rewrite Hg by lia. field. lra.
  - intros i Hi. rewrite get_diff by lia. rewrite !Hg by lia. rewrite Nat.add_1_r, S_INR. ring.
Qed.

Lemma tdiff_half (x : list R) i : increasing x -> i + 1 < List.length x ->
  (get (tilde x) (i + 1) - get (tilde x) i)%R =
  (if i + 2 <? List.length x then (get (diff x) i + get (diff x) (i + 1)) / 2 else 0)%R.
Proof.
  intros Ix Hi. destruct (tdiff_R x i Ix Hi) as [H1 H2].
  destruct (Nat.ltb_spec (i + 2) (List.length x)) as [H|H].
  - destruct (H1 H) as [_ E]. rewrite E. rewrite !get_diff by lia.
    replace (i + 1 + 1) with (i + 2) by lia. reflexivity.
  - apply H2. lia.
Qed.

Lemma half_zero_iff (x : list R) i : increasing x -> i + 1 < List.length x ->
  ((if i + 2 <? List.length x then (get (diff x) i + get (diff x) (i + 1)) / 2 else 0)%R = 0%R
   <-> i + 2 = List.length x).
Proof.
  intros Ix Hi. destruct (Nat.ltb_spec (i + 2) (List.length x)) as [H|H].
  - rewrite !get_diff by lia. pose proof (Ix i ltac:(lia)). pose proof (Ix (i + 1) ltac:(lia)).
    split; [intros; lra|lia].
  - split; [intros; lia|reflexivity].
Qed.

Lemma inv_where_R a b : (inv_where a b = 0%R <-> a = 0%R \/ b = 0%R) /\
  (inv_where a b <> 0 -> inv_where a b * (a * b) = 1)%R.
Proof.
  unfold inv_where. cbn [neqb Num_R]. cbn [nmul nzero ndiv none_ Num_R].
  destruct (Req_EM_T (a * b) 0) as [E|E].
  - split; [|intros H; congruence]. split; [|reflexivity]. intros _.
    apply Rmult_integral in E. exact E.
  - assert (a <> 0%R /\ b <> 0%R) as [Ha Hb] by (split; intros ->; apply E; ring). split.
    + split; [|tauto]. intros H. exfalso.
      assert ((1 / (a * b)) * (a * b) = 1)%R by (field; tauto). rewrite H in *. lra.
    + intros _. field. tauto.
Qed.

Lemma dual_metrics (x y z : list R) :
  2 <= List.length x -> 2 <= List.length y -> 2 <= List.length z ->
  increasing x -> increasing y -> increasing z ->
  exists g, grid_from_axes x y z = Ok g /\
    forall i j k, i + 1 < List.length x -> j + 1 < List.length y -> k + 1 < List.length z ->
      entry (gtL g) 0 i j k = (if i + 2 <? List.length x
                               then (get (diff x) i + get (diff x) (i + 1)) / 2 else 0)%R /\
      entry (gtL g) 1 i j k = (if j + 2 <? List.length y
                               then (get (diff y) j + get (diff y) (j + 1)) / 2 else 0)%R /\
      entry (gtL g) 2 i j k = (if k + 2 <? List.length z
                               then (get (diff z) k + get (diff z) (k + 1)) / 2 else 0)%R /\
      (entry (gitA g) 0 i j k = 0%R <-> (j + 2 = List.length y \/ k + 2 = List.length z)) /\
      (entry (gitA g) 1 i j k = 0%R <-> (i + 2 = List.length x \/ k + 2 = List.length z)) /\
      (entry (gitA g) 2 i j k = 0%R <-> (i + 2 = List.length x \/ j + 2 = List.length y)) /\
      (entry (gitA g) 0 i j k <> 0 -> entry (gitA g) 0 i j k * (entry (gtL g) 1 i j k * entry (gtL g) 2 i j k) = 1)%R /\
      (entry (gitA g) 1 i j k <> 0 -> entry (gitA g) 1 i j k * (entry (gtL g) 0 i j k * entry (gtL g) 2 i j k) = 1)%R /\
      (entry (gitA g) 2 i j k <> 0 -> entry (gitA g) 2 i j k * (entry (gtL g) 0 i j k * entry (gtL g) 1 i j k) = 1)%R.
Proof.
  intros Hx Hy Hz Ix Iy Iz.
  destruct (compute_grid_spec x y z Hx Hy Hz)
    as [g [Eg [Ex [Ey [Ez [SL [SA [StL [StA H]]]]]]]]].
  exists g. split; [exact Eg|]. intros i j k Hi Hj Hk.
  specialize (H i j k). unfold gNx, gNy, gNz in H. rewrite Ex, Ey, Ez in H.
  destruct (H ltac:(lia) ltac:(lia) ltac:(lia)) as [_ [_ [_ [L0 [L1 [L2 HA]]]]]].
  destruct (HA 0 ltac:(lia)) as [_ A0]. destruct (HA 1 ltac:(lia)) as [_ A1].
  destruct (HA 2 ltac:(lia)) as [_ A2]. cbn [tr1 tr2] in A0, A1, A2.
  assert (T0 : entry (gtL g) 0 i j k = _) by (rewrite L0; apply tdiff_half; assumption).
  assert (T1 : entry (gtL g) 1 i j k = _) by (rewrite L1; apply tdiff_half; assumption).
  assert (T2 : entry (gtL g) 2 i j k = _) by (rewrite L2; apply tdiff_half; assumption).
  rewrite A0, A1, A2.
  repeat (split; [assumption|]).
  pose proof (half_zero_iff x i Ix Hi) as Z0. pose proof (half_zero_iff y j Iy Hj) as Z1.
  pose proof (half_zero_iff z k Iz Hk) as Z2. rewrite <- T0 in Z0. rewrite <- T1 in Z1. rewrite <- T2 in Z2.
  repeat match goal with |- _ /\ _ => split end;
    try (apply (proj2 (inv_where_R _ _)));
    (eapply iff_trans; [apply (proj1 (inv_where_R _ _))|]); tauto.
Qed.

Lemma dual_index_refuted : exists (x y z : list Qc) g,
  (forall a i, In a [x; y; z] -> i + 1 < List.length a -> (get a i < get a (i + 1))%Qc) /\
  grid_from_axes x y z = Ok g /\
  exists i, 0 < i /\ i + 1 < gNx g /\
    entry (gtL g) 0 i 0 0 <>
    ((get x i + get x (i + 1)) / Q2Qc 2 - (get x (i - 1) + get x (i - 1 + 1)) / Q2Qc 2)%Qc.
Proof.
  exists [Q2Qc 0; Q2Qc 1; Q2Qc 3; Q2Qc 7], [Q2Qc 0; Q2Qc 1], [Q2Qc 0; Q2Qc 1].
  eexists. split.
  - intros a i Ha Hi.
    destruct Ha as [<-|[<-|[<-|[]]]]; cbn in Hi;
      destruct i as [|[|[|i]]]; try lia; vm_compute; reflexivity.
  - split; [vm_compute; reflexivity|]. exists 1. split; [lia|]. split; [vm_compute; lia|].
    vm_compute. discriminate.
Qed.

Lemma dual_index_partial (x y z : list R) :
  2 <= List.length x -> 2 <= List.length y -> 2 <= List.length z ->
  increasing x -> increasing y -> increasing z ->
  exists g, grid_from_axes x y z = Ok g /\
    forall i j k, i + 1 < List.length x -> j + 1 < List.length y -> k + 1 < List.length z ->
      (0 < i -> i + 2 < List.length x ->
       (entry (gtL g) 0 i j k =
          (get x i + get x (i + 1)) / 2 - (get x (i - 1) + get x i) / 2 <->
        get (diff x) (i - 1) = get (diff x) (i + 1))%R) /\
      (0 < j -> j + 2 < List.length y ->
       (entry (gtL g) 1 i j k =
          (get y j + get y (j + 1)) / 2 - (get y (j - 1) + get y j) / 2 <->
        get (diff y) (j - 1) = get (diff y) (j + 1))%R) /\
      (0 < k -> k + 2 < List.length z ->
       (entry (gtL g) 2 i j k =
          (get z k + get z (k + 1)) / 2 - (get z (k - 1) + get z k) / 2 <->
        get (diff z) (k - 1) = get (diff z) (k + 1))%R).
Proof.
  intros Hx Hy Hz Ix Iy Iz.
  destruct (dual_metrics x y z Hx Hy Hz Ix Iy Iz) as [g [Eg H]].
  exists g. split; [exact Eg|]. intros i j k Hi Hj Hk.
  destruct (H i j k Hi Hj Hk) as [L0 [L1 [L2 _]]]. rewrite L0, L1, L2.
  assert (G : forall (a : list R) n, 0 < n -> n + 2 < List.length a ->
    ((if n + 2 <? List.length a then (get (diff a) n + get (diff a) (n + 1)) / 2 else 0) =
       (get a n + get a (n + 1)) / 2 - (get a (n - 1) + get a n) / 2 <->
     get (diff a) (n - 1) = get (diff a) (n + 1))%R).
  { intros a n Hn0 Hn.
    replace (n + 2 <? List.length a) with true by (symmetry; apply Nat.ltb_lt; exact Hn).
    rewrite !get_diff by lia. replace (n - 1 + 1) with n by lia.
    replace (n + 1 + 1) with (n + 2) by lia. lra. }
  split; [|split]; intros; apply G; assumption.
Qed.
