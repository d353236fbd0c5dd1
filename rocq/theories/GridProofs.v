(** Lemmas about the grid model. *)
From Coq Require Import List Arith ZArith Bool String Lia Ring Field Reals Lra.
From Verif Require Import Num Vec Index FieldModel FieldSpec FieldProofs FieldProofs2 GridModel.
Import ListNotations.

Section GridProofs.
  Context {T : Type} {NT : Num T}.
  Implicit Types F G : Field T.

  (** Fields of given sizes. *)
  Definition sized (F : Field T) (Nx Ny Nz : nat) : Prop :=
    wf F /\ fNx F = Nx /\ fNy F = Ny /\ fNz F = Nz.

  Lemma sized_zeros Nx Ny Nz : sized (field_zeros Nx Ny Nz) Nx Ny Nz.
  Proof. split; [apply wf_zeros|auto]. Qed.
  Lemma sized_ones Nx Ny Nz : sized (field_ones Nx Ny Nz) Nx Ny Nz.
  Proof. split; [apply wf_ones|auto]. Qed.

  Lemma set_arr3 F c Nx Ny Nz f :
    sized F Nx Ny Nz -> c < 3 ->
    exists G, set_field_c F c (arr3 Nx Ny Nz f) = Ok G /\ sized G Nx Ny Nz /\
      forall c' i j k, c' < 3 -> i < Nx -> j < Ny -> k < Nz ->
        entry G c' i j k = if c' =? c then f i j k else entry F c' i j k.
  Proof.
    intros [Hw [<- [<- <-]]] Hc.
    unfold set_field_c, arr3. cbn [shape List.length dat Nat.ltb Nat.leb].
    set (m := {| m0 := fNx F; m1 := fNy F; m2 := fNz F; mdat := _ |}).
    assert (Em : m = mtab (fNx F) (fNy F) (fNz F) f) by reflexivity.
    destruct (from_matrix_ok F m c eq_refl eq_refl eq_refl) as [G EG].
    destruct (from_matrix_spec F m c G Hw Hc eq_refl eq_refl eq_refl EG) as [W [X [Y [Z A]]]].
    exists G. split; [exact EG|]. split; [split; auto|].
    intros c' i j k Hc' Hi Hj Hk. rewrite !entry_at, A by assumption.
    rewrite Em. rewrite mget_mtab by assumption. reflexivity.
  Qed.

  Lemma get_field_c F c i j k Nx Ny Nz :
    sized F Nx Ny Nz -> i < Nx -> j < Ny -> k < Nz ->
    get (field_c F c) (cell Nx Ny i j k) = entry F c i j k.
  Proof.
    intros [Hw [<- [<- <-]]] Hi Hj Hk. unfold field_c.
    rewrite get_tab by (apply cell_lt; assumption). rewrite entry_at. reflexivity.
  Qed.

  Lemma set_arr1 F c Nx Ny Nz f :
    sized F Nx Ny Nz -> c < 3 ->
    exists G, set_field_c F c (arr1 (Nx * Ny * Nz) f) = Ok G /\ sized G Nx Ny Nz /\
      forall c' i j k, c' < 3 -> i < Nx -> j < Ny -> k < Nz ->
        entry G c' i j k = if c' =? c then f (cell Nx Ny i j k) else entry F c' i j k.
  Proof.
    intros [Hw [<- [<- <-]]] Hc. unfold arr1.
    destruct (set_field_c_spec F c (tab (fNx F * fNy F * fNz F) f) (fN F) Hw Hc eq_refl)
      as [G [EG [W [X [Y [Z A]]]]]].
    exists G. split; [exact EG|]. split; [split; auto|].
    intros c' i j k Hc' Hi Hj Hk. rewrite !entry_at. unfold at_.
    pose proof (cell_lt _ _ _ _ _ _ Hi Hj Hk) as Hm.
    replace (fN G) with (fN F) by (unfold fN; congruence). rewrite X, Y.
    rewrite A by assumption. destruct (c' =? c); [|reflexivity].
    apply get_tab. exact Hm.
  Qed.

  Lemma lengths_spec (x y z : list T) :
    exists F, lengths x y z = Ok F /\
      sized F (List.length x - 1) (List.length y - 1) (List.length z - 1) /\
      forall i j k, i < List.length x - 1 -> j < List.length y - 1 -> k < List.length z - 1 ->
        entry F 0 i j k = nsub (get x (i + 1)) (get x i) /\
        entry F 1 i j k = nsub (get y (j + 1)) (get y j) /\
        entry F 2 i j k = nsub (get z (k + 1)) (get z k).
  Proof.
    unfold lengths. set (Nx := List.length x - 1). set (Ny := List.length y - 1).
    set (Nz := List.length z - 1).
    destruct (set_arr3 (field_zeros Nx Ny Nz) 0 Nx Ny Nz
                (fun i _ _ => nsub (get x (i + 1)) (get x i)) (sized_zeros _ _ _) ltac:(lia))
      as [F0 [E0 [S0 A0]]]. rewrite E0. cbn [bind].
    destruct (set_arr3 F0 1 Nx Ny Nz (fun _ j _ => nsub (get y (j + 1)) (get y j)) S0 ltac:(lia))
      as [F1 [E1 [S1 A1]]]. rewrite E1. cbn [bind].
    destruct (set_arr3 F1 2 Nx Ny Nz (fun _ _ k => nsub (get z (k + 1)) (get z k)) S1 ltac:(lia))
      as [F2 [E2 [S2 A2]]]. exists F2. split; [exact E2|]. split; [exact S2|].
    intros i j k Hi Hj Hk. repeat split.
    - rewrite A2 by (assumption || lia). cbn [Nat.eqb]. rewrite A1 by (assumption || lia).
      cbn [Nat.eqb]. rewrite A0 by (assumption || lia). reflexivity.
    - rewrite A2 by (assumption || lia). cbn [Nat.eqb]. rewrite A1 by (assumption || lia). reflexivity.
    - rewrite A2 by (assumption || lia). reflexivity.
  Qed.

  Lemma areas_spec (h : T -> T -> T) L Nx Ny Nz :
    sized L Nx Ny Nz ->
    exists F, areas_by h L = Ok F /\ sized F Nx Ny Nz /\
      forall c i j k, c < 3 -> i < Nx -> j < Ny -> k < Nz ->
        entry F c i j k = h (entry L (tr1 c) i j k) (entry L (tr2 c) i j k).
  Proof.
    intros SL. pose proof SL as [Hw [EX [EY EZ]]]. unfold areas_by, fN.
    rewrite EX, EY, EZ.
    destruct (set_arr1 (field_zeros Nx Ny Nz) 0 Nx Ny Nz
      (fun m => h (get (field_c L (tr1 0)) m) (get (field_c L (tr2 0)) m)) (sized_zeros _ _ _) ltac:(lia))
      as [F0 [E0 [S0 A0]]]. rewrite E0. cbn [bind].
    destruct (set_arr1 F0 1 Nx Ny Nz
      (fun m => h (get (field_c L (tr1 1)) m) (get (field_c L (tr2 1)) m)) S0 ltac:(lia))
      as [F1 [E1 [S1 A1]]]. rewrite E1. cbn [bind].
    destruct (set_arr1 F1 2 Nx Ny Nz
      (fun m => h (get (field_c L (tr1 2)) m) (get (field_c L (tr2 2)) m)) S1 ltac:(lia))
      as [F2 [E2 [S2 A2]]]. exists F2. split; [exact E2|]. split; [exact S2|].
    intros c i j k Hc Hi Hj Hk. rewrite A2 by assumption.
    rewrite <- !(get_field_c L _ i j k Nx Ny Nz SL Hi Hj Hk).
    destruct c as [|[|[|c]]]; cbn [Nat.eqb]; [| | |lia].
    - rewrite A1 by assumption. cbn [Nat.eqb]. rewrite A0 by assumption. reflexivity.
    - rewrite A1 by assumption. reflexivity.
    - reflexivity.
  Qed.

  Lemma tilde_length (x : list T) : List.length (tilde x) = List.length x.
  Proof. apply tab_length. Qed.

  (** Complete description of the grid metrics. *)
  Lemma compute_grid_spec (x y z : list T) :
    2 <= List.length x -> 2 <= List.length y -> 2 <= List.length z ->
    exists g, compute_grid x y z = Ok g /\ gx g = x /\ gy g = y /\ gz g = z /\
      sized (gL g) (gNx g) (gNy g) (gNz g) /\ sized (giA g) (gNx g) (gNy g) (gNz g) /\
      sized (gtL g) (gNx g) (gNy g) (gNz g) /\ sized (gitA g) (gNx g) (gNy g) (gNz g) /\
      forall i j k, i < gNx g -> j < gNy g -> k < gNz g ->
        entry (gL g) 0 i j k = nsub (get x (i + 1)) (get x i) /\
        entry (gL g) 1 i j k = nsub (get y (j + 1)) (get y j) /\
        entry (gL g) 2 i j k = nsub (get z (k + 1)) (get z k) /\
        entry (gtL g) 0 i j k = nsub (get (tilde x) (i + 1)) (get (tilde x) i) /\
        entry (gtL g) 1 i j k = nsub (get (tilde y) (j + 1)) (get (tilde y) j) /\
        entry (gtL g) 2 i j k = nsub (get (tilde z) (k + 1)) (get (tilde z) k) /\
        forall c, c < 3 ->
          entry (giA g) c i j k =
            ndiv none_ (nmul (entry (gL g) (tr1 c) i j k) (entry (gL g) (tr2 c) i j k)) /\
          entry (gitA g) c i j k =
            inv_where (entry (gtL g) (tr1 c) i j k) (entry (gtL g) (tr2 c) i j k).
  Proof.
    intros Hx Hy Hz. unfold compute_grid.
    apply Nat.leb_le in Hx. apply Nat.leb_le in Hy. apply Nat.leb_le in Hz.
    rewrite Hx, Hy, Hz. cbn [andb].
    destruct (lengths_spec x y z) as [L [EL [SL AL]]]. rewrite EL. cbn [bind].
    destruct (areas_spec (fun a b => ndiv none_ (nmul a b)) L _ _ _ SL) as [iA [EA [SA AA]]].
    unfold inv_areas. rewrite EA. cbn [bind].
    destruct (lengths_spec (tilde x) (tilde y) (tilde z)) as [tL [EtL [StL AtL]]].
    rewrite !tilde_length in StL. rewrite !tilde_length in AtL.
    rewrite EtL. cbn [bind].
    destruct (areas_spec inv_where tL _ _ _ StL) as [itA [EtA [StA AtA]]].
    unfold inv_areas_where. rewrite EtA. cbn [bind].
    eexists. split; [reflexivity|]. unfold gNx, gNy, gNz; cbn.
    repeat (split; [reflexivity|]). repeat (split; [assumption|]).
    intros i j k Hi Hj Hk. destruct (AL i j k Hi Hj Hk) as [? [? ?]].
    destruct (AtL i j k Hi Hj Hk) as [? [? ?]].
    repeat (split; [assumption|]). intros c Hc. split; [apply AA|apply AtA]; assumption.
  Qed.
End GridProofs.

Section TildeLaws.
  Context {T : Type} {NT : Num T} {LT : NumLaws T}.
  Add Field field_T_grid : (@num_field T NT LT).

  Lemma tilde_get (x : list T) i : i + 1 < List.length x ->
    get (tilde x) i = ndiv (nadd (get x (i + 1)) (get x i)) two.
  Proof.
    intros H. unfold tilde. rewrite get_tab by lia.
    replace (i + 1 <? List.length x) with true; [reflexivity|].
    symmetry. apply Nat.ltb_lt. exact H.
  Qed.
  Lemma tilde_last (x : list T) i : i + 1 = List.length x ->
    get (tilde x) i = ndiv (nadd (get x i) (get x (i - 1))) two \/ List.length x = 1.
  Proof.
    intros H. destruct (Nat.eq_dec (List.length x) 1) as [E|E]; [right; exact E|left].
    unfold tilde. rewrite get_tab by lia.
    replace (i + 1 <? List.length x) with false by (symmetry; apply Nat.ltb_ge; lia).
    replace (List.length x - 2 + 1) with i by lia. replace (List.length x - 2) with (i - 1) by lia.
    reflexivity.
  Qed.

  (** Dual lengths in terms of the cell sizes. *)
  Lemma tilde_diff (x : list T) i : two <> nzero -> i + 1 < List.length x ->
    nsub (get (tilde x) (i + 1)) (get (tilde x) i) =
    if i + 2 <? List.length x
    then ndiv (nadd (nsub (get x (i + 1)) (get x i)) (nsub (get x (i + 2)) (get x (i + 1)))) two
    else nzero.
  Proof.
    intros H2 Hi. rewrite (tilde_get x i) by exact Hi.
    destruct (Nat.ltb_spec (i + 2) (List.length x)) as [H|H].
    - rewrite (tilde_get x (i + 1)) by lia. replace (i + 1 + 1) with (i + 2) by lia.
      field. exact H2.
    - destruct (tilde_last x (i + 1) ltac:(lia)) as [E|E]; [|lia]. rewrite E.
      replace (i + 1 - 1) with i by lia. field. exact H2.
  Qed.
End TildeLaws.

(** ** Over the reals *)
Definition increasing (x : list R) : Prop :=
  forall i, i + 1 < List.length x -> (get x i < get x (i + 1))%R.

Lemma two_neq_0 : @two R _ <> 0%R.
Proof. unfold two. cbn. lra. Qed.

Lemma diff_sum (x : list R) : 1 <= List.length x ->
  sum (List.length x - 1) (get (diff x)) = (get x (List.length x - 1) - get x 0)%R.
Proof.
  intros H. rewrite (sum_ext _ _ (fun i => (get x (S i) - get x i)%R)).
  - exact (@sum_telescope R Num_R NumLaws_R (List.length x - 1) (get x)).
  - intros i Hi. unfold diff. rewrite get_tab by exact Hi. rewrite Nat.add_1_r. reflexivity.
Qed.

Lemma tdiff_R (x : list R) i : increasing x -> i + 1 < List.length x ->
  let d := (get (tilde x) (i + 1) - get (tilde x) i)%R in
  (i + 2 < List.length x -> (d > 0 /\ d = ((get x (i + 1) - get x i) + (get x (i + 2) - get x (i + 1))) / 2)%R)
  /\ (i + 2 >= List.length x -> d = 0%R).
Proof.
  intros Hinc Hi d. pose proof (tilde_diff x i two_neq_0 Hi) as E.
  change (nsub (get (tilde x) (i + 1)) (get (tilde x) i)) with d in E.
  split; intros H.
  - replace (i + 2 <? List.length x) with true in E by (symmetry; apply Nat.ltb_lt; lia).
    unfold two in E. cbn in E.
    pose proof (Hinc i ltac:(lia)). pose proof (Hinc (i + 1) ltac:(lia)).
    replace (i + 1 + 1) with (i + 2) in * by lia. split; lra.
  - replace (i + 2 <? List.length x) with false in E by (symmetry; apply Nat.ltb_ge; lia).
    exact E.
Qed.
