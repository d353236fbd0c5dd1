(** Lemmas about the Field model. *)
From Coq Require Import List Arith ZArith Bool String Lia ZifyBool ZifyNat.
From Verif Require Import Num Vec Index FieldModel FieldSpec.
Import ListNotations.

Ltac brk := repeat match goal with
  | |- context [if ?b then _ else _] => destruct b eqn:?
  end.

Lemma resolve_int d z :
  (- Z.of_nat d <= z < Z.of_nat d)%Z ->
  resolve d (KI z) = Ok [Z.to_nat (if (z <? 0)%Z then z + Z.of_nat d else z)%Z].
Proof.
  intros H. unfold resolve.
  replace ((- Z.of_nat d <=? z)%Z && (z <? Z.of_nat d)%Z)%bool with true by lia.
  reflexivity.
Qed.

Lemma resolve_int_bad d z :
  ~ (- Z.of_nat d <= z < Z.of_nat d)%Z -> resolve d (KI z) = Err IndexError.
Proof.
  intros H. unfold resolve.
  replace ((- Z.of_nat d <=? z)%Z && (z <? Z.of_nat d)%Z)%bool with false by lia.
  reflexivity.
Qed.

Lemma resolve_nat d i : i < d -> resolve d (KI (Z.of_nat i)) = Ok [i].
Proof.
  intros H. rewrite resolve_int by lia.
  replace (Z.of_nat i <? 0)%Z with false by lia. rewrite Nat2Z.id. reflexivity.
Qed.

Lemma resolve_neg d i :
  0 < i <= d -> resolve d (KI (- Z.of_nat i)) = Ok [d - i].
Proof.
  intros H. rewrite resolve_int by lia.
  replace (- Z.of_nat i <? 0)%Z with true by lia. do 2 f_equal. lia.
Qed.

Lemma slice_list_seq n : slice_list 0 1 n = seq 0 n.
Proof.
  unfold slice_list, tab. rewrite <- map_id. apply map_ext. intros m. lia.
Qed.

Lemma resolve_full d : resolve d kfull = Ok (seq 0 d).
Proof.
  unfold resolve, kfull, slice_count. cbn [Z.eqb Z.ltb Z.compare].
  destruct d as [|d].
  - reflexivity.
  - replace (0 <? Z.of_nat (S d))%Z with true by lia.
    rewrite Z.div_1_r. replace (Z.to_nat (Z.of_nat (S d) - 0 - 1 + 1)) with (S d) by lia.
    rewrite slice_list_seq. reflexivity.
Qed.

Lemma slice_list_off a n : slice_list (Z.of_nat a) 1 n = seq a n.
Proof.
  induction n as [|n IH]; [reflexivity|].
  unfold slice_list in *. rewrite tab_S, IH, seq_S. do 2 f_equal. lia.
Qed.

(** [a:b] with natural bounds. *)
Lemma resolve_range d a b :
  a <= b <= d -> resolve d (krange (Z.of_nat a) (Z.of_nat b)) = Ok (seq a (b - a)).
Proof.
  intros H. unfold resolve, krange, slice_count, clip_pos. cbn [Z.eqb].
  replace (0 <? 1)%Z with true by reflexivity.
  replace (Z.of_nat a <? 0)%Z with false by lia.
  replace (Z.of_nat b <? 0)%Z with false by lia.
  replace (Z.of_nat d <? Z.of_nat a)%Z with false by lia.
  replace (Z.of_nat d <? Z.of_nat b)%Z with false by lia.
  replace (Z.of_nat a <? 0)%Z with false by lia.
  replace (Z.of_nat b <? 0)%Z with false by lia.
  destruct (Z.ltb_spec (Z.of_nat a) (Z.of_nat b)) as [Hab|Hab].
  - rewrite Z.div_1_r. replace (Z.to_nat _) with (b - a) by lia.
    rewrite slice_list_off. reflexivity.
  - replace (b - a) with 0 by lia. reflexivity.
Qed.

(** Everything a key selects is a valid position. *)
Lemma resolve_bound d k l : resolve d k = Ok l -> forall x, In x l -> x < d.
Proof.
  destruct k as [z|a b s]; unfold resolve.
  - destruct ((- Z.of_nat d <=? z) && (z <? Z.of_nat d))%Z%bool eqn:E; intros H; [|discriminate].
    injection H as <-. intros x [<-|[]]. brk; lia.
  - set (step := match s with Some st => st | None => 1%Z end).
    destruct (step =? 0)%Z eqn:E0; [discriminate|].
    destruct (0 <? step)%Z eqn:Es.
    + set (start := match a with Some z => clip_pos (Z.of_nat d) z | None => 0%Z end).
      set (stop := match b with Some z => clip_pos (Z.of_nat d) z | None => Z.of_nat d end).
      intros H. injection H as <-. intros x Hx. unfold slice_list, tab in Hx.
      apply in_map_iff in Hx. destruct Hx as [m [<- Hm]]. apply in_seq in Hm.
      assert (Hst : (0 <= start)%Z).
      { unfold start, clip_pos. destruct a; [|lia]. brk; lia. }
      assert (Hsp : (stop <= Z.of_nat d)%Z).
      { unfold stop, clip_pos. destruct b; [|lia]. brk; lia. }
      unfold slice_count in Hm. rewrite Es in Hm.
      destruct (start <? stop)%Z eqn:Ess; [|cbn in Hm; lia].
      assert (Z.of_nat m <= (stop - start - 1) / step)%Z by lia.
      assert (step * ((stop - start - 1) / step) <= stop - start - 1)%Z
        by (apply Z.mul_div_le; lia).
      nia.
    + set (start := match a with Some z => clip_neg (Z.of_nat d) z
                              | None => (Z.of_nat d - 1)%Z end).
      set (stop := match b with Some z => clip_neg (Z.of_nat d) z | None => (-1)%Z end).
      intros H. injection H as <-. intros x Hx. unfold slice_list, tab in Hx.
      apply in_map_iff in Hx. destruct Hx as [m [<- Hm]]. apply in_seq in Hm.
      assert (Hst : (start < Z.of_nat d)%Z).
      { unfold start, clip_neg. destruct a; [|lia]. brk; lia. }
      assert (Hsp : (-1 <= stop)%Z).
      { unfold stop, clip_neg. destruct b; [|lia]. brk; lia. }
      unfold slice_count in Hm. rewrite Es in Hm.
      destruct (stop <? start)%Z eqn:Ess; [|cbn in Hm; lia].
      assert (Z.of_nat m <= (start - stop - 1) / (- step))%Z by lia.
      assert ((- step) * ((start - stop - 1) / (- step)) <= start - stop - 1)%Z
        by (apply Z.mul_div_le; lia).
      nia.
Qed.

(** A selection has no duplicates. *)
Lemma NoDup_tab {A} (f : nat -> A) n :
  (forall a b, a < n -> b < n -> f a = f b -> a = b) -> NoDup (tab n f).
Proof.
  intros H. apply (NoDup_nth _ (f 0)). rewrite tab_length. intros a b Ha Hb E.
  rewrite !nth_tab in E by assumption. apply H; assumption.
Qed.

Lemma resolve_nodup d k l : resolve d k = Ok l -> NoDup l.
Proof.
  destruct k as [z|a b s]; unfold resolve.
  - destruct ((- Z.of_nat d <=? z) && (z <? Z.of_nat d))%Z%bool; intros H; [|discriminate].
    injection H as <-. constructor; [intros []|constructor].
  - set (step := match s with Some st => st | None => 1%Z end).
    destruct (step =? 0)%Z eqn:E0; [discriminate|].
    destruct (0 <? step)%Z eqn:Es.
    + set (start := match a with Some z => clip_pos (Z.of_nat d) z | None => 0%Z end).
      set (stop := match b with Some z => clip_pos (Z.of_nat d) z | None => Z.of_nat d end).
      intros H. injection H as <-. apply NoDup_tab. intros u v Hu Hv E.
      assert (Hst : (0 <= start)%Z).
      { unfold start, clip_pos. destruct a; [|lia]. brk; lia. }
      nia.
    + set (start := match a with Some z => clip_neg (Z.of_nat d) z
                              | None => (Z.of_nat d - 1)%Z end).
      set (stop := match b with Some z => clip_neg (Z.of_nat d) z | None => (-1)%Z end).
      intros H. injection H as <-. apply NoDup_tab.
      assert (Hsp : (-1 <= stop)%Z).
      { unfold stop, clip_neg. destruct b; [|lia]. brk; lia. }
      assert (P : forall u, u < Z.to_nat (slice_count start stop step) ->
                  (0 <= start + step * Z.of_nat u)%Z).
      { intros u Hu. unfold slice_count in Hu. rewrite Es in Hu.
        destruct (stop <? start)%Z eqn:Ess; [|cbn in Hu; lia].
        assert (Z.of_nat u <= (start - stop - 1) / (- step))%Z by lia.
        assert ((- step) * ((start - stop - 1) / (- step)) <= start - stop - 1)%Z
          by (apply Z.mul_div_le; lia).
        nia. }
      intros u v Hu Hv E. specialize (P u Hu) as Pu. specialize (P v Hv) as Pv. nia.
Qed.

Lemma pos_of_None i l : pos_of i l = None <-> ~ In i l.
Proof.
  induction l as [|x r IH]; cbn; [tauto|].
  destruct (Nat.eqb_spec x i) as [->|Hne].
  - split; [discriminate|]. intros H. exfalso. apply H. left. reflexivity.
  - destruct (pos_of i r); cbn; split; try discriminate; intros H.
    + exfalso. apply H. right. destruct (in_dec Nat.eq_dec i r) as [|Hn]; [assumption|].
      apply IH in Hn. discriminate.
    + intros [->|Hin]; [congruence|]. apply IH in Hin; [assumption|reflexivity].
    + reflexivity.
Qed.

Lemma pos_of_Some i l p : pos_of i l = Some p -> p < List.length l /\ nth p l 0 = i.
Proof.
  revert p. induction l as [|x r IH]; cbn; intros p H; [discriminate|].
  destruct (Nat.eqb_spec x i) as [->|Hne].
  - injection H as <-. cbn. split; [lia|reflexivity].
  - destruct (pos_of i r) as [q|]; [|discriminate]. injection H as <-.
    destruct (IH q eq_refl). cbn. split; [lia|assumption].
Qed.

Lemma pos_of_nth l p : NoDup l -> p < List.length l -> pos_of (nth p l 0) l = Some p.
Proof.
  revert p. induction l as [|x r IH]; cbn; intros p Hd Hp; [lia|].
  inversion Hd as [|? ? Hx Hr]; subst. destruct p as [|p].
  - rewrite Nat.eqb_refl. reflexivity.
  - assert (Hp' : p < List.length r) by lia.
    destruct (Nat.eqb_spec x (nth p r 0)) as [->|_].
    + exfalso. apply Hx. apply nth_In. exact Hp'.
    + rewrite IH by assumption. reflexivity.
Qed.

Lemma pos_of_seq i a n : pos_of i (seq a n) = if andb (a <=? i) (i <? a + n) then Some (i - a) else None.
Proof.
  revert a. induction n as [|n IH]; intros a; cbn [seq pos_of].
  - replace (andb (a <=? i) (i <? a + 0)) with false by lia. reflexivity.
  - destruct (Nat.eqb_spec a i) as [->|Hne].
    + replace (andb (i <=? i) (i <? i + S n)) with true by lia. rewrite Nat.sub_diag. reflexivity.
    + rewrite IH. destruct (andb (S a <=? i) (i <? S a + n)) eqn:E.
      * replace (andb (a <=? i) (i <? a + S n)) with true by lia. cbn. f_equal. lia.
      * replace (andb (a <=? i) (i <? a + S n)) with false by lia. reflexivity.
Qed.

Section FieldProofs.
  Context {T : Type} {NT : Num T}.

  Lemma wf_zeros Nx Ny Nz : wf (field_zeros Nx Ny Nz).
  Proof. unfold wf, field_zeros, fN; cbn. rewrite tab_length. lia. Qed.
  Lemma wf_ones Nx Ny Nz : wf (field_ones Nx Ny Nz).
  Proof. unfold wf, field_ones, fN; cbn. rewrite tab_length. lia. Qed.

  (** Value of component [c] at cell (i,j,k). *)
  Definition at_ (F : Field T) (c i j k : nat) : T :=
    get (farr F) (c * fN F + cell (fNx F) (fNy F) i j k).

  Lemma mget_mtab d0 d1 d2 (f : nat -> nat -> nat -> T) i j k :
    i < d0 -> j < d1 -> k < d2 -> mget (mtab d0 d1 d2 f) i j k = f i j k.
  Proof.
    intros Hi Hj Hk. unfold mget, mtab; cbn.
    rewrite get_tab by (apply corder_lt; assumption).
    destruct (corder_dec d1 d2 i j k Hj Hk) as [E1 [E2 E3]].
    rewrite E1, E2, E3. reflexivity.
  Qed.

  Lemma mget_to_matrix F c i j k :
    i < fNx F -> j < fNy F -> k < fNz F -> mget (to_matrix_c F c) i j k = at_ F c i j k.
  Proof. intros. unfold to_matrix_c. rewrite mget_mtab by assumption. reflexivity. Qed.

  (** from_matrix, entry by entry. *)
  Lemma from_matrix_spec F m c F' :
    wf F -> c < 3 ->
    m0 m = fNx F -> m1 m = fNy F -> m2 m = fNz F ->
    from_matrix_c F m c = Ok F' ->
    wf F' /\ fNx F' = fNx F /\ fNy F' = fNy F /\ fNz F' = fNz F /\
    (forall c' i j k, c' < 3 -> i < fNx F -> j < fNy F -> k < fNz F ->
       at_ F' c' i j k = if Nat.eqb c' c then mget m i j k else at_ F c' i j k).
  Proof.
    intros Hw Hc E0 E1 E2. unfold from_matrix_c.
    destruct (Nat.eqb (m0 m * m1 m * m2 m) (fN F)) eqn:E; [|discriminate].
    intros H. injection H as <-. repeat split.
    - unfold wf, with_arr, fN; cbn. rewrite tab_length. exact Hw.
    - intros c' i j k Hc' Hi Hj Hk. unfold at_, with_arr, fN; cbn.
      fold (fN F).
      assert (Hcell : cell (fNx F) (fNy F) i j k < fN F) by (apply cell_lt; assumption).
      rewrite get_tab by (rewrite Hw; nia).
      rewrite comp_div, comp_mod by assumption.
      destruct (Nat.eqb c' c); [|reflexivity].
      unfold f_flat. rewrite E0, E1.
      rewrite cell_i, cell_j, cell_k by assumption. reflexivity.
  Qed.

  Lemma from_matrix_ok F m c :
    m0 m = fNx F -> m1 m = fNy F -> m2 m = fNz F ->
    exists F', from_matrix_c F m c = Ok F'.
  Proof.
    intros E0 E1 E2. unfold from_matrix_c. rewrite E0, E1, E2.
    fold (fN F). rewrite Nat.eqb_refl. eexists. reflexivity.
  Qed.

  (** Extensionality of well-formed fields of equal sizes. *)
  Lemma field_ext F G :
    wf F -> wf G -> fNx F = fNx G -> fNy F = fNy G -> fNz F = fNz G ->
    (forall c i j k, c < 3 -> i < fNx F -> j < fNy F -> k < fNz F ->
       at_ F c i j k = at_ G c i j k) -> F = G.
  Proof.
    destruct F as [x y z a], G as [x' y' z' b]. cbn. intros Hw Hw' <- <- <- H.
    f_equal. unfold wf, fN in Hw, Hw'; cbn in Hw, Hw'.
    apply vec_eq; [congruence|].
    intros n Hn. rewrite Hw in Hn.
    destruct (comp_decode (x * y * z) n Hn) as [Hc [Hm E]].
    destruct (cell_decode x y z (n mod (x * y * z)) Hm) as [Hi [Hj [Hk Ec]]].
    specialize (H _ _ _ _ Hc Hi Hj Hk). unfold at_, fN in H; cbn in H.
    rewrite Ec in H. rewrite E. exact H.
  Qed.

  (** ** mat_setitem entry by entry *)
  Lemma mat_setitem_spec m kx ky kz v sx sy sz :
    resolve (m0 m) kx = Ok sx -> resolve (m1 m) ky = Ok sy -> resolve (m2 m) kz = Ok sz ->
    bcast_ok v (keep3 kx ky kz (List.length sx) (List.length sy) (List.length sz)) = true ->
    exists m', mat_setitem m kx ky kz v = Ok m' /\ m0 m' = m0 m /\ m1 m' = m1 m /\ m2 m' = m2 m /\
      forall i j k, i < m0 m -> j < m1 m -> k < m2 m ->
        mget m' i j k = match pos_of i sx, pos_of j sy, pos_of k sz with
                        | Some a, Some b, Some c => bget v (keep3 kx ky kz a b c)
                        | _, _, _ => mget m i j k
                        end.
  Proof.
    intros Hx Hy Hz Hb. unfold mat_setitem. rewrite Hx, Hy, Hz, Hb.
    eexists. split; [reflexivity|]. repeat split.
    intros i j k Hi Hj Hk. rewrite mget_mtab by assumption. reflexivity.
  Qed.

  (** ** Tuple write: complete characterisation. *)
  Lemma setitem_spec F kx ky kz ck c v sx sy sz :
    wf F -> comp_of ck = Some c ->
    resolve (fNx F) kx = Ok sx -> resolve (fNy F) ky = Ok sy -> resolve (fNz F) kz = Ok sz ->
    bcast_ok v (keep3 kx ky kz (List.length sx) (List.length sy) (List.length sz)) = true ->
    exists F', setitem F (KTup kx ky kz ck) v = Ok F' /\ wf F' /\
      fNx F' = fNx F /\ fNy F' = fNy F /\ fNz F' = fNz F /\
      forall c' i j k, c' < 3 -> i < fNx F -> j < fNy F -> k < fNz F ->
        at_ F' c' i j k =
        match pos_of i sx, pos_of j sy, pos_of k sz with
        | Some a, Some b, Some d => if Nat.eqb c' c then bget v (keep3 kx ky kz a b d) else at_ F c' i j k
        | _, _, _ => at_ F c' i j k
        end.
  Proof.
    intros Hw Hc Hx Hy Hz Hb.
    assert (Hc3 : c < 3).
    { unfold comp_of in Hc. destruct ck as [z|s|]; [| |discriminate].
      - destruct (z =? 0)%Z; [injection Hc as <-; lia|].
        destruct (z =? 1)%Z; [injection Hc as <-; lia|].
        destruct (z =? 2)%Z; [injection Hc as <-; lia|discriminate].
      - destruct (String.eqb s "x"); [injection Hc as <-; lia|].
        destruct (String.eqb s "y"); [injection Hc as <-; lia|].
        destruct (String.eqb s "z"); [injection Hc as <-; lia|discriminate]. }
    unfold setitem, to_matrix. rewrite Hc. cbn [option_map].
    destruct (mat_setitem_spec (to_matrix_c F c) kx ky kz v sx sy sz Hx Hy Hz Hb)
      as [m' [E [E0 [E1 [E2 Hm]]]]].
    rewrite E. cbn [bind]. unfold from_matrix. rewrite Hc.
    cbn in E0, E1, E2.
    destruct (from_matrix_ok F m' c E0 E1 E2) as [F' EF]. exists F'. split; [exact EF|].
    destruct (from_matrix_spec F m' c F' Hw Hc3 E0 E1 E2 EF) as [Hw' [S0 [S1 [S2 Hat]]]].
    repeat split; try assumption.
    intros c' i j k Hc' Hi Hj Hk. rewrite Hat by assumption.
    destruct (Nat.eqb c' c) eqn:Ecc.
    - apply Nat.eqb_eq in Ecc. subst c'. rewrite Hm by assumption.
      rewrite mget_to_matrix by assumption.
      destruct (pos_of i sx), (pos_of j sy), (pos_of k sz); reflexivity.
    - destruct (pos_of i sx), (pos_of j sy), (pos_of k sz); reflexivity.
  Qed.

  (** ** Tuple read with three integers. *)
  Lemma getitem_int sq F zx zy zz ck c :
    comp_of ck = Some c ->
    (- Z.of_nat (fNx F) <= zx < Z.of_nat (fNx F))%Z ->
    (- Z.of_nat (fNy F) <= zy < Z.of_nat (fNy F))%Z ->
    (- Z.of_nat (fNz F) <= zz < Z.of_nat (fNz F))%Z ->
    getitem sq F (KTup (KI zx) (KI zy) (KI zz) ck) =
    Ok {| shape := [];
          dat := [at_ F c (Z.to_nat (if (zx <? 0)%Z then zx + Z.of_nat (fNx F) else zx)%Z)
                          (Z.to_nat (if (zy <? 0)%Z then zy + Z.of_nat (fNy F) else zy)%Z)
                          (Z.to_nat (if (zz <? 0)%Z then zz + Z.of_nat (fNz F) else zz)%Z)] |}.
  Proof.
    intros Hc Hx Hy Hz. unfold getitem, to_matrix. rewrite Hc. cbn [option_map].
    unfold mat_getitem. cbn [m0 m1 m2 to_matrix_c mtab].
    rewrite !resolve_int by assumption. cbn [List.length keep3 kept app].
    do 2 f_equal. unfold tab. cbn [seq map Nat.mul Nat.add Nat.div Nat.modulo nth].
    cbn. f_equal. apply mget_to_matrix.
    - destruct (zx <? 0)%Z eqn:?; lia.
    - destruct (zy <? 0)%Z eqn:?; lia.
    - destruct (zz <? 0)%Z eqn:?; lia.
  Qed.
End FieldProofs.
