(** Proofs of the Field properties C01-C10. *)
From Coq Require Import List Arith ZArith Bool String Lia ZifyBool ZifyNat Reals Lra.
From Verif Require Import Num Vec Index FieldModel FieldSpec FieldProofs.
Import ListNotations.

Lemma clip_pos_clip d z : (0 <= d)%Z -> clip_pos d z = clip d z.
Proof. intros. unfold clip_pos, clip. brk; lia. Qed.
Lemma clip_neg_clip d z : (0 <= d)%Z ->
  clip_neg d z = Z.min (d - 1) (Z.max (-1) (if (z <? 0)%Z then z + d else z)%Z).
Proof. intros. unfold clip_neg. brk; lia. Qed.

Lemma div_iff q a s : (0 < s -> 0 <= a -> (q <= a / s <-> s * q <= a))%Z.
Proof.
  intros Hs Ha. split; intros H.
  - pose proof (Z.mul_div_le a s Hs). nia.
  - apply Z.div_le_lower_bound; lia.
Qed.

(** A key resolves to the list of positions it selects. *)
Lemma resolve_selects d k : key_ok d k ->
  exists l, resolve d k = Ok l /\
    (forall i p, selects d k i p <-> (p < List.length l /\ nth p l 0 = i)).
Proof.
  destruct k as [z|a b s]; cbn [key_ok]; intros Hk.
  - rewrite resolve_int by assumption. eexists. split; [reflexivity|].
    intros i p. cbn [selects List.length]. unfold pyindex. split.
    + intros [[Hi Hz] ->]. split; [lia|]. cbn [nth]. brk; lia.
    + intros [Hp E]. assert (p = 0) by lia. subst p. cbn [nth] in E.
      revert E. brk; lia.
  - unfold resolve. set (step := match s with Some st => st | None => 1%Z end).
    assert (Hs0 : step <> 0%Z) by (unfold step; destruct s; congruence).
    replace (step =? 0)%Z with false by lia.
    unfold selects. fold step.
    destruct (0 <? step)%Z eqn:Es.
    + eexists. split; [reflexivity|]. intros i p.
      replace (match a with Some z => clip_pos (Z.of_nat d) z | None => 0%Z end)
        with (match a with Some a => clip (Z.of_nat d) a | None => 0%Z end)
        by (destruct a; [rewrite clip_pos_clip by lia|]; reflexivity).
      replace (match b with Some z => clip_pos (Z.of_nat d) z | None => Z.of_nat d end)
        with (match b with Some b => clip (Z.of_nat d) b | None => Z.of_nat d end)
        by (destruct b; [rewrite clip_pos_clip by lia|]; reflexivity).
      set (lo := match a with Some a => clip (Z.of_nat d) a | None => 0%Z end).
      set (hi := match b with Some b => clip (Z.of_nat d) b | None => Z.of_nat d end).
      assert (Hlo : (0 <= lo)%Z) by (unfold lo, clip; destruct a; lia).
      unfold slice_list. rewrite tab_length.
      assert (Hc : forall q, (q < Z.to_nat (slice_count lo hi step))
                    <-> (lo + step * Z.of_nat q < hi)%Z).
      { intros q. unfold slice_count. rewrite Es.
        destruct (lo <? hi)%Z eqn:E; [|nia].
        pose proof (div_iff (Z.of_nat q) (hi - lo - 1) step).
        assert (0 <= (hi - lo - 1) / step)%Z by (apply Z.div_pos; lia). lia. }
      split.
      * intros [E1 E2]. assert (Hp : p < Z.to_nat (slice_count lo hi step)) by (apply Hc; lia).
        split; [exact Hp|]. rewrite nth_tab by exact Hp. lia.
      * intros [Hp E]. rewrite nth_tab in E by exact Hp. apply Hc in Hp. nia.
    + eexists. split; [reflexivity|]. intros i p.
      replace (match a with Some z => clip_neg (Z.of_nat d) z | None => (Z.of_nat d - 1)%Z end)
        with (match a with Some a => Z.min (Z.of_nat d - 1) (Z.max (-1) (if (a <? 0)%Z then a + Z.of_nat d else a))
                             | None => Z.of_nat d - 1 end)%Z
        by (destruct a; [rewrite clip_neg_clip by lia|]; reflexivity).
      replace (match b with Some z => clip_neg (Z.of_nat d) z | None => (-1)%Z end)
        with (match b with Some b => Z.min (Z.of_nat d - 1) (Z.max (-1) (if (b <? 0)%Z then b + Z.of_nat d else b))
                             | None => -1 end)%Z
        by (destruct b; [rewrite clip_neg_clip by lia|]; reflexivity).
      match goal with |- context [slice_list ?l step _] => set (lo := l) end.
      match goal with |- context [slice_count lo ?h step] => set (hi := h) end.
      assert (Hhi : (-1 <= hi)%Z) by (unfold hi; destruct b; lia).
      unfold slice_list. rewrite tab_length.
      assert (Hc : forall q, (q < Z.to_nat (slice_count lo hi step))
                    <-> (hi < lo + step * Z.of_nat q)%Z).
      { intros q. unfold slice_count. rewrite Es.
        destruct (hi <? lo)%Z eqn:E; [|nia].
        pose proof (div_iff (Z.of_nat q) (lo - hi - 1) (- step)).
        assert (0 <= (lo - hi - 1) / (- step))%Z by (apply Z.div_pos; lia). lia. }
      split.
      * intros [E0 [E1 E2]].
        assert (Hp : p < Z.to_nat (slice_count lo hi step)) by (apply Hc; lia).
        split; [exact Hp|]. rewrite nth_tab by exact Hp. lia.
      * intros [Hp E]. rewrite nth_tab in E by exact Hp. apply Hc in Hp. lia.
Qed.

Lemma resolve_bad d k : ~ key_ok d k -> exists e, resolve d k = Err e.
Proof.
  destruct k as [z|a b s]; cbn [key_ok]; intros H.
  - rewrite resolve_int_bad by assumption. eexists. reflexivity.
  - destruct s as [s|]; [|exfalso; apply H; discriminate].
    destruct (Z.eq_dec s 0) as [->|Hs]; [|exfalso; apply H; congruence].
    cbn. eexists. reflexivity.
Qed.

Lemma pos_of_selects d k l i p :
  key_ok d k -> resolve d k = Ok l -> (pos_of i l = Some p <-> selects d k i p).
Proof.
  intros Hk E. destruct (resolve_selects d k Hk) as [l' [E' H]].
  assert (l' = l) by congruence. subst l'. rewrite H. split.
  - apply pos_of_Some.
  - intros [Hp <-]. apply pos_of_nth; [|exact Hp]. eapply resolve_nodup. exact E.
Qed.

Lemma pos_of_not d k l i :
  key_ok d k -> resolve d k = Ok l -> (forall p, ~ selects d k i p) -> pos_of i l = None.
Proof.
  intros Hk E H. destruct (pos_of i l) as [p|] eqn:Ep; [|reflexivity].
  exfalso. apply (H p). apply (pos_of_selects d k l); assumption.
Qed.

Lemma selects_bound d k i p : key_ok d k -> selects d k i p -> i < d.
Proof.
  intros Hk Hs. destruct (resolve_selects d k Hk) as [l [E H]].
  apply H in Hs. destruct Hs as [Hp <-].
  eapply resolve_bound; [exact E|]. apply nth_In. exact Hp.
Qed.

Lemma count_is_length d k l n :
  key_ok d k -> resolve d k = Ok l -> count_is d k n -> List.length l = n.
Proof.
  intros Hk E Hn. destruct (resolve_selects d k Hk) as [l' [E' H]].
  assert (l' = l) by congruence. subst l'.
  assert (A : forall p, p < n <-> p < List.length l).
  { intros p. rewrite (Hn p). split.
    - intros [i Hi]. apply H in Hi. tauto.
    - intros Hp. exists (nth p l 0). apply H. tauto. }
  destruct (lt_eq_lt_dec n (List.length l)) as [[Hl|Hl]|Hl].
  - apply A in Hl. lia.
  - congruence.
  - apply A in Hl. lia.
Qed.

Lemma names_comp ck c : names_component ck c <-> comp_of ck = Some c.
Proof.
  destruct ck as [z|s|]; cbn [names_component comp_of].
  - split.
    + intros [-> Hc]. destruct c as [|[|[|c]]]; [reflexivity..|lia].
    + brk; intros H; try discriminate; injection H as <-; lia.
  - split.
    + intros [[-> ->]|[[-> ->]|[-> ->]]]; reflexivity.
    + destruct (String.eqb_spec s "x"); [intros H; injection H as <-; tauto|].
      destruct (String.eqb_spec s "y"); [intros H; injection H as <-; tauto|].
      destruct (String.eqb_spec s "z"); [intros H; injection H as <-; tauto|discriminate].
  - split; [tauto|discriminate].
Qed.

Lemma comp_lt ck c : comp_of ck = Some c -> c < 3.
Proof.
  intros H. apply names_comp in H. destruct ck as [z|s|]; cbn in H; [lia| |tauto].
  destruct H as [[_ ->]|[[_ ->]|[_ ->]]]; lia.
Qed.

Lemma pyindex_resolve d z i : pyindex d z i -> resolve d (KI z) = Ok [i].
Proof.
  intros [Hi Hz]. rewrite resolve_int by lia. do 2 f_equal. brk; lia.
Qed.

Lemma pyindex_ex d z : (- Z.of_nat d <= z < Z.of_nat d)%Z -> exists i, pyindex d z i.
Proof.
  intros H. unfold pyindex. destruct (Z.ltb_spec z 0).
  - exists (Z.to_nat (z + Z.of_nat d)). lia.
  - exists (Z.to_nat z). lia.
Qed.

Section P.
  Context {T : Type} {NT : Num T}.
  Implicit Types F G : Field T.

  Lemma flat_cell F c i j k :
    flat F c i j k = c * fN F + cell (fNx F) (fNy F) i j k.
  Proof. unfold flat, cell, fN. lia. Qed.

  Lemma entry_at F c i j k : entry F c i j k = at_ F c i j k.
  Proof. unfold entry, at_. rewrite flat_cell. reflexivity. Qed.

  Lemma flat_inj F c i j k c' i' j' k' :
    i < fNx F -> j < fNy F -> k < fNz F -> i' < fNx F -> j' < fNy F -> k' < fNz F ->
    flat F c i j k = flat F c' i' j' k' -> c = c' /\ i = i' /\ j = j' /\ k = k'.
  Proof.
    intros Hi Hj Hk Hi' Hj' Hk' E. rewrite !flat_cell in E.
    assert (A : cell (fNx F) (fNy F) i j k < fN F) by (apply cell_lt; assumption).
    assert (B : cell (fNx F) (fNy F) i' j' k' < fN F) by (apply cell_lt; assumption).
    assert (c = c') by (rewrite <- (comp_div (fN F) c _ A), E; apply comp_div; exact B).
    subst c'. assert (E' : cell (fNx F) (fNy F) i j k = cell (fNx F) (fNy F) i' j' k') by lia.
    apply cell_inj in E'; tauto.
  Qed.

  (** Every flat position of a well-formed field is a component of a cell. *)
  Lemma flat_surj F n : n < 3 * fN F -> exists c i j k,
    c < 3 /\ i < fNx F /\ j < fNy F /\ k < fNz F /\ flat F c i j k = n.
  Proof.
    intros Hn. destruct (comp_decode _ _ Hn) as [Hc [Hm E]].
    destruct (cell_decode _ _ _ _ Hm) as [Hi [Hj [Hk Ec]]].
    eexists _, _, _, _. repeat split; [exact Hc|exact Hi|exact Hj|exact Hk|].
    rewrite flat_cell. rewrite Ec. symmetry. exact E.
  Qed.

  Lemma getitem_cell sq F zx zy zz ck c i j k :
    names_component ck c -> pyindex (fNx F) zx i -> pyindex (fNy F) zy j ->
    pyindex (fNz F) zz k ->
    getitem sq F (KTup (KI zx) (KI zy) (KI zz) ck) = Ok (scalar (entry F c i j k)).
  Proof.
    intros Hc Hx Hy Hz. apply names_comp in Hc.
    unfold getitem, to_matrix. rewrite Hc. cbn [option_map].
    unfold mat_getitem. cbn [m0 m1 m2 to_matrix_c mtab].
    rewrite (pyindex_resolve _ _ _ Hx), (pyindex_resolve _ _ _ Hy), (pyindex_resolve _ _ _ Hz).
    unfold scalar, tab. cbn. do 3 f_equal. rewrite entry_at. apply mget_to_matrix.
    - apply Hx. - apply Hy. - apply Hz.
  Qed.

  (** C01 *)
  Lemma cell_write F zx zy zz ck c i j k v sq :
    wf F -> names_component ck c ->
    pyindex (fNx F) zx i -> pyindex (fNy F) zy j -> pyindex (fNz F) zz k ->
    exists F', setitem F (KTup (KI zx) (KI zy) (KI zz) ck) (VNum v) = Ok F' /\
      wf F' /\ fNx F' = fNx F /\ fNy F' = fNy F /\ fNz F' = fNz F /\
      getitem sq F' (KTup (KI zx) (KI zy) (KI zz) ck) = Ok (scalar v) /\
      (forall zx' zy' zz' ck' c' i' j' k',
         names_component ck' c' ->
         pyindex (fNx F) zx' i' -> pyindex (fNy F) zy' j' -> pyindex (fNz F) zz' k' ->
         (c', i', j', k') <> (c, i, j, k) ->
         getitem sq F' (KTup (KI zx') (KI zy') (KI zz') ck') =
         getitem sq F (KTup (KI zx') (KI zy') (KI zz') ck')) /\
      (forall n, n < 3 * (fNx F * fNy F * fNz F) ->
         get (farr F') n =
         if n =? i + j * fNx F + k * (fNx F * fNy F) + c * (fNx F * fNy F * fNz F)
         then v else get (farr F) n).
  Proof.
    intros Hw Hc Hx Hy Hz.
    destruct (setitem_spec F (KI zx) (KI zy) (KI zz) ck c (VNum v) [i] [j] [k] Hw
                (proj1 (names_comp _ _) Hc) (pyindex_resolve _ _ _ Hx)
                (pyindex_resolve _ _ _ Hy) (pyindex_resolve _ _ _ Hz) eq_refl)
      as [F' [E [Hw' [E0 [E1 [E2 Hat]]]]]].
    exists F'. split; [exact E|]. split; [exact Hw'|]. repeat (split; [assumption|]).
    assert (Hval : forall c' i' j' k', c' < 3 -> i' < fNx F -> j' < fNy F -> k' < fNz F ->
      entry F' c' i' j' k' =
        if andb (Nat.eqb i' i) (andb (Nat.eqb j' j) (andb (Nat.eqb k' k) (Nat.eqb c' c)))
        then v else entry F c' i' j' k').
    { intros c' i' j' k' Hc' Hi' Hj' Hk'. rewrite !entry_at, Hat by assumption.
      cbn [pos_of option_map bget].
      destruct (Nat.eqb_spec i i'), (Nat.eqb_spec i' i); try congruence; cbn [andb]; [|reflexivity].
      destruct (Nat.eqb_spec j j'), (Nat.eqb_spec j' j); try congruence; cbn [andb]; [|reflexivity].
      destruct (Nat.eqb_spec k k'), (Nat.eqb_spec k' k); try congruence; cbn [andb]; reflexivity. }
    destruct Hx as [Hi Hx], Hy as [Hj Hy], Hz as [Hk Hz].
    assert (Hc3 : c < 3) by (eapply comp_lt; apply names_comp; exact Hc).
    split; [|split].
    - rewrite (getitem_cell sq F' zx zy zz ck c i j k)
        by (try exact Hc; unfold pyindex; rewrite ?E0, ?E1, ?E2; tauto).
      rewrite Hval by assumption. rewrite !Nat.eqb_refl. reflexivity.
    - intros zx' zy' zz' ck' c' i' j' k' Hc' [Hi' Hx'] [Hj' Hy'] [Hk' Hz'] Hne.
      assert (Hc3' : c' < 3) by (eapply comp_lt; apply names_comp; exact Hc').
      rewrite (getitem_cell sq F' zx' zy' zz' ck' c' i' j' k')
        by (try exact Hc'; unfold pyindex; rewrite ?E0, ?E1, ?E2; tauto).
      rewrite (getitem_cell sq F zx' zy' zz' ck' c' i' j' k')
        by (try exact Hc'; unfold pyindex; tauto).
      rewrite Hval by assumption.
      destruct (Nat.eqb_spec i' i), (Nat.eqb_spec j' j), (Nat.eqb_spec k' k), (Nat.eqb_spec c' c);
        cbn [andb]; try reflexivity. exfalso. apply Hne. congruence.
    - intros n Hn. destruct (flat_surj F n Hn) as [c' [i' [j' [k' [Hc' [Hi' [Hj' [Hk' En]]]]]]]].
      specialize (Hval c' i' j' k' Hc' Hi' Hj' Hk'). unfold entry in Hval.
      replace (flat F' c' i' j' k') with n in Hval
        by (rewrite <- En; unfold flat; rewrite E0, E1, E2; reflexivity).
      rewrite En in Hval. rewrite Hval.
      change (i + j * fNx F + k * (fNx F * fNy F) + c * (fNx F * fNy F * fNz F)) with (flat F c i j k).
      destruct (Nat.eqb_spec n (flat F c i j k)) as [Heq|Hneq].
      + rewrite <- En in Heq. apply flat_inj in Heq; try assumption.
        destruct Heq as [-> [-> [-> ->]]]. rewrite !Nat.eqb_refl. reflexivity.
      + destruct (Nat.eqb_spec i' i), (Nat.eqb_spec j' j), (Nat.eqb_spec k' k), (Nat.eqb_spec c' c);
          cbn [andb]; try reflexivity. exfalso. apply Hneq. rewrite <- En. congruence.
  Qed.

  (** C02 *)
  Definition mat_wf (m : mat3 T) : Prop := List.length (mdat m) = m0 m * m1 m * m2 m.

  Lemma mat_ext (m m' : mat3 T) :
    mat_wf m -> mat_wf m' -> m0 m = m0 m' -> m1 m = m1 m' -> m2 m = m2 m' ->
    (forall i j k, i < m0 m -> j < m1 m -> k < m2 m -> mget m i j k = mget m' i j k) -> m = m'.
  Proof.
    destruct m as [x y z a], m' as [x' y' z' b]; unfold mat_wf; cbn. intros Hl Hl' <- <- <- H.
    f_equal. apply vec_eq; [congruence|]. intros n Hn. rewrite Hl in Hn.
    assert (Hz : z <> 0) by nia. assert (Hy : y <> 0) by nia.
    specialize (H (n / (y * z)) ((n / z) mod y) (n mod z)).
    unfold mget in H; cbn in H.
    assert (E : (n / (y * z) * y + (n / z) mod y) * z + n mod z = n).
    { rewrite (Nat.mul_comm y z), <- Nat.div_div by assumption.
      pose proof (Nat.div_mod n z Hz). pose proof (Nat.div_mod (n / z) y Hy). nia. }
    rewrite E in H. apply H.
    - apply Nat.div_lt_upper_bound; nia.
    - apply Nat.mod_upper_bound; assumption.
    - apply Nat.mod_upper_bound; assumption.
  Qed.

  Lemma mat_wf_mtab d0 d1 d2 (f : nat -> nat -> nat -> T) : mat_wf (mtab d0 d1 d2 f).
  Proof. unfold mat_wf, mtab; cbn. apply tab_length. Qed.

  Lemma matrix_write_read F m ck c :
    wf F -> names_component ck c ->
    List.length (mdat m) = m0 m * m1 m * m2 m ->
    m0 m = fNx F -> m1 m = fNy F -> m2 m = fNz F ->
    exists F', from_matrix F m ck = Ok F' /\ to_matrix F' ck = Some m /\
      (forall ck' c', names_component ck' c' -> c' <> c -> to_matrix F' ck' = to_matrix F ck').
  Proof.
    intros Hw Hc Hm E0 E1 E2. apply names_comp in Hc.
    destruct (from_matrix_ok F m c E0 E1 E2) as [F' EF].
    exists F'. unfold from_matrix. rewrite Hc. split; [exact EF|].
    destruct (from_matrix_spec F m c F' Hw (comp_lt _ _ Hc) E0 E1 E2 EF) as [Hw' [S0 [S1 [S2 Hat]]]].
    split.
    - unfold to_matrix. rewrite Hc. cbn [option_map]. f_equal. apply mat_ext.
      + apply mat_wf_mtab. + exact Hm. + cbn; congruence. + cbn; congruence. + cbn; congruence.
      + cbn. intros i j k Hi Hj Hk. rewrite mget_to_matrix by assumption.
        rewrite Hat by (try (eapply comp_lt; eassumption); congruence).
        rewrite Nat.eqb_refl. reflexivity.
    - intros ck' c' Hc' Hne. apply names_comp in Hc'. unfold to_matrix. rewrite Hc'.
      cbn [option_map]. f_equal. apply mat_ext.
      + apply mat_wf_mtab. + apply mat_wf_mtab. + exact S0. + exact S1. + exact S2.
      + cbn. intros i j k Hi Hj Hk. rewrite S0 in Hi; rewrite S1 in Hj; rewrite S2 in Hk.
        rewrite !mget_to_matrix by congruence.
        rewrite Hat by (try (eapply comp_lt; eassumption); congruence).
        apply Nat.eqb_neq in Hne. rewrite Hne. reflexivity.
  Qed.

  Lemma matrix_read_write F ck m :
    wf F -> to_matrix F ck = Some m -> from_matrix F m ck = Ok F.
  Proof.
    intros Hw. unfold to_matrix, from_matrix. destruct (comp_of ck) as [c|] eqn:Hc; [|discriminate].
    cbn [option_map]. intros H. injection H as <-.
    destruct (from_matrix_ok F (to_matrix_c F c) c eq_refl eq_refl eq_refl) as [F' EF].
    rewrite EF. f_equal.
    destruct (from_matrix_spec F (to_matrix_c F c) c F' Hw (comp_lt _ _ Hc) eq_refl eq_refl eq_refl EF)
      as [Hw' [S0 [S1 [S2 Hat]]]].
    apply field_ext; try assumption. intros c' i j k Hc' Hi Hj Hk.
    rewrite Hat by congruence. rewrite mget_to_matrix by congruence.
    destruct (Nat.eqb_spec c' c); congruence.
  Qed.

  Lemma matrix_wrong_size F m ck :
    m0 m * m1 m * m2 m <> fNx F * fNy F * fNz F -> exists e, from_matrix F m ck = Err e.
  Proof.
    intros H. unfold from_matrix, from_matrix_c. destruct (comp_of ck); [|eexists; reflexivity].
    apply Nat.eqb_neq in H. unfold fN. rewrite H. eexists. reflexivity.
  Qed.

  Lemma array_write_read F a :
    List.length a = List.length (toarray F) ->
    exists F', fromarray F a = Ok F' /\ toarray F' = a /\
               fNx F' = fNx F /\ fNy F' = fNy F /\ fNz F' = fNz F.
  Proof.
    intros H. unfold fromarray. unfold toarray in H. rewrite H, Nat.eqb_refl.
    eexists. repeat split.
  Qed.

  Lemma array_read_write F : fromarray F (toarray F) = Ok F.
  Proof.
    unfold fromarray, toarray. rewrite Nat.eqb_refl. destruct F; reflexivity.
  Qed.

  Lemma array_wrong_size F a :
    List.length a <> List.length (toarray F) -> List.length a <> 1 ->
    fromarray F a = Err ValueError.
  Proof.
    intros H H1. unfold fromarray. unfold toarray in H.
    apply Nat.eqb_neq in H. apply Nat.eqb_neq in H1. rewrite H, H1. reflexivity.
  Qed.

  (** C03 *)
  Lemma slice_write F kx ky kz ck c v :
    wf F -> names_component ck c ->
    key_ok (fNx F) kx -> key_ok (fNy F) ky -> key_ok (fNz F) kz ->
    exists F', setitem F (KTup kx ky kz ck) (VNum v) = Ok F' /\ wf F' /\
      fNx F' = fNx F /\ fNy F' = fNy F /\ fNz F' = fNz F /\
      (forall i j k p q r,
         selects (fNx F) kx i p -> selects (fNy F) ky j q -> selects (fNz F) kz k r ->
         entry F' c i j k = v) /\
      (forall c' i j k, c' < 3 -> i < fNx F -> j < fNy F -> k < fNz F ->
         c' <> c \/ (forall p, ~ selects (fNx F) kx i p) \/
         (forall p, ~ selects (fNy F) ky j p) \/ (forall p, ~ selects (fNz F) kz k p) ->
         entry F' c' i j k = entry F c' i j k).
  Proof.
    intros Hw Hc Hx Hy Hz.
    destruct (resolve_selects _ _ Hx) as [sx [Ex _]].
    destruct (resolve_selects _ _ Hy) as [sy [Ey _]].
    destruct (resolve_selects _ _ Hz) as [sz [Ez _]].
    destruct (setitem_spec F kx ky kz ck c (VNum v) sx sy sz Hw
                (proj1 (names_comp _ _) Hc) Ex Ey Ez eq_refl)
      as [F' [E [Hw' [E0 [E1 [E2 Hat]]]]]].
    exists F'. repeat (split; [assumption|]). split.
    - intros i j k p q r Hp Hq Hr. rewrite entry_at, Hat.
      + rewrite (proj2 (pos_of_selects _ _ _ _ p Hx Ex) Hp),
                (proj2 (pos_of_selects _ _ _ _ q Hy Ey) Hq),
                (proj2 (pos_of_selects _ _ _ _ r Hz Ez) Hr).
        rewrite Nat.eqb_refl. reflexivity.
      + eapply comp_lt. apply names_comp. exact Hc.
      + eapply selects_bound; eassumption.
      + eapply selects_bound; eassumption.
      + eapply selects_bound; eassumption.
    - intros c' i j k Hc' Hi Hj Hk H. rewrite !entry_at, Hat by assumption.
      destruct H as [H|[H|[H|H]]].
      + apply Nat.eqb_neq in H. rewrite H.
        destruct (pos_of i sx), (pos_of j sy), (pos_of k sz); reflexivity.
      + rewrite (pos_of_not _ _ _ _ Hx Ex H). reflexivity.
      + rewrite (pos_of_not _ _ _ _ Hy Ey H). destruct (pos_of i sx); reflexivity.
      + rewrite (pos_of_not _ _ _ _ Hz Ez H).
        destruct (pos_of i sx), (pos_of j sy); reflexivity.
  Qed.

  (** Array on the right-hand side, shaped as the selection: the (p,q,r)-th selected
      cell gets entry (p,q,r) of the array (C order). *)
  Lemma slice_write_array F kx ky kz ck c lx ly lz a :
    wf F -> names_component ck c ->
    key_ok (fNx F) kx -> key_ok (fNy F) ky -> key_ok (fNz F) kz ->
    count_is (fNx F) kx lx -> count_is (fNy F) ky ly -> count_is (fNz F) kz lz ->
    shape a = keep3 kx ky kz lx ly lz ->
    exists F', setitem F (KTup kx ky kz ck) (VArr a) = Ok F' /\ wf F' /\
      fNx F' = fNx F /\ fNy F' = fNy F /\ fNz F' = fNz F /\
      (forall i j k p q r,
         selects (fNx F) kx i p -> selects (fNy F) ky j q -> selects (fNz F) kz k r ->
         entry F' c i j k = get (dat a) ((p * ly + q) * lz + r)) /\
      (forall c' i j k, c' < 3 -> i < fNx F -> j < fNy F -> k < fNz F ->
         c' <> c \/ (forall p, ~ selects (fNx F) kx i p) \/
         (forall p, ~ selects (fNy F) ky j p) \/ (forall p, ~ selects (fNz F) kz k p) ->
         entry F' c' i j k = entry F c' i j k).
  Proof.
    intros Hw Hc Hx Hy Hz Nx Ny Nz Hsh.
    destruct (resolve_selects _ _ Hx) as [sx [Ex Sx]].
    destruct (resolve_selects _ _ Hy) as [sy [Ey Sy]].
    destruct (resolve_selects _ _ Hz) as [sz [Ez Sz]].
    pose proof (count_is_length _ _ _ _ Hx Ex Nx) as Lx.
    pose proof (count_is_length _ _ _ _ Hy Ey Ny) as Ly.
    pose proof (count_is_length _ _ _ _ Hz Ez Nz) as Lz.
    assert (Hb : bcast_ok (VArr a) (keep3 kx ky kz (List.length sx) (List.length sy) (List.length sz)) = true).
    { cbn [bcast_ok]. rewrite Hsh, Lx, Ly, Lz. generalize (rev (keep3 kx ky kz lx ly lz)).
      induction l as [|d l IH]; [reflexivity|]. cbn. rewrite Nat.eqb_refl, orb_true_r. exact IH. }
    destruct (setitem_spec F kx ky kz ck c (VArr a) sx sy sz Hw
                (proj1 (names_comp _ _) Hc) Ex Ey Ez Hb)
      as [F' [E [Hw' [E0 [E1 [E2 Hat]]]]]].
    exists F'. repeat (split; [assumption|]). split.
    - intros i j k p q r Hp Hq Hr. rewrite entry_at, Hat.
      + rewrite (proj2 (pos_of_selects _ _ _ _ p Hx Ex) Hp),
                (proj2 (pos_of_selects _ _ _ _ q Hy Ey) Hq),
                (proj2 (pos_of_selects _ _ _ _ r Hz Ez) Hr).
        rewrite Nat.eqb_refl. cbn [bget]. f_equal. rewrite Hsh.
        apply Sx in Hp. apply Sy in Hq. apply Sz in Hr.
        rewrite Lx in Hp. rewrite Ly in Hq. rewrite Lz in Hr.
        destruct Hp as [Hp _], Hq as [Hq _], Hr as [Hr _].
        assert (A1 : kept kx = false -> lx = 1).
        { destruct kx; [|discriminate]. intros _. rewrite <- Lx.
          cbn in Ex. destruct (_ && _)%bool; [|discriminate]. injection Ex as <-. reflexivity. }
        assert (A2 : kept ky = false -> ly = 1).
        { destruct ky; [|discriminate]. intros _. rewrite <- Ly.
          cbn in Ey. destruct (_ && _)%bool; [|discriminate]. injection Ey as <-. reflexivity. }
        assert (A3 : kept kz = false -> lz = 1).
        { destruct kz; [|discriminate]. intros _. rewrite <- Lz.
          cbn in Ez. destruct (_ && _)%bool; [|discriminate]. injection Ez as <-. reflexivity. }
        assert (B : forall n x, x < n -> (if n =? 1 then 0 else x) = x)
          by (intros n x Hn; destruct (Nat.eqb_spec n 1); lia).
        unfold keep3. destruct (kept kx), (kept ky), (kept kz);
          try specialize (A1 eq_refl); try specialize (A2 eq_refl); try specialize (A3 eq_refl);
          cbn [app rev bflat]; rewrite ?(B lx p Hp), ?(B ly q Hq), ?(B lz r Hr); nia.
      + eapply comp_lt. apply names_comp. exact Hc.
      + eapply selects_bound; eassumption.
      + eapply selects_bound; eassumption.
      + eapply selects_bound; eassumption.
    - intros c' i j k Hc' Hi Hj Hk H. rewrite !entry_at, Hat by assumption.
      destruct H as [H|[H|[H|H]]].
      + apply Nat.eqb_neq in H. rewrite H.
        destruct (pos_of i sx), (pos_of j sy), (pos_of k sz); reflexivity.
      + rewrite (pos_of_not _ _ _ _ Hx Ex H). reflexivity.
      + rewrite (pos_of_not _ _ _ _ Hy Ey H). destruct (pos_of i sx); reflexivity.
      + rewrite (pos_of_not _ _ _ _ Hz Ez H).
        destruct (pos_of i sx), (pos_of j sy); reflexivity.
  Qed.

  (** C04 *)
  Lemma ijk_of_flat F i j k :
    i < fNx F -> j < fNy F -> k < fNz F ->
    compute_ijk F (i + j * fNx F + k * (fNx F * fNy F)) = Ok (i, j, k).
  Proof.
    intros Hi Hj Hk.
    assert (Hlt : cell (fNx F) (fNy F) i j k < fN F) by (apply cell_lt; assumption).
    assert (En : i + j * fNx F + k * (fNx F * fNy F) = cell (fNx F) (fNy F) i j k)
      by (unfold cell; lia).
    unfold compute_ijk. rewrite En.
    replace (fN F <? cell (fNx F) (fNy F) i j k) with false by lia.
    rewrite cell_k by assumption.
    replace (cell (fNx F) (fNy F) i j k - k * fNx F * fNy F) with (i + fNx F * j)
      by (unfold cell; nia).
    rewrite mod_add_l, div_add_l by assumption. reflexivity.
  Qed.

  Lemma flat_of_ijk F n :
    n < fNx F * fNy F * fNz F ->
    exists i j k, compute_ijk F n = Ok (i, j, k) /\
      i < fNx F /\ j < fNy F /\ k < fNz F /\ n = i + j * fNx F + k * (fNx F * fNy F) /\
      (forall i' j' k', i' < fNx F -> j' < fNy F -> k' < fNz F ->
         n = i' + j' * fNx F + k' * (fNx F * fNy F) -> i' = i /\ j' = j /\ k' = k).
  Proof.
    intros Hn. destruct (cell_decode _ _ _ _ Hn) as [Hi [Hj [Hk E]]].
    set (i := n mod fNx F) in *. set (j := (n / fNx F) mod fNy F) in *.
    set (k := n / (fNx F * fNy F)) in *.
    assert (En : n = i + j * fNx F + k * (fNx F * fNy F)) by (unfold cell in E; lia).
    exists i, j, k. split; [rewrite En at 1; apply ijk_of_flat; assumption|].
    repeat (split; [assumption|]).
    intros i' j' k' Hi' Hj' Hk' E'. apply (cell_inj (fNx F) (fNy F)); try assumption.
    rewrite E. unfold cell. lia.
  Qed.

  (** C05, the part that holds *)
  Lemma int_key_ok sq F z n v :
    wf F -> pyindex (3 * (fNx F * fNy F * fNz F)) z n ->
    (z <= Z.of_nat (fNx F * fNy F * fNz F))%Z ->
    getitem sq F (KInt z) = Ok (scalar (get (farr F) n)) /\
    exists F', setitem F (KInt z) (VNum v) = Ok F' /\
      fNx F' = fNx F /\ fNy F' = fNy F /\ fNz F' = fNz F /\
      forall m, m < 3 * (fNx F * fNy F * fNz F) ->
        get (farr F') m = if m =? n then v else get (farr F) m.
  Proof.
    intros Hw Hz Hle. unfold wf in Hw. unfold getitem, setitem, fN.
    replace (z <=? Z.of_nat (fNx F * fNy F * fNz F))%Z with true by lia.
    rewrite Hw, (pyindex_resolve _ _ _ Hz). split; [reflexivity|].
    cbn [bcast_ok bget]. eexists. split; [reflexivity|]. repeat split.
    intros m Hm. cbn [farr with_arr]. rewrite get_upd by (rewrite Hw; exact Hm). reflexivity.
  Qed.

  Lemma int_key_bad sq F z v :
    wf F ->
    (z < - Z.of_nat (3 * (fNx F * fNy F * fNz F)) \/ z > Z.of_nat (fNx F * fNy F * fNz F))%Z ->
    getitem sq F (KInt z) = Err IndexError /\ setitem F (KInt z) (VNum v) = Err IndexError.
  Proof.
    intros Hw H. unfold wf in Hw. unfold getitem, setitem, fN.
    destruct (z <=? Z.of_nat (fNx F * fNy F * fNz F))%Z eqn:E; [|split; reflexivity].
    rewrite resolve_int_bad by (rewrite Hw; lia). split; reflexivity.
  Qed.

  (** C06 *)
  Lemma arith_scalar_spec op F x c i j k :
    wf F -> c < 3 -> i < fNx F -> j < fNy F -> k < fNz F ->
    entry (arith_scalar op F x) c i j k = op (entry F c i j k) x.
  Proof.
    intros Hw Hc Hi Hj Hk. rewrite !entry_at. unfold at_, arith_scalar, with_arr, fN; cbn.
    rewrite get_tab; [reflexivity|]. rewrite Hw.
    pose proof (cell_lt _ _ _ _ _ _ Hi Hj Hk). nia.
  Qed.

  Lemma arith_matrix_spec op F (a : ndarray T) :
    wf F -> shape a = [fNx F; fNy F; fNz F] ->
    exists G, arith_matrix op F a = Ok G /\ wf G /\
      fNx G = fNx F /\ fNy G = fNy F /\ fNz G = fNz F /\
      forall c i j k, c < 3 -> i < fNx F -> j < fNy F -> k < fNz F ->
        entry G c i j k =
        op (entry F c i j k) (get (dat a) ((i * fNy F + j) * fNz F + k)).
  Proof.
    intros Hw Hs. unfold arith_matrix. cbn [bcast_ok]. rewrite Hs.
    replace (bcompat _ _) with true
      by (cbn; rewrite !Nat.eqb_refl, !orb_true_r; reflexivity).
    set (r := field_zeros (fNx F) (fNy F) (fNz F)). cbv zeta.
    set (mk := fun c : nat => mtab (fNx F) (fNy F) (fNz F)
                 (fun i j k => op (mget (to_matrix_c F c) i j k) (bget (VArr a) [i; j; k]))).
    change (exists G, bind (from_matrix_c r (mk 0) 0) (fun r0 =>
                      bind (from_matrix_c r0 (mk 1) 1) (fun r1 =>
                      from_matrix_c r1 (mk 2) 2)) = Ok G /\ wf G /\
      fNx G = fNx F /\ fNy G = fNy F /\ fNz G = fNz F /\
      forall c i j k, c < 3 -> i < fNx F -> j < fNy F -> k < fNz F ->
        entry G c i j k =
        op (entry F c i j k) (get (dat a) ((i * fNy F + j) * fNz F + k))).
    assert (Hmk : forall c i j k, i < fNx F -> j < fNy F -> k < fNz F ->
       mget (mk c) i j k = op (at_ F c i j k) (get (dat a) ((i * fNy F + j) * fNz F + k))).
    { intros c i j k Hi Hj Hk. unfold mk. rewrite mget_mtab by assumption.
      rewrite mget_to_matrix by assumption. f_equal. cbn [bget]. rewrite Hs. f_equal.
      cbn. repeat match goal with |- context [?d =? 1] => destruct (Nat.eqb_spec d 1) end; nia. }
    destruct (from_matrix_ok r (mk 0) 0 eq_refl eq_refl eq_refl) as [r0 H0].
    destruct (from_matrix_spec r (mk 0) 0 r0 (wf_zeros _ _ _) ltac:(lia) eq_refl eq_refl eq_refl H0)
      as [W0 [X0 [Y0 [Z0 A0]]]]. cbn in X0, Y0, Z0.
    rewrite H0. cbn [bind].
    destruct (from_matrix_ok r0 (mk 1) 1) as [r1 H1]; [cbn; congruence..|].
    destruct (from_matrix_spec r0 (mk 1) 1 r1 W0) as [W1 [X1 [Y1 [Z1 A1]]]];
      [lia|cbn; congruence..|exact H1|].
    rewrite H1. cbn [bind].
    destruct (from_matrix_ok r1 (mk 2) 2) as [r2 H2]; [cbn; congruence..|].
    destruct (from_matrix_spec r1 (mk 2) 2 r2 W1) as [W2 [X2 [Y2 [Z2 A2]]]];
      [lia|cbn; congruence..|exact H2|].
    exists r2. split; [exact H2|]. split; [exact W2|].
    repeat (split; [congruence|]).
    intros c i j k Hc Hi Hj Hk. rewrite !entry_at.
    rewrite A2 by congruence.
    destruct c as [|[|[|c]]]; cbn [Nat.eqb].
    - rewrite A1 by congruence. cbn [Nat.eqb]. rewrite A0 by (cbn; congruence). cbn [Nat.eqb].
      apply Hmk; assumption.
    - rewrite A1 by congruence. cbn [Nat.eqb]. apply Hmk; assumption.
    - apply Hmk; assumption.
    - lia.
  Qed.

  Lemma set_field_c_spec F c (l : list T) n :
    wf F -> c < 3 -> n = fN F ->
    exists G, set_field_c F c {| shape := [n]; dat := l |} = Ok G /\ wf G /\
      fNx G = fNx F /\ fNy G = fNy F /\ fNz G = fNz F /\
      forall c' m, c' < 3 -> m < fN F ->
        get (farr G) (c' * fN F + m) = if c' =? c then get l m else get (farr F) (c' * fN F + m).
  Proof.
    intros Hw Hc ->. unfold set_field_c. cbn [shape List.length Nat.ltb Nat.leb].
    cbn [bcast_ok shape rev app bcompat]. rewrite Nat.eqb_refl, orb_true_r. cbn [andb].
    eexists. split; [reflexivity|]. split.
    { unfold wf in *; cbn. rewrite tab_length. exact Hw. }
    repeat split. intros c' m Hc' Hm. cbn [farr with_arr].
    rewrite get_tab by (rewrite Hw; fold (fN F); nia).
    rewrite comp_div, comp_mod by assumption.
    destruct (Nat.eqb_spec c' c); [|reflexivity].
    cbn [bget shape rev app bflat dat]. f_equal. destruct (Nat.eqb_spec (fN F) 1); lia.
  Qed.

  Lemma add_field_spec F G :
    wf F -> wf G -> fNx G = fNx F -> fNy G = fNy F -> fNz G = fNz F ->
    exists H, fadd F (OField G) = Ok H /\ wf H /\
      fNx H = fNx F /\ fNy H = fNy F /\ fNz H = fNz F /\
      forall c i j k, c < 3 -> i < fNx F -> j < fNy F -> k < fNz F ->
        entry H c i j k = nadd (entry F c i j k) (entry G c i j k).
  Proof.
    intros Hw Hw' EX EY EZ.
    assert (EN : fN G = fN F) by (unfold fN; congruence).
    unfold fadd. rewrite EN, Nat.eqb_refl. cbn [orb].
    set (r := field_zeros (fNx F) (fNy F) (fNz F)).
    set (dt := fun c => tab (fN F) (fun m => nadd (get (field_c F c) m) (get (field_c G c) m))).
    assert (Hdt : forall c m, m < fN F -> get (dt c) m = nadd (get (farr F) (c * fN F + m)) (get (farr G) (c * fN F + m))).
    { intros c m Hm. unfold dt, field_c. rewrite !get_tab by congruence. rewrite EN. reflexivity. }
    change (exists H, bind (set_field_c r 0 {| shape := [fN F]; dat := dt 0 |}) (fun r0 =>
                      bind (set_field_c r0 1 {| shape := [fN F]; dat := dt 1 |}) (fun r1 =>
                      set_field_c r1 2 {| shape := [fN F]; dat := dt 2 |})) = Ok H /\ wf H /\
      fNx H = fNx F /\ fNy H = fNy F /\ fNz H = fNz F /\
      forall c i j k, c < 3 -> i < fNx F -> j < fNy F -> k < fNz F ->
        entry H c i j k = nadd (entry F c i j k) (entry G c i j k)).
    destruct (set_field_c_spec r 0 (dt 0) (fN F) (wf_zeros _ _ _) ltac:(lia) eq_refl)
      as [r0 [H0 [W0 [X0 [Y0 [Z0 A0]]]]]].
    rewrite H0. cbn [bind]. cbn in X0, Y0, Z0.
    assert (E0 : fN F = fN r0) by (unfold fN; congruence).
    destruct (set_field_c_spec r0 1 (dt 1) (fN F) W0 ltac:(lia) E0)
      as [r1 [H1 [W1 [X1 [Y1 [Z1 A1]]]]]].
    rewrite H1. cbn [bind].
    assert (E1 : fN F = fN r1) by (unfold fN; congruence).
    destruct (set_field_c_spec r1 2 (dt 2) (fN F) W1 ltac:(lia) E1)
      as [r2 [H2 [W2 [X2 [Y2 [Z2 A2]]]]]].
    exists r2. split; [exact H2|]. split; [exact W2|].
    repeat (split; [congruence|]).
    intros c i j k Hc Hi Hj Hk. rewrite !entry_at. unfold at_.
    replace (fN r2) with (fN F) by (unfold fN; congruence).
    replace (fNx r2) with (fNx F) by congruence. replace (fNy r2) with (fNy F) by congruence.
    rewrite EN, EX, EY.
    pose proof (cell_lt _ _ _ _ _ _ Hi Hj Hk) as Hm. fold (fN F) in Hm.
    set (m := cell (fNx F) (fNy F) i j k) in *.
    rewrite <- E1 in A2. rewrite <- E0 in A1. change (fN r) with (fN F) in A0.
    rewrite A2 by assumption.
    destruct c as [|[|[|c]]]; cbn [Nat.eqb].
    - rewrite A1 by assumption. cbn [Nat.eqb]. rewrite A0 by assumption. apply Hdt; assumption.
    - rewrite A1 by assumption. cbn [Nat.eqb]. apply Hdt; assumption.
    - apply Hdt; assumption.
    - lia.
  Qed.

  (** C07 *)
  Lemma write_view_spec F c m :
    m0 m = fNx F -> m1 m = fNy F -> m2 m = fNz F -> from_matrix_c F m c = Ok (write_view F c m).
  Proof.
    intros E0 E1 E2. unfold from_matrix_c, write_view. rewrite E0, E1, E2.
    fold (fN F). rewrite Nat.eqb_refl. reflexivity.
  Qed.

  Lemma mat_setitem_dims (m m' : mat3 T) kx ky kz v :
    mat_setitem m kx ky kz v = Ok m' -> m0 m' = m0 m /\ m1 m' = m1 m /\ m2 m' = m2 m.
  Proof.
    unfold mat_setitem.
    destruct (resolve (m0 m) kx), (resolve (m1 m) ky), (resolve (m2 m) kz); try discriminate.
    destruct (bcast_ok _ _); [|discriminate]. intros H. injection H as <-. cbn. auto.
  Qed.

  Lemma setitem_st_spec F k v :
    wf F -> setitem_st F k v = match setitem F k v with
                               | Ok F' => (F', None) | Err e => (F, Some e) end.
  Proof.
    intros Hw. destruct k as [kx ky kz ck| | | |]; try reflexivity.
    unfold setitem_st, setitem, to_matrix, from_matrix.
    destruct (comp_of ck) as [c|] eqn:Hc; cbn [option_map]; [|reflexivity].
    destruct (mat_setitem (to_matrix_c F c) kx ky kz v) as [m'|e] eqn:Em; cbn [bind]; [|reflexivity].
    apply mat_setitem_dims in Em. cbn in Em. destruct Em as [E0 [E1 E2]].
    rewrite (write_view_spec F c m' E0 E1 E2).
    pose proof (from_matrix_spec F m' c _ Hw (comp_lt _ _ Hc) E0 E1 E2 (write_view_spec F c m' E0 E1 E2))
      as [Hw' _].
    pose proof (matrix_read_write (write_view F c m') ck (to_matrix_c (write_view F c m') c) Hw') as H.
    unfold to_matrix, from_matrix in H. rewrite Hc in H. cbn [option_map] in H.
    rewrite (H eq_refl). reflexivity.
  Qed.

  Lemma rejected_unchanged F k v e :
    wf F -> snd (setitem_st F k v) = Some e -> fst (setitem_st F k v) = F.
  Proof.
    intros Hw. rewrite setitem_st_spec by exact Hw.
    destruct (setitem F k v); cbn; [discriminate|reflexivity].
  Qed.

  Lemma tuple_bad_rejected sq F kx ky kz ck v :
    wf F ->
    (forall c, ~ names_component ck c) \/ ~ key_ok (fNx F) kx \/ ~ key_ok (fNy F) ky \/
    ~ key_ok (fNz F) kz ->
    (exists e, snd (setitem_st F (KTup kx ky kz ck) v) = Some e) /\
    (is_abs ck = false -> exists e, getitem sq F (KTup kx ky kz ck) = Err e).
  Proof.
    intros Hw H. rewrite setitem_st_spec by exact Hw.
    unfold setitem, getitem, to_matrix.
    destruct (comp_of ck) as [c|] eqn:Hc; cbn [option_map].
    - destruct H as [H|H]; [exfalso; apply (H c); apply names_comp; exact Hc|].
      unfold mat_setitem, mat_getitem. cbn [m0 m1 m2 to_matrix_c mtab].
      destruct (resolve (fNx F) kx) eqn:Ex; [|split; [|intros _]; eexists; reflexivity].
      destruct (resolve (fNy F) ky) eqn:Ey; [|split; [|intros _]; eexists; reflexivity].
      destruct (resolve (fNz F) kz) eqn:Ez; [|split; [|intros _]; eexists; reflexivity].
      exfalso.
      destruct H as [H|[H|H]]; apply resolve_bad in H; destruct H; congruence.
    - split; [eexists; reflexivity|]. intros ->. eexists. reflexivity.
  Qed.

  Lemma other_keys_rejected sq F v :
    (exists e, snd (setitem_st F KTupBad v) = Some e) /\ (exists e, getitem sq F KTupBad = Err e) /\
    (exists e, snd (setitem_st F KOtherKey v) = Some e) /\ (exists e, getitem sq F KOtherKey = Err e).
  Proof. repeat split; eexists; reflexivity. Qed.

  Lemma from_matrix_bad_comp F m ck :
    (forall c, ~ names_component ck c) -> from_matrix F m ck = Err IndexError.
  Proof.
    intros H. unfold from_matrix. destruct (comp_of ck) as [c|] eqn:Hc; [|reflexivity].
    exfalso. apply (H c), names_comp, Hc.
  Qed.

  (** C08 *)
  Definition sep (s : store T) : Prop :=
    (forall x o, nth_error (objs s) x = Some o -> oaddr o < List.length (heap s)) /\
    (forall x y o o', nth_error (objs s) x = Some o -> nth_error (objs s) y = Some o' ->
       oaddr o = oaddr o' -> x = y).

  Lemma sep_put s a v : sep s -> sep (put s a v).
  Proof.
    intros [H1 H2]. split; cbn.
    - intros x o Ho. rewrite tab_length. eapply H1; exact Ho.
    - exact H2.
  Qed.

  Lemma sep_alloc s F : sep s -> sep (alloc s F).
  Proof.
    intros [H1 H2]. split; cbn.
    - intros x o Ho. rewrite app_length; cbn.
      destruct (lt_dec x (List.length (objs s))) as [Hx|Hx].
      + rewrite nth_error_app1 in Ho by exact Hx. specialize (H1 _ _ Ho). lia.
      + rewrite nth_error_app2 in Ho by lia.
        destruct (x - List.length (objs s)) as [|n] eqn:E; cbn in Ho.
        * injection Ho as <-. cbn. lia.
        * destruct n; discriminate.
    - intros x y o o' Ho Ho' E.
      assert (A : forall z p, nth_error (objs s ++ [{| oNx := fNx F; oNy := fNy F; oNz := fNz F;
                             oaddr := List.length (heap s) |}]) z = Some p ->
               (nth_error (objs s) z = Some p /\ oaddr p < List.length (heap s)) \/
               (z = List.length (objs s) /\ oaddr p = List.length (heap s))).
      { intros z p Hp. destruct (lt_dec z (List.length (objs s))) as [Hz|Hz].
        - left. rewrite nth_error_app1 in Hp by exact Hz. split; [exact Hp|]. eapply H1; exact Hp.
        - right. rewrite nth_error_app2 in Hp by lia.
          destruct (z - List.length (objs s)) as [|n] eqn:Ez; cbn in Hp.
          + injection Hp as <-. split; [lia|reflexivity].
          + destruct n; discriminate. }
      destruct (A _ _ Ho) as [[P Q]|[P Q]], (A _ _ Ho') as [[P' Q']|[P' Q']]; try lia.
      eapply H2; eassumption.
  Qed.

  Lemma sep_step s op : sep s -> sep (hstep s op).
  Proof.
    intros H. destruct op; cbn [hstep]; try (apply sep_alloc; exact H);
      repeat match goal with
      | |- context [match nth_error ?l ?x with _ => _ end] => destruct (nth_error l x)
      end; unfold hwrite, hnew;
      repeat match goal with
      | |- context [match ?r with Ok _ => _ | Err _ => _ end] => destruct r
      end; auto using sep_put, sep_alloc.
  Qed.

  Lemma sep_run ops : sep (hrun ops).
  Proof.
    unfold hrun. assert (H : sep {| heap := []; objs := [] |}).
    { split; cbn.
      - intros x o Ho. destruct x; discriminate.
      - intros x y o o' Ho. destruct x; discriminate. }
    revert H. generalize {| heap := @nil (list T); objs := [] |}.
    induction ops as [|op ops IH]; cbn; intros s H; [exact H|].
    apply IH, sep_step, H.
  Qed.

  Lemma read_put s a v x :
    sep s -> (forall o, nth_error (objs s) x = Some o -> oaddr o <> a) ->
    read (put s a v) x = read s x.
  Proof.
    intros [H1 _] Hne. unfold read. cbn.
    destruct (nth_error (objs s) x) as [o|] eqn:Ho; [|reflexivity]. cbn [option_map]. f_equal.
    unfold load. f_equal. cbn. rewrite nth_tab by (eapply H1; exact Ho).
    specialize (Hne o eq_refl). apply Nat.eqb_neq in Hne. rewrite Hne. reflexivity.
  Qed.

  Lemma read_alloc s F x :
    sep s -> x < List.length (objs s) -> read (alloc s F) x = read s x.
  Proof.
    intros [H1 _] Hx. unfold read. cbn. rewrite nth_error_app1 by exact Hx.
    destruct (nth_error (objs s) x) as [o|] eqn:Ho; [|reflexivity]. cbn [option_map]. f_equal.
    unfold load. f_equal. cbn. apply app_nth1. eapply H1; exact Ho.
  Qed.

  Lemma objs_step s op : List.length (objs s) <= List.length (objs (hstep s op)).
  Proof.
    destruct op; cbn [hstep];
      repeat match goal with
      | |- context [match nth_error ?l ?x with _ => _ end] => destruct (nth_error l x)
      end; unfold hwrite, hnew;
      repeat match goal with
      | |- context [match ?r with Ok _ => _ | Err _ => _ end] => destruct r
      end; cbn; rewrite ?app_length; cbn; lia.
  Qed.

  Lemma read_step s op x :
    sep s -> x < List.length (objs s) -> hwrites op <> Some x ->
    read (hstep s op) x = read s x.
  Proof.
    intros Hs Hx Hw.
    assert (Hne : forall y o, nth_error (objs s) y = Some o -> y <> x ->
              forall o', nth_error (objs s) x = Some o' -> oaddr o' <> oaddr o).
    { intros y o Ho Hy o' Ho' E. apply Hy. symmetry. eapply (proj2 Hs); eassumption. }
    destruct op as [Nx Ny Nz|y|y k v|y m c|y a|y y'|y a|y y']; cbn [hstep hwrites] in *.
    - apply read_alloc; assumption.
    - destruct (nth_error (objs s) y); [apply read_alloc; assumption|reflexivity].
    - destruct (nth_error (objs s) y) as [o|] eqn:Ho; [|reflexivity].
      apply read_put; [exact Hs|]. eapply Hne; [exact Ho|congruence].
    - destruct (nth_error (objs s) y) as [o|] eqn:Ho; [|reflexivity]. unfold hwrite.
      destruct (from_matrix _ _ _); [|reflexivity].
      apply read_put; [exact Hs|]. eapply Hne; [exact Ho|congruence].
    - destruct (nth_error (objs s) y) as [o|] eqn:Ho; [|reflexivity]. unfold hwrite.
      destruct (fromarray _ _); [|reflexivity].
      apply read_put; [exact Hs|]. eapply Hne; [exact Ho|congruence].
    - destruct (nth_error (objs s) y) as [o|] eqn:Ho; [|reflexivity].
      destruct (nth_error (objs s) y') as [o'|] eqn:Ho'; [|reflexivity]. unfold hwrite.
      destruct (fromarray _ _); [|reflexivity].
      apply read_put; [exact Hs|]. eapply Hne; [exact Ho|congruence].
    - destruct (nth_error (objs s) y); [|reflexivity]. unfold hnew.
      destruct (fmul _ _); [apply read_alloc; assumption|reflexivity].
    - destruct (nth_error (objs s) y); [|reflexivity].
      destruct (nth_error (objs s) y'); [|reflexivity]. unfold hnew.
      destruct (fadd _ _); [apply read_alloc; assumption|reflexivity].
  Qed.

  Lemma read_steps ops s x :
    sep s -> x < List.length (objs s) -> (forall op, In op ops -> hwrites op <> Some x) ->
    read (fold_left hstep ops s) x = read s x.
  Proof.
    revert s. induction ops as [|op ops IH]; cbn; intros s Hs Hx H; [reflexivity|].
    rewrite IH.
    - apply read_step; auto.
    - apply sep_step; exact Hs.
    - pose proof (objs_step s op). lia.
    - auto.
  Qed.

  Lemma copy_reads_same s x F :
    sep s -> read s x = Some F ->
    read (hstep s (HCopy x)) (List.length (objs s)) = Some F /\
    read (hstep s (HCopy x)) x = Some F.
  Proof.
    intros Hs Hr. assert (Hx : x < List.length (objs s)).
    { apply nth_error_Some. unfold read in Hr. intros E. rewrite E in Hr. discriminate. }
    split.
    - unfold read in *. cbn [hstep]. destruct (nth_error (objs s) x) as [o|]; [|discriminate].
      cbn [option_map] in Hr. injection Hr as <-. cbn.
      rewrite nth_error_app2, Nat.sub_diag by lia. cbn. f_equal. unfold load, copy; cbn. f_equal.
      rewrite app_nth2, Nat.sub_diag by lia. reflexivity.
    - rewrite read_step; [exact Hr|exact Hs|exact Hx|discriminate].
  Qed.

  Lemma copy_independent pre x F post y :
    read (hrun pre) x = Some F ->
    let g := List.length (objs (hrun pre)) in
    y = x \/ y = g ->
    (forall op, In op post -> hwrites op <> Some y) ->
    read (hrun (pre ++ HCopy x :: post)) y = Some F.
  Proof.
    intros Hr g Hy Hw. unfold hrun in *. rewrite fold_left_app. cbn [fold_left].
    fold (hrun pre) in *.
    pose proof (sep_run pre) as Hs.
    destruct (copy_reads_same _ _ _ Hs Hr) as [Hg Hx].
    assert (Hlt : y < List.length (objs (hstep (hrun pre) (HCopy x)))).
    { apply nth_error_Some. intros E.
      unfold g, read in *. destruct Hy as [->| ->].
      - rewrite E in Hx. discriminate.
      - rewrite E in Hg. discriminate. }
    rewrite read_steps; [|apply sep_step; exact Hs|exact Hlt|exact Hw].
    destruct Hy as [->| ->]; assumption.
  Qed.

  Lemma matrix_entries F ck c :
    names_component ck c ->
    exists m, to_matrix F ck = Some m /\ m0 m = fNx F /\ m1 m = fNy F /\ m2 m = fNz F /\
      forall i j k, i < fNx F -> j < fNy F -> k < fNz F -> mget m i j k = entry F c i j k.
  Proof.
    intros Hc. apply names_comp in Hc. unfold to_matrix. rewrite Hc. cbn [option_map].
    eexists. split; [reflexivity|]. repeat split. intros. rewrite entry_at.
    apply mget_to_matrix; assumption.
  Qed.

  Lemma mul_number F x : wf F -> exists G, fmul F (ONum x) = Ok G /\ wf G /\
    fNx G = fNx F /\ fNy G = fNy F /\ fNz G = fNz F /\
    forall c i j k, c < 3 -> i < fNx F -> j < fNy F -> k < fNz F ->
      entry G c i j k = nmul (entry F c i j k) x.
  Proof.
    intros Hw. eexists. split; [reflexivity|]. split.
    - unfold wf in *; cbn. rewrite tab_length. exact Hw.
    - repeat split. intros. apply arith_scalar_spec; assumption.
  Qed.

  Lemma mul_matrix F (a : ndarray T) : wf F -> shape a = [fNx F; fNy F; fNz F] ->
    exists G, fmul F (OArr a) = Ok G /\ wf G /\
      fNx G = fNx F /\ fNy G = fNy F /\ fNz G = fNz F /\
      forall c i j k, c < 3 -> i < fNx F -> j < fNy F -> k < fNz F ->
        entry G c i j k = nmul (entry F c i j k) (get (dat a) ((i * fNy F + j) * fNz F + k)).
  Proof.
    intros Hw Hs. unfold fmul. rewrite Hs. apply arith_matrix_spec; assumption.
  Qed.

  Lemma add_matrix F (a : ndarray T) : wf F -> shape a = [fNx F; fNy F; fNz F] ->
    exists G, fadd F (OArr a) = Ok G /\ wf G /\
      fNx G = fNx F /\ fNy G = fNy F /\ fNz G = fNz F /\
      forall c i j k, c < 3 -> i < fNx F -> j < fNy F -> k < fNz F ->
        entry G c i j k = nadd (entry F c i j k) (get (dat a) ((i * fNy F + j) * fNz F + k)).
  Proof.
    intros Hw Hs. unfold fadd. rewrite Hs. apply arith_matrix_spec; assumption.
  Qed.

  Lemma operands_unchanged (pre : list (hop T)) op x :
    x < List.length (objs (hrun pre)) -> hwrites op <> Some x ->
    read (hrun (pre ++ [op])) x = read (hrun pre) x.
  Proof.
    intros Hx Hw. unfold hrun at 1. rewrite fold_left_app. cbn [fold_left]. fold (hrun pre).
    apply read_step; [apply sep_run|exact Hx|exact Hw].
  Qed.

  (** C10 *)
  Lemma scalar_operands_fail F x :
    fdiv F (ONum x) = Err AttributeError /\ ftruediv F (ONum x) = Err TypeError /\
    fadd F (ONum x) = Err AttributeError.
  Proof. repeat split. Qed.
End P.

(** C09 *)
Lemma sumsq_nonneg a b c : (0 <= a * a + b * b + c * c)%R.
Proof. nra. Qed.

Lemma abs_cell (F : Field R) zx zy zz ck i j k :
  lower ck = "abs"%string ->
  pyindex (fNx F) zx i -> pyindex (fNy F) zy j -> pyindex (fNz F) zz k ->
  exists a, getitem sqrt F (KTup (KI zx) (KI zy) (KI zz) (CStr ck)) = Ok (scalar a) /\
    (0 <= a)%R /\
    (a * a = entry F 0 i j k * entry F 0 i j k + entry F 1 i j k * entry F 1 i j k
             + entry F 2 i j k * entry F 2 i j k)%R /\
    (a = 0%R <-> entry F 0 i j k = 0%R /\ entry F 1 i j k = 0%R /\ entry F 2 i j k = 0%R).
Proof.
  intros Hl Hx Hy Hz.
  exists (sqrt (entry F 0 i j k * entry F 0 i j k + entry F 1 i j k * entry F 1 i j k
             + entry F 2 i j k * entry F 2 i j k)%R).
  pose proof (sumsq_nonneg (entry F 0 i j k) (entry F 1 i j k) (entry F 2 i j k)) as Hn.
  split; [|split; [apply sqrt_pos|split]].
  - unfold getitem, to_matrix.
    assert (Hc : comp_of (CStr ck) = None).
    { cbn [comp_of]. destruct (String.eqb_spec ck "x") as [->|]; [discriminate|].
      destruct (String.eqb_spec ck "y") as [->|]; [discriminate|].
      destruct (String.eqb_spec ck "z") as [->|]; [discriminate|]. reflexivity. }
    rewrite Hc. cbn [option_map is_abs]. rewrite Hl, String.eqb_refl.
    unfold mat_getitem, get_abs. cbn [m0 m1 m2 mtab].
    rewrite (pyindex_resolve _ _ _ Hx), (pyindex_resolve _ _ _ Hy), (pyindex_resolve _ _ _ Hz).
    unfold scalar, tab. cbn [List.length Nat.mul Nat.add seq map]. do 2 f_equal.
    cbn [keep3 kept app]. f_equal.
    change (nth (0 / 1) [i] 0) with i. change (nth ((0 / 1) mod 1) [j] 0) with j.
    change (nth (0 mod 1) [k] 0) with k.
    destruct Hx as [Hi _], Hy as [Hj _], Hz as [Hk _].
    rewrite mget_mtab by assumption.
    rewrite !mget_to_matrix by assumption. rewrite <- !entry_at. reflexivity.
  - apply sqrt_sqrt. exact Hn.
  - split.
    + intros H. apply sqrt_eq_0 in H; [|exact Hn]. repeat split; nra.
    + intros [-> [-> ->]]. replace (0 * 0 + 0 * 0 + 0 * 0)%R with 0%R by ring. apply sqrt_0.
Qed.
