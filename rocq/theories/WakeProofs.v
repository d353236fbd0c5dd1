(** Lemmas: the line integral computed by the wake potential loops. *)
From Coq Require Import List Arith ZArith Bool String Lia Ring Field.
From Verif Require Import Num Vec FieldModel FieldProofs GridModel SolverModel SolverBuild WakeModel WakeNum.
Import ListNotations.

Lemma seq_upd_snoc {A B} (g : A -> result B) (h : A -> B) (l : list A) : forall acc,
  (forall a, In a l -> g a = Ok (h a)) ->
  seq_upd (fun acc a => do b <- g a; Ok (acc ++ [b])) acc l = Ok (acc ++ map h l).
Proof.
  induction l as [|a l IH]; intros acc H; cbn [seq_upd map].
  - rewrite app_nil_r. reflexivity.
  - rewrite (H a (or_introl eq_refl)). cbn [bind]. rewrite IH by (intros; apply H; right; assumption).
    rewrite <- app_assoc. reflexivity.
Qed.
Lemma collect_map {A B} (g : A -> result B) (h : A -> B) (l : list A) :
  (forall a, In a l -> g a = Ok (h a)) -> collect g l = Ok (map h l).
Proof. intros H. unfold collect. rewrite (seq_upd_snoc g h) by exact H. reflexivity. Qed.
Lemma collect_tab {B} (g : nat -> result B) (h : nat -> B) n :
  (forall i, i < n -> g i = Ok (h i)) -> collect g (seq 0 n) = Ok (tab n h).
Proof. intros H. apply collect_map. intros a Ha. apply in_seq in Ha. apply H. lia. Qed.

Lemma collect_tab2 {A B} (g : A -> result B) (f : nat -> A) (h : nat -> B) n :
  (forall i, i < n -> g (f i) = Ok (h i)) -> collect g (tab n f) = Ok (tab n h).
Proof.
  intros H. unfold tab, collect. set (l := seq 0 n).
  assert (Hl : forall i, In i l -> g (f i) = Ok (h i)).
  { intros i Hi. apply in_seq in Hi. apply H. lia. }
  clearbody l.
  enough (Q : forall acc, seq_upd (fun acc a => do b <- g a; Ok (acc ++ [b])) acc (map f l) = Ok (acc ++ map h l)) by apply (Q []).
  induction l as [|i l IH]; intros acc; cbn [map seq_upd].
  - rewrite app_nil_r. reflexivity.
  - rewrite (Hl i (or_introl eq_refl)). cbn [bind].
    rewrite IH by (intros; apply Hl; right; assumption). rewrite <- app_assoc. reflexivity.
Qed.

Section Wake.
  Context {T : Type} {NT : Num T} {LT : NumLaws T} {OT : NumOrd T} {FT : NumFl T} {FL : NumFlLaws T}.
  Add Field wkf : (@num_field T NT LT).
  Local Open Scope num_scope.

  Lemma item_get (v : list T) i : (i < List.length v)%nat -> item v i = Ok (get v i).
  Proof.
    intros H. unfold item, some, get. rewrite (nth_error_nth' v 0 H). reflexivity.
  Qed.
  Lemma some_ok {A} e (o : option A) a : some e o = Ok a -> o = Some a.
  Proof. destruct o; cbn; congruence. Qed.

  Lemma take_full (v : list T) : take kfull v = Ok v.
  Proof.
    unfold take. rewrite resolve_full. cbn [bind]. f_equal.
    change (map (get v) (seq 0 (List.length v))) with (tab (List.length v) (get v)). apply tab_get.
  Qed.
  Lemma take_in k (v l : list T) : take k v = Ok l -> forall y, In y l -> In y v.
  Proof.
    unfold take. destruct (resolve (List.length v) k) eqn:E; [|discriminate]. cbn [bind]. intros H. injection H as <-.
    intros y Hy. apply in_map_iff in Hy. destruct Hy as (i & <- & Hi).
    apply nth_In. eapply resolve_bound; eassumption.
  Qed.

  (** Accumulation of terms. *)
  Lemma seq_upd_sum (g : T -> nat -> result T) (c : nat -> T) n : forall acc,
    (forall a k, (k < n)%nat -> g a k = Ok (a + c k)) ->
    seq_upd g acc (seq 0 n) = Ok (acc + sum n c).
  Proof.
    intros acc H. revert acc.
    enough (E : forall m acc, (m <= n)%nat -> seq_upd g acc (seq 0 m) = Ok (acc + sum m c)) by (intros; apply E; lia).
    induction m as [|m IH]; intros acc Hm.
    - cbn [seq seq_upd sum]. f_equal. ring.
    - rewrite seq_S. cbn [Nat.add]. 
      assert (A : forall l1 l2 a, seq_upd g a (l1 ++ l2) = do b <- seq_upd g a l1; seq_upd g b l2).
      { induction l1 as [|x l1 I1]; intros l2 a; [reflexivity|]. cbn [app seq_upd].
        destruct (g a x); [apply I1|reflexivity]. }
      rewrite A, IH by lia. cbn [bind seq_upd]. rewrite H by lia. cbn [bind sum]. f_equal. ring.
  Qed.

  (** Cells crossed by the test charge before step [it] of the record. *)
  Definition delay (v dt a b : T) : Z := nfloor ((a - b) / (v * dt)).
  Lemma delay_nonneg v dt a b : nltb 0 v = true -> nltb 0 dt = true -> nltb a b = false -> (0 <= delay v dt a b)%Z.
  Proof. intros Hv Hd H. apply fl_nonneg. apply div_nonneg; [apply le_sub; exact H|apply mul_pos; assumption]. Qed.

  Lemma ts_forward (v dt ti zk zmin : T) n : nltb 0 v = true -> nltb 0 dt = true -> nltb zk zmin = false ->
    ntrunc (((zk + (- ti * v + nofnat n * (dt * v))) / v - zmin / v - 0 + ti) / dt) = (Z.of_nat n + delay v dt zk zmin)%Z.
  Proof.
    intros Hv Hd H. pose proof (pos_neq v Hv) as Nv. pose proof (pos_neq dt Hd) as Nd.
    replace (((zk + (- ti * v + nofnat n * (dt * v))) / v - zmin / v - 0 + ti) / dt)
      with (nofnat n + (zk - zmin) / (v * dt)) by (field; auto).
    apply trunc_nat. apply div_nonneg; [apply le_sub; exact H|apply mul_pos; assumption].
  Qed.
  Lemma ts_backward (v dt ti zk zmax : T) n : nltb 0 v = true -> nltb 0 dt = true -> nltb zmax zk = false ->
    ntrunc (((zk - (- ti * v + nofnat n * (dt * v))) / (- (1) * v) - zmax / (- (1) * v) - 0 + ti) / dt)
    = (Z.of_nat n + delay v dt zmax zk)%Z.
  Proof.
    intros Hv Hd H. pose proof (pos_neq v Hv) as Nv. pose proof (pos_neq dt Hd) as Nd.
    assert (N2 : (- (1) : T) <> 0).
    { intros E. apply Nv. replace v with (- (- (1)) * v : T) by ring. rewrite E. ring. }
    replace (((zk - (- ti * v + nofnat n * (dt * v))) / (- (1) * v) - zmax / (- (1) * v) - 0 + ti) / dt)
      with (nofnat n + (zmax - zk) / (v * dt)).
    2:{ replace ((zk - (- ti * v + nofnat n * (dt * v))) / (- (1) * v)) with (- ((zk - (- ti * v + nofnat n * (dt * v))) / v)).
        2:{ field. split; [assumption|exact N2]. }
        replace (zmax / (- (1) * v)) with (- (zmax / v)).
        2:{ field. split; [assumption|exact N2]. }
        field. auto. }
    apply trunc_nat. apply div_nonneg; [apply le_sub; exact H|apply mul_pos; assumption].
  Qed.

  (** Set up of a regular record: times n dt, some steps, enough datasets. *)
  Definition su_of (w : Wake T) (f : File T) (nt : nat) (dt : T) (zf z dz : list T) (zmin zmax len : T) : Setup T :=
    {| su_f := f; su_z := z; su_zf := zf; su_zmin := zmin; su_zmax := zmax; su_dt := dt; su_t0 := 0;
       su_s := tab (Z.to_nat (nceil ((len - - wk_ti w * wk_v w) / (dt * wk_v w))))
                   (fun i => - wk_ti w * wk_v w + nofnat i * (dt * wk_v w));
       su_len := len; su_keys := keys f; su_nt0 := nt; su_nt := nt; su_dz := dz |}.

  Lemma setup_ok (w : Wake T) f nt dt zf z dz len :
    wk_hf w = Some f -> wk_t w = Some (tab nt (fun n => nofnat n * dt)) -> (3 <= nt)%nat ->
    wk_zf w = Some zf -> zf <> [] -> wk_dz w = Some dz -> wk_len w = Some len ->
    nltb 0 dt = true -> nltb 0 (wk_v w) = true -> (nt + 4 <= List.length (keys f))%nat ->
    take (zslice (wk_skip w)) zf = Ok z ->
    exists zmin zmax, np_min zf = Ok zmin /\ np_max zf = Ok zmax /\
      setup w = Ok (su_of w f nt dt zf z dz zmin zmax len).
  Proof.
    intros Hf Ht Hnt Hz Hne Hdz Hlen Hd Hv Hk Hs.
    destruct (np_min_ok zf Hne) as [zmin Hmin]. destruct (np_max_ok zf Hne) as [zmax Hmax].
    exists zmin, zmax. repeat split; try assumption.
    unfold setup. rewrite Ht, Hf, Hz, Hdz, Hlen. cbn [some bind].
    rewrite !item_get by (rewrite tab_length; lia). cbn [bind]. rewrite Hmax, Hmin, Hs. cbn [bind].
    rewrite !get_tab by lia.
    assert (E : nofnat 2 * dt - nofnat 1 * dt = dt) by (cbn [nofnat]; ring).
    assert (E0 : nofnat 0 * dt = 0) by (cbn [nofnat]; ring).
    rewrite E, E0. unfold arange.
    assert (Nd : neqb (dt * wk_v w) 0 = false). { apply neqb_neq. apply pos_neq, mul_pos; assumption. }
    rewrite Nd. cbn [bind]. rewrite tab_length.
    destruct (Nat.ltb_spec (List.length (keys f) - 4) nt) as [X|X]; [lia|]. reflexivity.
  Qed.

  Lemma ezt_at_ok cols ncols k it : (0 <= it < Z.of_nat ncols)%Z -> ezt_at cols ncols k it = Ok (get (nth (Z.to_nat it) cols []) k).
  Proof.
    intros H. unfold ezt_at. rewrite resolve_int by lia.
    destruct (Z.ltb_spec it 0); [lia|]. reflexivity.
  Qed.

  (** One sample of the forward integral. *)
  Definition fwd (w : Wake T) (su : Setup T) (cols : list (list T)) (n k : nat) : T :=
    let it := (Z.of_nat n + delay (wk_v w) (su_dt su) (get (su_z su) k) (su_zmin su))%Z in
    if (it <? Z.of_nat (su_nt su))%Z then get (nth (Z.to_nat it) cols []) k * get (su_dz su) k else 0.
  Definition bwd (w : Wake T) (su : Setup T) (cols : list (list T)) (n k : nat) : T :=
    let k' := (List.length (su_z su) - 1 - k)%nat in
    let it := (Z.of_nat n + delay (wk_v w) (su_dt su) (su_zmax su) (get (su_z su) k'))%Z in
    if (it <? Z.of_nat (su_nt su))%Z then get (nth (Z.to_nat it) cols []) k' * (- (1) * get (su_dz su) k) else 0.

  Section Terms.
    Context (w : Wake T) (f : File T) (nt : nat) (dt : T) (zf z dz : list T) (zmin zmax len : T).
    Context (Hd : nltb 0 dt = true) (Hv : nltb 0 (wk_v w) = true).
    Context (Hmin : np_min zf = Ok zmin) (Hmax : np_max zf = Ok zmax) (Hz : take (zslice (wk_skip w)) zf = Ok z).
    Context (Hdz : (List.length z <= List.length dz)%nat).
    Notation su := (su_of w f nt dt zf z dz zmin zmax len).

    Lemma z_range k : (k < List.length z)%nat -> nltb (get z k) zmin = false /\ nltb zmax (get z k) = false.
    Proof.
      intros Hk. assert (I : In (get z k) zf). { eapply take_in; [exact Hz|]. apply nth_In. exact Hk. }
      split; [apply (np_min_le _ _ Hmin)|apply (np_max_le _ _ Hmax)]; exact I.
    Qed.

    Lemma wp_term_ok cols ncols n acc k : (nt <= ncols)%nat -> (k < List.length z)%nat ->
      wp_term w su cols ncols (- wk_ti w * wk_v w + nofnat n * (dt * wk_v w)) acc k = Ok (acc + fwd w su cols n k).
    Proof.
      intros Hn Hk. destruct (z_range k Hk) as [R1 R2]. unfold wp_term. cbn [su_z su_zmin su_t0 su_dt su_nt su_dz su_of].
      rewrite item_get by exact Hk. cbn [bind]. rewrite ts_forward by assumption.
      unfold fwd. cbn [su_z su_zmin su_t0 su_dt su_nt su_dz su_of].
      pose proof (delay_nonneg _ _ _ _ Hv Hd R1) as P.
      destruct (Z.ltb_spec (Z.of_nat n + delay (wk_v w) dt (get z k) zmin) (Z.of_nat nt)) as [L|L].
      - rewrite ezt_at_ok by lia. cbn [bind]. rewrite item_get by lia. reflexivity.
      - f_equal. ring.
    Qed.
    Lemma wp_term_counter_ok cols ncols n acc k : (nt <= ncols)%nat -> (k < List.length z)%nat ->
      wp_term_counter w su cols ncols (- wk_ti w * wk_v w + nofnat n * (dt * wk_v w)) acc k = Ok (acc + bwd w su cols n k).
    Proof.
      intros Hn Hk. unfold wp_term_counter, bwd. cbn [su_z su_zmax su_t0 su_dt su_nt su_dz su_of].
      set (k' := (List.length z - 1 - k)%nat). assert (Hk' : (k' < List.length z)%nat) by (unfold k'; lia).
      destruct (z_range k' Hk') as [R1 R2].
      rewrite item_get by exact Hk'. cbn [bind]. rewrite ts_backward by assumption.
      pose proof (delay_nonneg _ _ _ _ Hv Hd R2) as P.
      destruct (Z.ltb_spec (Z.of_nat n + delay (wk_v w) dt zmax (get z k')) (Z.of_nat nt)) as [L|L].
      - rewrite ezt_at_ok by lia. cbn [bind]. rewrite item_get by lia. reflexivity.
      - f_equal. ring.
    Qed.

    Lemma wp_loop_ok term c WP :
      (forall n acc k, (k < List.length z)%nat ->
         term (- wk_ti w * wk_v w + nofnat n * (dt * wk_v w)) acc k = Ok (acc + c n k)) ->
      List.length WP = List.length (su_s su) ->
      wp_loop term w su WP
      = Ok (tab (List.length (su_s su)) (fun n => (get WP n + sum (List.length z) (c n)) / (wk_q w * pico))).
    Proof.
      intros Ht Hl. unfold wp_loop.
      assert (Ls : List.length (combine (su_s su) WP) = List.length (su_s su)) by (rewrite combine_length; lia).
      assert (E : combine (su_s su) WP = tab (List.length (su_s su))
                (fun n => (- wk_ti w * wk_v w + nofnat n * (dt * wk_v w), get WP n))).
      { apply (nth_ext _ _ (0, 0) (0, 0)); [rewrite tab_length; exact Ls|]. intros n Hn. rewrite Ls in Hn.
        rewrite combine_nth by (symmetry; exact Hl). rewrite nth_tab by exact Hn. f_equal.
        cbn [su_s su_of] in *. rewrite tab_length in Hn. rewrite nth_tab by exact Hn. reflexivity. }
      rewrite E.
      rewrite (collect_tab2 _ _ (fun n => get WP n + sum (List.length z) (c n))).
      - cbn [bind]. unfold tab. rewrite map_map. reflexivity.
      - intros n Hn. cbn [fst snd su_z su_of]. apply seq_upd_sum. intros a k Hk. apply Ht. exact Hk.
    Qed.
  End Terms.

  Lemma opened_fresh (w : Wake T) f : wk_hf w = None -> opened w (Some f) = Ok (read_Ez w f).
  Proof. intros H. unfold opened. rewrite H. reflexivity. Qed.

  (** What a record of [nt] steps of period [dt] is to the wake solver. *)
  Record recorded (f : File T) (nt : nat) (dt : T) (zf dz : list T) (a : nat -> ndarray T) : Prop := {
    rec_t : find f "t" = Some (vec (tab nt (fun n => nofnat n * dt)));
    rec_z : find f "z" = Some (vec zf);
    rec_dz : find f "dz" = Some (vec dz);
    rec_keys : (nt + 4 <= List.length (keys f))%nat;
    rec_snap : forall n, (n < nt)%nat -> exists k, nth_error (keys f) n = Some k /\ find f k = Some (a n)
  }.

  (** Longitudinal records hold one array over z per step. *)
  Theorem long_WP_spec (w : Wake T) f nt dt zf dz (a : nat -> list T) len :
    wk_hf w = None -> wk_len w = Some len -> wk_skip w = 0%nat ->
    recorded f nt dt zf dz (fun n => vec (a n)) -> (3 <= nt)%nat -> zf <> [] ->
    (forall n, (n < nt)%nat -> List.length (a n) = List.length zf) ->
    (List.length zf <= List.length dz)%nat -> nltb 0 dt = true -> nltb 0 (wk_v w) = true ->
    exists zmin w', np_min zf = Ok zmin /\ calc_long_WP w (Some f) None = Ok w' /\
      let ns := Z.to_nat (nceil ((len - - wk_ti w * wk_v w) / (dt * wk_v w))) in
      wk_s w' = Some (tab ns (fun n => - wk_ti w * wk_v w + nofnat n * (dt * wk_v w))) /\
      wk_WP w' = Some (tab ns (fun n =>
        (sum (List.length zf) (fun k =>
           let it := (Z.of_nat n + delay (wk_v w) dt (get zf k) zmin)%Z in
           if (it <? Z.of_nat nt)%Z then get (a (Z.to_nat it)) k * get dz k else 0)) / (wk_q w * pico))) /\
      wk_txt w' = save_WP w (tab ns (fun n => - wk_ti w * wk_v w + nofnat n * (dt * wk_v w)))
        (match wk_WP w' with Some v => v | None => [] end).
  Proof.
    intros Hf Hlen Hsk R Hnt Hne Ha Hdz Hd Hv.
    unfold calc_long_WP. rewrite opened_fresh by exact Hf. cbn [bind].
    set (w1 := read_Ez w f).
    assert (Ht : wk_t w1 = Some (tab nt (fun n => nofnat n * dt))). { cbn. unfold or_old. rewrite (rec_t _ _ _ _ _ _ R). reflexivity. }
    assert (Hz : wk_zf w1 = Some zf). { cbn. unfold or_old. rewrite (rec_z _ _ _ _ _ _ R). reflexivity. }
    assert (Hdz1 : wk_dz w1 = Some dz). { cbn. unfold or_old. rewrite (rec_dz _ _ _ _ _ _ R). reflexivity. }
    destruct (setup_ok w1 f nt dt zf zf dz len eq_refl Ht Hnt Hz Hne Hdz1 Hlen Hd Hv (rec_keys _ _ _ _ _ _ R))
      as (zmin & zmax & Hmin & Hmax & Hsu).
    { change (wk_skip w1) with (wk_skip w). rewrite Hsk. apply take_full. }
    rewrite Hsu. cbn [bind]. set (su := su_of w1 f nt dt zf zf dz zmin zmax len).
    assert (Hds : forall n, (n < nt)%nat -> dataset su n = Ok (vec (a n))).
    { intros n Hn. destruct (rec_snap _ _ _ _ _ _ R n Hn) as (k & K1 & K2).
      unfold dataset. cbn [su su_keys su_f su_of]. unfold some. rewrite K1. cbn [bind]. rewrite K2. reflexivity. }
    rewrite (Hds 0%nat) by lia. cbn [bind]. change (List.length (shape (vec (a 0%nat)))) with 1%nat.
    change (su_nt su) with nt.
    rewrite (collect_tab _ a).
    2:{ intros n Hn. unfold long_column. rewrite Hds by exact Hn. cbn [bind vec shape dat].
        change (su_z su) with zf. unfold column. rewrite Ha by exact Hn. rewrite Nat.eqb_refl. reflexivity. }
    cbn [bind].
    assert (Htk : take (zslice (wk_skip w1)) zf = Ok zf). { change (wk_skip w1) with (wk_skip w). rewrite Hsk. apply take_full. }
    unfold su.
    rewrite wp_loop_ok with (c := fwd w1 (su_of w1 f nt dt zf zf dz zmin zmax len) (tab nt a)); auto.
    2:{ intros n acc k Hk. apply wp_term_ok; auto. }
    2:{ apply repeat_length. }
    fold su. cbn [bind]. exists zmin. eexists. split; [exact Hmin|]. split; [reflexivity|]. cbn zeta.
    split; [reflexivity|]. split; [|reflexivity].
    cbn [wk_WP long_done]. f_equal. cbn [su su_s su_of]. rewrite tab_length.
    change (wk_ti w1) with (wk_ti w). change (wk_v w1) with (wk_v w). change (wk_q w1) with (wk_q w).
    apply tab_ext. intros n Hn. f_equal.
    replace (get (repeat 0 _) n) with (0 : T).
    2:{ unfold get. symmetry. apply nth_repeat. }
    rewrite (sum_ext _ _ (fun k =>
           let it := (Z.of_nat n + delay (wk_v w) dt (get zf k) zmin)%Z in
           if (it <? Z.of_nat nt)%Z then get (a (Z.to_nat it)) k * get dz k else 0)).
    { cbv zeta. ring. }
    intros k Hk. unfold fwd. cbn [su su_z su_zmin su_dt su_nt su_dz su_of].
    change (wk_v w1) with (wk_v w).
    pose proof (delay_nonneg _ _ _ _ Hv Hd (proj1 (z_range w1 zf zf zmin zmax Hmin Hmax Htk k Hk))) as P.
    destruct (Z.ltb_spec (Z.of_nat n + delay (wk_v w) dt (get zf k) zmin) (Z.of_nat nt)) as [L|L]; [|reflexivity].
    cbv zeta. rewrite nth_tab by lia. reflexivity.
  Qed.
End Wake.
