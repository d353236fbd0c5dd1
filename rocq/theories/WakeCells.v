(** Lemmas: the transverse cells of the 3-D wake potential. *)
From Coq Require Import List Arith ZArith Bool String Lia Ring Field.
From Verif Require Import Num Vec FieldModel FieldProofs GridModel SolverModel SolverBuild WakeModel WakeNum WakeProofs.
Import ListNotations.

Lemma zslice_resolve d skip : 2 * skip <= d -> resolve d (zslice skip) = Ok (seq skip (d - 2 * skip)).
Proof.
  intros H. destruct skip as [|s].
  - cbn [zslice]. rewrite resolve_full. f_equal. f_equal. lia.
  - unfold zslice. pose proof (resolve_range d (S s) (d - S s) ltac:(lia)) as R.
    replace (d - S s - S s) with (d - 2 * S s) in R by lia. rewrite <- R.
    unfold krange, resolve. cbn [Z.eqb]. change (0 <? 1)%Z with true. cbv zeta. cbn match.
    do 3 f_equal. f_equal. unfold clip_pos. 
    destruct (Z.ltb_spec (- Z.of_nat (S s)) 0); [|lia].
    destruct (Z.ltb_spec (Z.of_nat (d - S s)) 0); [lia|].
    destruct (Z.ltb_spec (- Z.of_nat (S s) + Z.of_nat d) 0); [lia|].
    repeat match goal with |- context [(?u <? ?v)%Z] => destruct (Z.ltb_spec u v) end; lia.
Qed.

Lemma chunk_nth {A} (d : A) m n : forall (l : list A) i j, List.length l = m * n -> i < m -> j < n ->
  nth j (nth i (chunk m n l) []) d = nth (n * i + j) l d.
Proof.
  induction m as [|m IH]; intros l i j Hl Hi Hj; [lia|]. cbn [chunk].
  destruct i as [|i]; cbn [nth].
  - rewrite Nat.mul_0_r. cbn [Nat.add].
    rewrite <- (firstn_skipn n l) at 2. rewrite app_nth1; [reflexivity|]. rewrite firstn_length. lia.
  - rewrite IH; [|rewrite skipn_length; lia|lia|lia].
    rewrite <- (firstn_skipn n l) at 2.
    rewrite app_nth2 by (rewrite firstn_length; nia).
    rewrite firstn_length. f_equal. replace (Nat.min n (List.length l)) with n by lia. lia.
Qed.
Lemma chunk_length {A} m n : forall (l : list A), List.length (chunk m n l) = m.
Proof. induction m as [|m IH]; intros l; cbn [chunk List.length]; [reflexivity|rewrite IH; reflexivity]. Qed.
Lemma chunk_row_length {A} m n : forall (l : list A) i, List.length l = m * n -> i < m -> List.length (nth i (chunk m n l) []) = n.
Proof.
  induction m as [|m IH]; intros l i Hl Hi; [lia|]. cbn [chunk]. destruct i as [|i]; cbn [nth].
  - rewrite firstn_length. lia.
  - apply IH; [rewrite skipn_length; lia|lia].
Qed.

Lemma map_seq_tab {A} (g : nat -> A) s n : map g (seq s n) = tab n (fun k => g (s + k)).
Proof.
  unfold tab. revert s. induction n as [|n IH]; intros s; [reflexivity|]. cbn [seq map].
  rewrite Nat.add_0_r. f_equal. rewrite IH, <- seq_shift, map_map. apply map_ext. intros k. f_equal. lia.
Qed.
Definition offset (n m : nat) : Z * Z :=
  (Z.of_nat (m / (2 * n + 1)) - Z.of_nat n, Z.of_nat (m mod (2 * n + 1)) - Z.of_nat n)%Z.

Lemma flat_rows {A} (f : nat -> nat -> A) a b : b <> 0 ->
  flat_map (fun i => map (f i) (seq 0 b)) (seq 0 a) = tab (a * b) (fun m => f (m / b) (m mod b)).
Proof.
  intros Hb. induction a as [|a IH]; [reflexivity|].
  rewrite seq_S, flat_map_app, IH. cbn [flat_map Nat.add]. rewrite app_nil_r.
  replace (S a * b) with (a * b + b) by lia. unfold tab. rewrite seq_app, map_app. cbn [Nat.add]. f_equal.
  rewrite (map_seq_tab (fun m => f (m / b) (m mod b))). unfold tab.
  apply map_ext_in. intros j Hj. apply in_seq in Hj.
  replace (a * b + j) with (j + a * b) by lia.
  rewrite Nat.div_add, Nat.mod_add, Nat.div_small, Nat.mod_small by lia. reflexivity.
Qed.
Lemma offsets_tab n : offsets n = tab ((2 * n + 1) * (2 * n + 1)) (offset n).
Proof.
  unfold offsets. cbv zeta. rewrite flat_map_concat_map, map_map, <- flat_map_concat_map.
  rewrite (flat_map_ext _ (fun i => map (fun j => (Z.of_nat i - Z.of_nat n, Z.of_nat j - Z.of_nat n)%Z) (seq 0 (2 * n + 1)))).
  2:{ intros i. rewrite map_map. reflexivity. }
  rewrite (flat_rows (fun i j => (Z.of_nat i - Z.of_nat n, Z.of_nat j - Z.of_nat n)%Z)) by lia. reflexivity.
Qed.

Section Cells.
  Context {T : Type} {NT : Num T} {LT : NumLaws T} {OT : NumOrd T} {FT : NumFl T} {FL : NumFlLaws T}.
  Add Field wcf : (@num_field T NT LT).
  Local Open Scope num_scope.

  Fixpoint npow (x : T) (n : nat) : T := match n with O => 1 | S n => x * npow x n end.
  Lemma npow_neq x n : x <> 0 -> npow x n <> 0.
  Proof.
    intros Hx. induction n as [|n IH]; cbn [npow].
    - apply (F_1_neq_0 num_field).
    - intros E. apply IH. replace (npow x n) with ((x * npow x n) / x) by (field; exact Hx).
      rewrite E. field. exact Hx.
  Qed.

  (** Accumulation over the visited cells. *)
  Section Rows.
    Context (ns : nat) (Q : T) (I : nat -> nat -> T).
    Fixpoint rows (m : nat) : list T :=
      match m with
      | O => repeat 0 ns
      | S m => tab ns (fun n => (get (rows m) n + I m n) / Q)
      end.
    Lemma rows_length m : List.length (rows m) = ns.
    Proof. destruct m; cbn [rows]; [apply repeat_length|apply tab_length]. Qed.
    Lemma rows_closed m n : Q <> 0 -> (n < ns)%nat ->
      get (rows m) n = sum m (fun l => I l n / npow Q (m - l)).
    Proof.
      intros HQ Hn. induction m as [|m IH].
      - cbn [rows sum]. unfold get. apply nth_repeat.
      - cbn [rows]. rewrite get_tab by exact Hn. rewrite IH. cbn [sum].
        replace (S m - m)%nat with 1%nat by lia.
        rewrite (sum_ext m (fun l => I l n / npow Q (S m - l)) (fun l => (1 / Q) * (I l n / npow Q (m - l)))).
        2:{ intros l Hl. replace (S m - l)%nat with (S (m - l)) by lia. cbn [npow].
            pose proof (npow_neq Q (m - l) HQ).
            field. auto. }
        rewrite sum_scale. cbn [npow]. field. exact HQ.
    Qed.
  End Rows.

  Section Grid3.
    Context (w : Wake T) (f : File T) (nt nx ny : nat) (dt : T) (zf dz : list T) (a : nat -> ndarray T) (len zmin zmax : T).
    Context (Hd : nltb 0 dt = true) (Hv : nltb 0 (wk_v w) = true).
    Context (Hmin : np_min zf = Ok zmin) (Hmax : np_max zf = Ok zmax).
    Context (Hsk : (2 * wk_skip w < List.length zf)%nat) (Hdz : (List.length zf - 2 * wk_skip w <= List.length dz)%nat).
    Context (Hsh : forall n, (n < nt)%nat -> shape (a n) = [nx; ny; List.length zf]).
    Context (Hx : (wk_ntc w <= nx / 2)%nat /\ (nx / 2 + wk_ntc w < nx)%nat).
    Context (Hy : (wk_ntc w <= ny / 2)%nat /\ (ny / 2 + wk_ntc w < ny)%nat).
    Context (Hsnap : forall n, (n < nt)%nat -> exists k, nth_error (keys f) n = Some k /\ find f k = Some (a n)).
    Notation sk := (wk_skip w).
    Notation nz := (List.length zf - 2 * wk_skip w)%nat.
    Notation M := (2 * wk_ntc w + 1)%nat.
    Let z : list T := tab nz (fun k => get zf (sk + k)).
    Notation su := (su_of w f nt dt zf z dz zmin zmax len).

    Lemma take_z : take (zslice sk) zf = Ok z.
    Proof. unfold take. rewrite zslice_resolve by (clear -Hsk; lia). cbn [bind]. f_equal. apply map_seq_tab. Qed.

    (** Ez of step [n] at transverse cell [i, j] and cell [k] of the path. *)
    Definition ez3 (n i j k : nat) : T := get (dat (a n)) (k + List.length zf * (j + ny * i)).
    Definition cellx (m : nat) : nat := (nx / 2 - wk_ntc w + m / M)%nat.
    Definition celly (m : nat) : nat := (ny / 2 - wk_ntc w + m mod M)%nat.

    Lemma cell_column_ok m n : (m < M * M)%nat -> (n < nt)%nat ->
      cell_column w su (offset (wk_ntc w) m) n = Ok (tab nz (fun k => ez3 n (cellx m) (celly m) (sk + k)%nat)).
    Proof.
      intros Hm Hn. unfold cell_column. destruct (Hsnap n Hn) as (key & K1 & K2).
      unfold dataset. cbn [su_keys su_f su_of]. unfold some. rewrite K1. cbn [bind]. rewrite K2. cbn [bind].
      rewrite (Hsh n Hn). unfold pick. rewrite (Hsh n Hn).
      assert (B1 : (m / M < M)%nat) by (apply Nat.div_lt_upper_bound; lia).
      assert (B2 : (m mod M < M)%nat) by (apply Nat.mod_upper_bound; lia).
      replace (Z.of_nat (nx / 2) + fst (offset (wk_ntc w) m))%Z with (Z.of_nat (cellx m)).
      2:{ unfold offset, cellx. cbn [fst]. lia. }
      replace (Z.of_nat (ny / 2) + snd (offset (wk_ntc w) m))%Z with (Z.of_nat (celly m)).
      2:{ unfold offset, celly. cbn [snd]. lia. }
      rewrite !resolve_nat by (unfold cellx, celly; lia). cbn [bind].
      rewrite zslice_resolve by lia. cbn [bind]. unfold column. cbn [su_z su_of].
      rewrite map_length, seq_length. unfold z. rewrite tab_length, Nat.eqb_refl. f_equal. apply map_seq_tab.
    Qed.

    (** The integral of transverse cell [m] at sample [n]. *)
    Definition cell_fwd (m n : nat) : T := sum nz (fun k =>
      let it := (Z.of_nat n + delay (wk_v w) dt (get zf (sk + k)) zmin)%Z in
      if (it <? Z.of_nat nt)%Z then ez3 (Z.to_nat it) (cellx m) (celly m) (sk + k) * get dz k else 0).
    Definition cell_bwd (m n : nat) : T := sum nz (fun k =>
      let k' := (sk + (nz - 1 - k))%nat in
      let it := (Z.of_nat n + delay (wk_v w) dt zmax (get zf k'))%Z in
      if (it <? Z.of_nat nt)%Z then ez3 (Z.to_nat it) (cellx m) (celly m) k' * (- (1) * get dz k) else 0).
    Definition cell_int : nat -> nat -> T := if wk_counter w then cell_bwd else cell_fwd.
    Notation ns := (List.length (su_s su)).
    Notation Q := (wk_q w * pico).

    Lemma z_len : List.length z = nz. Proof. apply tab_length. Qed.

    Lemma cell_step_ok m WP rs : (m < M * M)%nat -> List.length WP = ns ->
      cell_step w su (WP, rs) (offset (wk_ntc w) m)
      = Ok (tab ns (fun n => (get WP n + cell_int m n) / Q), rs ++ [tab ns (fun n => (get WP n + cell_int m n) / Q)]).
    Proof.
      intros Hm HW. unfold cell_step. change (su_nt su) with nt. change (su_nt0 su) with nt.
      set (cols := tab nt (fun n => tab nz (fun k => ez3 n (cellx m) (celly m) (sk + k)%nat))).
      rewrite (collect_tab _ (fun n => tab nz (fun k => ez3 n (cellx m) (celly m) (sk + k)%nat))).
      2:{ intros n Hn. apply cell_column_ok; assumption. }
      cbn [bind fst snd]. unfold padded. change (su_nt su) with nt. change (su_nt0 su) with nt.
      rewrite Nat.sub_diag. cbn [repeat]. rewrite app_nil_r. fold cols.
      assert (Hzl : (List.length z <= List.length dz)%nat) by (rewrite z_len; exact Hdz).
      assert (E : wp_loop ((if wk_counter w then wp_term_counter else wp_term) w su cols nt) w su WP
                  = Ok (tab ns (fun n => (get WP n + cell_int m n) / Q))).
      2:{ rewrite E. reflexivity. }
      unfold cell_int. destruct (wk_counter w).
      - rewrite wp_loop_ok with (c := bwd w su cols); auto.
        2:{ intros n acc k Hk. apply wp_term_counter_ok; auto. apply take_z. }
        f_equal. apply tab_ext. intros n Hn. do 2 f_equal. rewrite z_len. apply sum_ext. intros k Hk.
        unfold bwd. cbn [su_z su_zmax su_dt su_nt su_dz su_of]. rewrite z_len.
        assert (G : get z (nz - 1 - k) = get zf (sk + (nz - 1 - k))) by (unfold z; rewrite get_tab by lia; reflexivity).
        rewrite G. cbv zeta.
        assert (Hk' : (nz - 1 - k < List.length z)%nat) by (rewrite z_len; lia).
        pose proof (delay_nonneg _ _ _ _ Hv Hd (proj2 (z_range w zf z zmin zmax Hmin Hmax take_z (nz - 1 - k) Hk'))) as P.
        rewrite G in P.
        match goal with |- context [if (?u <? ?v)%Z then _ else _] => destruct (Z.ltb_spec u v) as [L|L] end; [|reflexivity].
        unfold cols. rewrite nth_tab by lia. rewrite get_tab by lia. reflexivity.
      - rewrite wp_loop_ok with (c := fwd w su cols); auto.
        2:{ intros n acc k Hk. apply wp_term_ok; auto. apply take_z. }
        f_equal. apply tab_ext. intros n Hn. do 2 f_equal. rewrite z_len. apply sum_ext. intros k Hk.
        unfold fwd. cbn [su_z su_zmin su_dt su_nt su_dz su_of].
        assert (G : get z k = get zf (sk + k)) by (unfold z; rewrite get_tab by lia; reflexivity).
        rewrite G. cbv zeta.
        assert (Hk' : (k < List.length z)%nat) by (rewrite z_len; lia).
        pose proof (delay_nonneg _ _ _ _ Hv Hd (proj1 (z_range w zf z zmin zmax Hmin Hmax take_z k Hk'))) as P.
        rewrite G in P.
        match goal with |- context [if (?u <? ?v)%Z then _ else _] => destruct (Z.ltb_spec u v) as [L|L] end; [|reflexivity].
        unfold cols. rewrite nth_tab by lia. rewrite get_tab by lia. reflexivity.
    Qed.

    Lemma cells_ok p : (p <= M * M)%nat ->
      seq_upd (cell_step w su) (repeat 0 ns, []) (tab p (offset (wk_ntc w)))
      = Ok (rows ns Q cell_int p, tab p (fun m => rows ns Q cell_int (S m))).
    Proof.
      induction p as [|p IH]; intros Hp; [reflexivity|].
      rewrite !tab_S.
      assert (A : forall l1 l2 s, seq_upd (cell_step w su) s (l1 ++ l2) = do b <- seq_upd (cell_step w su) s l1; seq_upd (cell_step w su) b l2).
      { induction l1 as [|x l1 I1]; intros l2 s; [reflexivity|]. cbn [app seq_upd].
        destruct (cell_step w su s x); [apply I1|reflexivity]. }
      rewrite A, IH by lia. cbn [bind seq_upd].
      rewrite cell_step_ok; [reflexivity|lia|apply rows_length].
    Qed.
  End Grid3.

  Definition s_axis (w : Wake T) (dt len : T) : list T :=
    tab (Z.to_nat (nceil ((len - - wk_ti w * wk_v w) / (dt * wk_v w))))
        (fun n => - wk_ti w * wk_v w + nofnat n * (dt * wk_v w)).

  Theorem long_WP_3d_spec (w : Wake T) f nt nx ny dt zf dz (a : nat -> ndarray T) len :
    wk_hf w = None -> wk_len w = Some len -> (2 * wk_skip w < List.length zf)%nat ->
    recorded f nt dt zf dz a -> (3 <= nt)%nat ->
    (forall n, (n < nt)%nat -> shape (a n) = [nx; ny; List.length zf]) ->
    (List.length zf - 2 * wk_skip w <= List.length dz)%nat -> nltb 0 dt = true -> nltb 0 (wk_v w) = true ->
    (wk_ntc w <= nx / 2)%nat /\ (nx / 2 + wk_ntc w < nx)%nat ->
    (wk_ntc w <= ny / 2)%nat /\ (ny / 2 + wk_ntc w < ny)%nat ->
    exists zmin zmax w' WP3, np_min zf = Ok zmin /\ np_max zf = Ok zmax /\ calc_long_WP_3d w (Some f) = Ok w' /\
      wk_s w' = Some (s_axis w dt len) /\ wk_WP3 w' = Some WP3 /\
      wk_WP w' = Some (nth (wk_ntc w) (nth (wk_ntc w) WP3 []) []) /\
      let M := (2 * wk_ntc w + 1)%nat in
      List.length WP3 = M /\
      (forall i, (i < M)%nat -> List.length (nth i WP3 []) = M) /\
      (forall i j, (i < M)%nat -> (j < M)%nat ->
        nth j (nth i WP3 []) [] = rows (List.length (s_axis w dt len)) (wk_q w * pico)
                                       (cell_int w nt nx ny dt zf dz a zmin zmax) (S (M * i + j))) /\
      wk_dx w' = wk_dx (read_Ez w f) /\ wk_dy w' = wk_dy (read_Ez w f) /\ wk_xf w' = wk_xf (read_Ez w f) /\
      wk_ntc w' = wk_ntc w /\ wk_save w' = wk_save w.
  Proof.
    intros Hf Hlen Hsk R Hnt Hsh Hdz Hd Hv Hx Hy.
    unfold calc_long_WP_3d. rewrite opened_fresh by exact Hf. cbn [bind]. set (w1 := read_Ez w f).
    assert (Ht : wk_t w1 = Some (tab nt (fun n => nofnat n * dt))). { cbn. unfold or_old. rewrite (rec_t _ _ _ _ _ _ R). reflexivity. }
    assert (Hz : wk_zf w1 = Some zf). { cbn. unfold or_old. rewrite (rec_z _ _ _ _ _ _ R). reflexivity. }
    assert (Hdz1 : wk_dz w1 = Some dz). { cbn. unfold or_old. rewrite (rec_dz _ _ _ _ _ _ R). reflexivity. }
    set (nz := (List.length zf - 2 * wk_skip w)%nat) in *.
    assert (Htk : take (zslice (wk_skip w1)) zf = Ok (tab nz (fun k => get zf (wk_skip w1 + k)))).
    { apply take_z. exact Hsk. }
    assert (Hne : zf <> []) by (intros ->; cbn in Hsk; lia).
    destruct (setup_ok w1 f nt dt zf _ dz len eq_refl Ht Hnt Hz Hne Hdz1 Hlen Hd Hv (rec_keys _ _ _ _ _ _ R) Htk)
      as (zmin & zmax & Hmin & Hmax & Hsu).
    rewrite Hsu. cbn [bind]. change (wk_ntc w1) with (wk_ntc w). rewrite offsets_tab.
    set (M := (2 * wk_ntc w + 1)%nat).
    pose proof (cells_ok w1 f nt nx ny dt zf dz a len zmin zmax Hd Hv Hmin Hmax Hsk Hdz Hsh Hx Hy (rec_snap _ _ _ _ _ _ R)
                  (M * M) (Nat.le_refl _)) as C.
    change (wk_ntc w1) with (wk_ntc w) in C. change (wk_skip w1) with (wk_skip w) in *. fold nz in C. fold nz.
    match goal with |- context [seq_upd ?g ?st ?l] => replace (seq_upd g st l) with (seq_upd (cell_step w1 (su_of w1 f nt dt zf (tab nz (fun k => get zf (wk_skip w + k)%nat)) dz zmin zmax len)) st l) by reflexivity end.
    rewrite C. cbn [bind snd].
    set (Rw := rows _ _ _) in *.
    exists zmin, zmax. eexists. eexists. split; [exact Hmin|]. split; [exact Hmax|]. split; [reflexivity|].
    split; [reflexivity|]. split; [reflexivity|]. split; [reflexivity|]. cbv zeta. fold M.
    assert (Ll : List.length (tab (M * M) (fun m => Rw (S m))) = (M * M)%nat) by apply tab_length.
    split; [apply chunk_length|]. split; [intros i Hi; apply chunk_row_length; assumption|].
    split.
    { intros i j Hi Hj. rewrite chunk_nth by assumption. rewrite nth_tab by nia. unfold Rw. f_equal. }
    repeat split.
  Qed.
End Cells.
