(** Lemmas: recording runs of a built solver complete, and what they compute. *)
From Coq Require Import List Arith ZArith Bool String Lia Ring Field.
From Verif Require Import Num Vec FieldModel FieldSpec FieldProofs FieldProofs2 GridModel SolverModel SolverBuild SolverKern SolverCons
  WakeModel WakeNum WakeProofs WakeCells WakeNames WakeRun WakeTrans.
Import ListNotations.

Section Total.
  Context {T : Type} {NT : Num T} {LT : NumLaws T} {OT : NumOrd T} {FT : NumFl T} {FL : NumFlLaws T}.
  Add Field wttf : (@num_field T NT LT).
  Local Open Scope num_scope.

  (** A source or callback that never fails and leaves a solver reached by steps, writes, resets
      and loads. *)
  Definition harmless (env : Env T) (g g' : Grid T) (ar : Args T) (u : T -> Solver T -> result (Solver T)) : Prop :=
    forall t s, made env g g' ar s -> exists s', u t s = Ok s' /\ made env g g' ar s'.

  Lemma made_dims env g g' ar (s : Solver T) : made env g g' ar s ->
    sNx s = gNx g /\ sNy s = gNy g /\ sNz s = gNz g /\
    fNx (sE s) = gNx g /\ fNy (sE s) = gNy g /\ fNz (sE s) = gNz g /\
    (0 < gNx g)%nat /\ (0 < gNy g)%nat /\ (0 < gNz g)%nat.
  Proof.
    intros H. pose proof (made_good _ _ _ _ _ H) as G. destruct (gd_E _ _ G) as (_ & X & Y & Z).
    cbn [kern_of kNx kNy kNz] in *.
    repeat split; try assumption; try apply (gd_x _ _ G); try apply (gd_y _ _ G); try apply (gd_z _ _ G);
      try apply (gd_px _ _ G); try apply (gd_py _ _ G); apply (gd_pz _ _ G).
  Qed.
  Lemma made_step env g g' ar (s : Solver T) : made env g g' ar s -> exists s', one_step s = Ok s' /\ made env g g' ar s'.
  Proof.
    intros H. destruct (step_good _ s (made_good _ _ _ _ _ H)) as (s' & E & _). exists s'. split; [exact E|].
    eapply made_op; [exact H|]. instantiate (1 := OStep). exact E.
  Qed.

  Lemma slice_ok d a b : exists l, resolve d (KS a b None) = Ok l.
  Proof. unfold resolve. cbn [Z.eqb Z.ltb]. eexists. reflexivity. Qed.
  Lemma window_ok plane d i : (i < d)%nat -> exists l, resolve d (window plane i) = Ok l.
  Proof.
    intros H. unfold window. destruct (named plane "longitudinal"); [|apply slice_ok].
    exists [i]. apply resolve_nat. exact H.
  Qed.

  Lemma nearest_ok (v : list T) p : (0 < List.length v)%nat -> exists i, nearest v p = Ok i /\ (i < List.length v)%nat.
  Proof.
    intros H. unfold nearest. destruct (argmin_ok (map (fun x => nabs (x - p)) v)) as [i Hi].
    - intros X. apply (f_equal (@List.length T)) in X. rewrite map_length in X. cbn in X. lia.
    - exists i. split; [exact Hi|]. apply argmin_spec in Hi. rewrite map_length in Hi. apply Hi.
  Qed.

  Theorem record_ok env g g' ar (s : Solver T) (w : Wake T) (a : WakeArgs T) :
    made env g g' ar s -> nltb 0 (sdt s) = true ->
    harmless env g g' ar (wa_beam a) -> harmless env g g' ar (wa_cb a) ->
    exists s' f, wake_record s g w a = Ok (s', f) /\ made env g g' ar s'.
  Proof.
    intros Hm Hd Hb Hc. destruct (made_dims _ _ _ _ _ Hm) as (N1 & N2 & N3 & _ & _ & _ & P1 & P2 & P3).
    unfold wake_record.
    assert (Lx : List.length (centres (gx g)) = gNx g) by (rewrite centres_length; reflexivity).
    assert (Ly : List.length (centres (gy g)) = gNy g) by (rewrite centres_length; reflexivity).
    assert (Lz : List.length (centres (gz g)) = gNz g) by (rewrite centres_length; reflexivity).
    destruct (nearest_ok (centres (gx g)) (wk_xtest w)) as (ixt & -> & Hx); [lia|].
    destruct (nearest_ok (centres (gy g)) (wk_ytest w)) as (iyt & -> & Hy); [lia|]. cbn [bind].
    destruct (np_max_ok (centres (gz g))) as [zmax ->]; [intros X; rewrite X in Lz; cbn in Lz; lia|].
    destruct (np_min_ok (centres (gz g))) as [zmin ->]; [intros X; rewrite X in Lz; cbn in Lz; lia|]. cbn [bind].
    destruct (window_ok (wa_plane a) _ _ Hx) as [lx Rx]. destruct (window_ok (wa_plane a) _ _ Hy) as [ly Ry].
    unfold take at 1. rewrite Rx. cbn [bind]. unfold take at 1. rewrite Ry. cbn [bind].
    unfold take at 1. unfold krange at 1. destruct (slice_ok (List.length (centres (gz g))) (Some 0%Z) (Some (Z.of_nat (sNz s)))) as [lz ->].
    cbn [bind]. rewrite arange_steps by (apply pos_neq; exact Hd). cbn [bind].
    match goal with |- context [seq_upd _ (s, ?h) (seq 0 ?n)] => generalize h; generalize n end. clear - LT Hm Hb Hc Rx Ry Lx Ly N3.
    intros n h. rewrite N3. assert (G : forall l s h, made env g g' ar s -> exists s' f, seq_upd (wake_iter (window (wa_plane a) ixt) (window (wa_plane a) iyt) (gNz g) (wa_beam a) (wa_cb a)) (s, h) l = Ok (s', f) /\ made env g g' ar s').
    { clear s Hm N3 h n. induction l as [|n l IH]; intros s h Hm; [exists s, h; split; [reflexivity|exact Hm]|].
      cbn [seq_upd]. unfold wake_iter at 1.
      destruct (Hb (nofnat n * sdt s) s Hm) as (s1 & -> & M1). cbn [bind].
      destruct (made_dims _ _ _ _ _ M1) as (_ & _ & _ & F1 & F2 & F3 & _).
      destruct (slice_ok (fNz (sE s1)) (Some 0%Z) (Some (Z.of_nat (gNz g)))) as [lz Rz].
      rewrite (getitem_z (sE s1) _ _ _ lx ly lz); [|rewrite F1, <- Lx; exact Rx|rewrite F2, <- Ly; exact Ry|exact Rz]. cbn [bind].
      destruct (made_step _ _ _ _ _ M1) as (s2 & -> & M2). cbn [bind].
      destruct (Hc (nofnat n * sdt s) s2 M2) as (s3 & -> & M3). cbn [bind].
      apply IH. exact M3. }
    apply G. exact Hm.
  Qed.

  (** The states of a run are built states. *)
  Lemma steps_made env g g' ar (s : Solver T) xx yy beam cb Nt u b c :
    made env g g' ar s -> harmless env g g' ar beam -> harmless env g g' ar cb ->
    steps s xx yy (gNz g) beam cb Nt u b c ->
    forall n, ((n <= Nt)%nat -> made env g g' ar (u n)) /\ ((n < Nt)%nat -> made env g g' ar (b n)).
  Proof.
    intros Hm Hb Hc [H0 Hs].
    assert (A : forall n, (n <= Nt)%nat -> made env g g' ar (u n)).
    { induction n as [|n IH]; intros Hn; [rewrite H0; exact Hm|].
      destruct (Hs n ltac:(lia)) as (B1 & _ & m & B2 & B3).
      destruct (Hb (nofnat n * sdt (u n)) (u n) (IH ltac:(lia))) as (s1 & E1 & M1). rewrite B1 in E1. injection E1 as <-.
      destruct (made_step _ _ _ _ _ M1) as (s2 & E2 & M2). rewrite B2 in E2. injection E2 as <-.
      destruct (Hc (nofnat n * sdt (u n)) m M2) as (s3 & E3 & M3). rewrite B3 in E3. injection E3 as <-. exact M3. }
    intros n. split; [apply A|]. intros Hn. destruct (Hs n Hn) as (B1 & _).
    destruct (Hb (nofnat n * sdt (u n)) (u n) (A n ltac:(lia))) as (s1 & E1 & M1). rewrite B1 in E1. injection E1 as <-. exact M1.
  Qed.

  Theorem total_long env g g' ar (s : Solver T) (w : Wake T) (a : WakeArgs T) :
    made env g g' ar s -> nltb 0 (sdt s) = true -> nltb 0 (wk_v w) = true ->
    harmless env g g' ar (wa_beam a) -> harmless env g g' ar (wa_cb a) ->
    named (wa_plane a) "longitudinal" = true -> wk_hf w = None -> wk_skip w = 0%nat ->
    exists ixt iyt zmin zmax,
      nearest (centres (gx g)) (wk_xtest w) = Ok ixt /\ nearest (centres (gy g)) (wk_ytest w) = Ok iyt /\
      np_min (centres (gz g)) = Ok zmin /\ np_max (centres (gz g)) = Ok zmax /\
      let Nt := Z.to_nat (wake_Nt w (wa_len a) (sdt s) zmax zmin) in
      ((3 <= Nt)%nat -> (Nt <= 10 ^ 5)%nat ->
       exists s' f w' u b c, wakesolve s g w a = Ok (s', f, w') /\
         steps s (KI (Z.of_nat ixt)) (KI (Z.of_nat iyt)) (gNz g) (wa_beam a) (wa_cb a) Nt u b c /\
         wk_s w' = Some (s_axis w (sdt s) (wa_len a)) /\
         wk_WP w' = Some (tab (List.length (s_axis w (sdt s) (wa_len a))) (fun n =>
           sum (gNz g) (fun k =>
             let it := (Z.of_nat n + delay (wk_v w) (sdt s) (get (centres (gz g)) k) zmin)%Z in
             if (it <? Z.of_nat Nt)%Z then entry (sE (b (Z.to_nat it))) 2 ixt iyt k * get (widths (gz g)) k else 0)
           / (wk_q w * pico)))).
  Proof.
    intros Hm Hd Hv Hb Hc Hpl Hf Hsk. destruct (made_dims _ _ _ _ _ Hm) as (N1 & N2 & N3 & _ & _ & _ & P1 & P2 & P3).
    destruct (record_ok env g g' ar s w a Hm Hd Hb Hc) as (s' & f & Hr & _).
    destruct (run_long s g w a s' f Hr Hpl Hf Hsk Hd Hv N3) as (ixt & iyt & zmin & zmax & u & b & c & Hx & Hy & Hmin & Hmax & St & R).
    exists ixt, iyt, zmin, zmax. repeat (split; [assumption|]). cbv zeta in *. intros H3 H5. rewrite N3 in *.
    pose proof (steps_made env g g' ar s _ _ _ _ _ _ _ _ Hm Hb Hc St) as M.
    assert (Bx : (ixt < gNx g)%nat). { apply argmin_spec in Hx. rewrite map_length, centres_length in Hx. apply Hx. }
    assert (By : (iyt < gNy g)%nat). { apply argmin_spec in Hy. rewrite map_length, centres_length in Hy. apply Hy. }
    destruct R as (w' & R1 & R2 & R3); try assumption.
    { intros n Hn. destruct (M n) as [_ Mn]. destruct (made_dims _ _ _ _ _ (Mn Hn)) as (_ & _ & _ & F1 & F2 & F3 & _).
      rewrite F1, F2, F3. auto. }
    exists s', f, w', u, b, c. split; [unfold wakesolve; rewrite Hr; cbn [bind snd]; rewrite R1; reflexivity|].
    split; [exact St|]. split; assumption.
  Qed.

  Theorem total_3d env g g' ar (s : Solver T) (w : Wake T) (a : WakeArgs T) :
    made env g g' ar s -> nltb 0 (sdt s) = true -> nltb 0 (wk_v w) = true ->
    harmless env g g' ar (wa_beam a) -> harmless env g g' ar (wa_cb a) ->
    named (wa_plane a) "both" = true \/ named (wa_plane a) "transverse" = true ->
    wk_hf w = None -> wk_ntc w = 1%nat -> wk_counter w = false -> (2 * wk_skip w < gNz g)%nat -> wk_q w * pico <> 0 ->
    exists ixt iyt zmin zmax,
      nearest (centres (gx g)) (wk_xtest w) = Ok ixt /\ nearest (centres (gy g)) (wk_ytest w) = Ok iyt /\
      np_min (centres (gz g)) = Ok zmin /\ np_max (centres (gz g)) = Ok zmax /\
      let Nt := Z.to_nat (wake_Nt w (wa_len a) (sdt s) zmax zmin) in
      let dt := sdt s in
      let ns := List.length (s_axis w dt (wa_len a)) in
      ((3 <= Nt)%nat -> (Nt <= 10 ^ 5)%nat -> (1 <= ixt)%nat -> (ixt + 1 < gNx g)%nat -> (1 <= iyt)%nat -> (iyt + 1 < gNy g)%nat ->
       (3 <= ns)%nat ->
       exists s' f w' u b c WP3, wakesolve s g w a = Ok (s', f, w') /\
         steps s (window (wa_plane a) ixt) (window (wa_plane a) iyt) (gNz g) (wa_beam a) (wa_cb a) Nt u b c /\
         wk_WP3 w' = Some WP3 /\ wk_s w' = Some (s_axis w dt (wa_len a)) /\
         wk_WP w' = Some (nth 1 (nth 1 WP3 []) []) /\
         let I i j n := line_at (fun m => sE (b m)) (wk_v w) dt zmin (centres (gz g)) (widths (gz g)) Nt (wk_skip w)
                                (ixt - 1 + i) (iyt - 1 + j) n in
         (forall i j n, (i < 3)%nat -> (j < 3)%nat -> (n < ns)%nat ->
            get (nth j (nth i WP3 []) []) n
            = sum (S (3 * i + j))%nat (fun l => I (l / 3)%nat (l mod 3)%nat n / npow (wk_q w * pico) (S (3 * i + j) - l)%nat)) /\
         wk_WPx w' = Some (tab ns (fun n =>
            - (sum n (fun m => get (nth 1 (nth 2 WP3 []) []) m - get (nth 1 (nth 0 WP3 []) []) m) * (dt * wk_v w)
               / (get (widths (gx g)) 0 + get (widths (gx g)) 1)))) /\
         wk_WPy w' = Some (tab ns (fun n =>
            - (sum n (fun m => get (nth 2 (nth 1 WP3 []) []) m - get (nth 0 (nth 1 WP3 []) []) m) * (dt * wk_v w)
               / (get (widths (gy g)) 0 + get (widths (gy g)) 1))))).
  Proof.
    intros Hm Hd Hv Hb Hc Hpl Hf Hn Hcm Hsk HQ. destruct (made_dims _ _ _ _ _ Hm) as (N1 & N2 & N3 & _ & _ & _ & P1 & P2 & P3).
    destruct (record_ok env g g' ar s w a Hm Hd Hb Hc) as (s' & f & Hr & _).
    rewrite <- N3 in Hsk.
    destruct (run_3d s g w a s' f Hr Hpl Hf Hn Hcm Hsk Hd Hv N3 HQ) as (ixt & iyt & zmin & zmax & u & b & c & Hx & Hy & Hmin & Hmax & St & R).
    exists ixt, iyt, zmin, zmax. repeat (split; [assumption|]). cbv zeta in *. intros H3 H5 X1 X2 Y1 Y2 Hns.
    rewrite N3 in St.
    pose proof (steps_made env g g' ar s _ _ _ _ _ _ _ _ Hm Hb Hc St) as M.
    destruct R as (w' & WP3 & R1 & R2 & R3 & R4 & R5 & R6); try assumption; try lia.
    { intros n Hn'. destruct (M n) as [_ Mn]. destruct (made_dims _ _ _ _ _ (Mn Hn')) as (_ & _ & _ & F1 & F2 & F3 & _).
      rewrite F1, F2, F3, N3. auto. }
    exists s', f, w', u, b, c, WP3. split; [unfold wakesolve; rewrite Hr; cbn [bind snd]; rewrite R1; reflexivity|].
    split; [exact St|]. repeat (split; [assumption|]). exact R6.
  Qed.

  Lemma wp_combine N (Q al be : T) (f g h : nat -> T) : Q <> 0 ->
    (forall k, (k < N)%nat -> (f k = 0 /\ g k = 0 /\ h k = 0) \/
       exists x y d, f k = x * d /\ g k = y * d /\ h k = (al * x + be * y) * d) ->
    sum N h / Q = al * (sum N f / Q) + be * (sum N g / Q).
  Proof.
    intros HQ H. assert (E : sum N h = al * sum N f + be * sum N g).
    { induction N as [|N IH]; cbn [sum]; [ring|]. rewrite IH by (intros k Hk; apply H; lia).
      destruct (H N ltac:(lia)) as [(-> & -> & ->)|(x & y & d & -> & -> & ->)]; ring. }
    rewrite E. field. exact HQ.
  Qed.

  (** A source that sets the current to a given array. *)
  Lemma write_harmless env g g' ar (h : T -> list T) :
    (forall t, List.length (h t) = (3 * (gNx g * gNy g * gNz g))%nat) ->
    harmless env g g' ar (fun t s => do_op s (OWriteJ (h t))).
  Proof.
    intros H t s Hm. pose proof (made_good _ _ _ _ _ Hm) as G.
    destruct (do_op_good _ s (OWriteJ (h t)) G) as (s' & E & _ & _).
    { left. rewrite H. reflexivity. }
    exists s'. split; [exact E|]. eapply made_op; eassumption.
  Qed.
  Lemma idle_harmless env g g' ar : harmless env g g' ar (fun _ s => Ok s).
  Proof. intros t s Hm. exists s. split; [reflexivity|exact Hm]. Qed.
  Lemma mul_opp_r (x y : T) : x * (- (1) * y) = - (x * y).
  Proof. ring. Qed.
  Lemma two_cells (Q i0 i1 x y : T) : Q <> 0 -> x = 0 + i0 / (Q * 1) -> y = 0 + i0 / (Q * (Q * 1)) + i1 / (Q * 1) ->
    x = i0 / Q /\ (y = i1 / Q <-> i0 = 0).
  Proof.
    intros HQ -> ->. split; [field; exact HQ|]. split; intros H.
    - replace i0 with ((0 + i0 / (Q * (Q * 1)) + i1 / (Q * 1)) * Q * Q - i1 / Q * Q * Q) by (field; exact HQ).
      rewrite H. ring.
    - subst i0. field. exact HQ.
  Qed.

  (** calc_long_WP on a record that holds a 3-D window: the column used. *)
  Theorem long_WP_window (w : Wake T) f nt nx ny dt zf dz (a : nat -> ndarray T) len :
    wk_hf w = None -> wk_len w = Some len -> (2 * wk_skip w < List.length zf)%nat ->
    recorded f nt dt zf dz a -> (3 <= nt)%nat ->
    (forall n, (n < nt)%nat -> shape (a n) = [nx; ny; List.length zf]) ->
    (List.length zf - 2 * wk_skip w <= List.length dz)%nat -> nltb 0 dt = true -> nltb 0 (wk_v w) = true ->
    (nx / 2 + 1 < nx)%nat -> (ny / 2 + 1 < ny)%nat ->
    exists zmin w', np_min zf = Ok zmin /\ calc_long_WP w (Some f) None = Ok w' /\
      wk_s w' = Some (s_axis w dt len) /\
      wk_WP w' = Some (tab (List.length (s_axis w dt len)) (fun n =>
        sum (List.length zf - 2 * wk_skip w) (fun k =>
           let it := (Z.of_nat n + delay (wk_v w) dt (get zf (wk_skip w + k)) zmin)%Z in
           if (it <? Z.of_nat nt)%Z
           then get (dat (a (Z.to_nat it))) ((wk_skip w + k) + List.length zf * ((ny / 2 + 1) + ny * (nx / 2 + 1))) * get dz k else 0)
        / (wk_q w * pico))).
  Proof.
    intros Hf Hlen Hsk R Hnt Hsh Hdz Hd Hv Hx Hy.
    unfold calc_long_WP. rewrite opened_fresh by exact Hf. cbn [bind]. set (w1 := read_Ez w f).
    assert (Ht : wk_t w1 = Some (tab nt (fun n => nofnat n * dt))). { cbn. unfold or_old. rewrite (rec_t _ _ _ _ _ _ R). reflexivity. }
    assert (Hz : wk_zf w1 = Some zf). { cbn. unfold or_old. rewrite (rec_z _ _ _ _ _ _ R). reflexivity. }
    assert (Hdz1 : wk_dz w1 = Some dz). { cbn. unfold or_old. rewrite (rec_dz _ _ _ _ _ _ R). reflexivity. }
    set (nz := (List.length zf - 2 * wk_skip w)%nat) in *. set (z := tab nz (fun k => get zf (wk_skip w + k)%nat)).
    assert (Htk : take (zslice (wk_skip w1)) zf = Ok z). { change (wk_skip w1) with (wk_skip w). apply take_z. exact Hsk. }
    assert (Hne : zf <> []) by (intros ->; cbn in Hsk; lia).
    destruct (setup_ok w1 f nt dt zf _ dz len eq_refl Ht Hnt Hz Hne Hdz1 Hlen Hd Hv (rec_keys _ _ _ _ _ _ R) Htk)
      as (zmin & zmax & Hmin & Hmax & Hsu).
    rewrite Hsu. cbn [bind]. set (su := su_of w1 f nt dt zf z dz zmin zmax len).
    assert (Hds : forall n, (n < nt)%nat -> dataset su n = Ok (a n)).
    { intros n Hn. destruct (rec_snap _ _ _ _ _ _ R n Hn) as (k & K1 & K2).
      unfold dataset. cbn [su su_keys su_f su_of]. unfold some. rewrite K1. cbn [bind]. rewrite K2. reflexivity. }
    rewrite (Hds 0%nat) by lia. cbn [bind]. rewrite (Hsh 0%nat) by lia. change (List.length [nx; ny; List.length zf]) with 3%nat.
    change (su_nt su) with nt.
    pose (e := fun n => tab nz (fun k => get (dat (a n)) ((wk_skip w + k) + List.length zf * ((ny / 2 + 1) + ny * (nx / 2 + 1))))).
    assert (Lz : List.length z = nz) by apply tab_length.
    rewrite (collect_tab _ e).
    2:{ intros n Hn. unfold long_column. rewrite Hds by exact Hn. cbn [bind]. rewrite (Hsh n Hn). unfold pick. rewrite (Hsh n Hn).
        rewrite !resolve_nat by assumption. cbn [bind]. change (wk_skip w1) with (wk_skip w).
        rewrite zslice_resolve by lia. cbn [bind]. unfold column. change (su_z su) with z.
        rewrite map_length, seq_length, Lz, Nat.eqb_refl. f_equal. apply map_seq_tab. }
    cbn [bind]. assert (Hzl : (List.length z <= List.length dz)%nat) by (rewrite Lz; exact Hdz).
    unfold su.
    rewrite wp_loop_ok with (c := fwd w1 (su_of w1 f nt dt zf z dz zmin zmax len) (tab nt e)); auto.
    2:{ intros n acc k Hk. apply wp_term_ok; auto. }
    2:{ apply repeat_length. }
    fold su. cbn [bind]. exists zmin. eexists. split; [exact Hmin|]. split; [reflexivity|].
    split; [reflexivity|]. cbn [wk_WP long_done]. f_equal. unfold s_axis. cbn [su su_s su_of]. rewrite !tab_length.
    change (wk_ti w1) with (wk_ti w). change (wk_v w1) with (wk_v w). change (wk_q w1) with (wk_q w).
    apply tab_ext. intros n Hn. f_equal.
    replace (get (repeat 0 _) n) with (0 : T).
    2:{ unfold get. symmetry. apply nth_repeat. }
    fold nz. rewrite Lz.
    match goal with |- 0 + sum nz ?h = sum nz ?g => rewrite (sum_ext nz h g); [ring|] end.
    intros k Hk. unfold fwd. cbn [su su_z su_zmin su_dt su_nt su_dz su_of].
    assert (G : get z k = get zf (wk_skip w + k)%nat) by (unfold z; rewrite get_tab by exact Hk; reflexivity). rewrite G.
    change (wk_v w1) with (wk_v w).
    assert (Hk' : (k < List.length z)%nat) by lia.
    pose proof (delay_nonneg _ _ _ _ Hv Hd (proj1 (z_range w1 zf z zmin zmax Hmin Hmax Htk k Hk'))) as P. rewrite G in P.
    cbv zeta.
    destruct (Z.ltb_spec (Z.of_nat n + delay (wk_v w) dt (get zf (wk_skip w + k)) zmin) (Z.of_nat nt)) as [L|L]; [|reflexivity].
    rewrite nth_tab by lia. unfold e. rewrite get_tab by exact Hk. reflexivity.
  Qed.

  (** Skipped cells on a longitudinal record: the stored columns are longer than the cropped axis. *)
  Theorem skip_fails (w : Wake T) f nt dt zf dz (a : nat -> list T) len :
    wk_hf w = None -> wk_len w = Some len -> (0 < wk_skip w)%nat -> (2 * wk_skip w < List.length zf)%nat ->
    recorded f nt dt zf dz (fun n => vec (a n)) -> (3 <= nt)%nat ->
    (forall n, (n < nt)%nat -> List.length (a n) = List.length zf) ->
    nltb 0 dt = true -> nltb 0 (wk_v w) = true ->
    calc_long_WP w (Some f) None = Err ValueError.
  Proof.
    intros Hf Hlen Hs0 Hsk R Hnt Ha Hd Hv.
    unfold calc_long_WP. rewrite opened_fresh by exact Hf. cbn [bind]. set (w1 := read_Ez w f).
    assert (Ht : wk_t w1 = Some (tab nt (fun n => nofnat n * dt))). { cbn. unfold or_old. rewrite (rec_t _ _ _ _ _ _ R). reflexivity. }
    assert (Hz : wk_zf w1 = Some zf). { cbn. unfold or_old. rewrite (rec_z _ _ _ _ _ _ R). reflexivity. }
    assert (Hdz1 : wk_dz w1 = Some dz). { cbn. unfold or_old. rewrite (rec_dz _ _ _ _ _ _ R). reflexivity. }
    set (nz := (List.length zf - 2 * wk_skip w)%nat) in *. set (z := tab nz (fun k => get zf (wk_skip w + k)%nat)).
    assert (Htk : take (zslice (wk_skip w1)) zf = Ok z). { change (wk_skip w1) with (wk_skip w). apply take_z. exact Hsk. }
    assert (Hne : zf <> []) by (intros ->; cbn in Hsk; lia).
    destruct (setup_ok w1 f nt dt zf _ dz len eq_refl Ht Hnt Hz Hne Hdz1 Hlen Hd Hv (rec_keys _ _ _ _ _ _ R) Htk)
      as (zmin & zmax & Hmin & Hmax & Hsu).
    rewrite Hsu. cbn [bind]. set (su := su_of w1 f nt dt zf z dz zmin zmax len).
    assert (Hds : forall n, (n < nt)%nat -> dataset su n = Ok (vec (a n))).
    { intros n Hn. destruct (rec_snap _ _ _ _ _ _ R n Hn) as (k & K1 & K2).
      unfold dataset. cbn [su su_keys su_f su_of]. unfold some. rewrite K1. cbn [bind]. rewrite K2. reflexivity. }
    rewrite (Hds 0%nat) by lia. cbn [bind]. change (List.length (shape (vec (a 0%nat)))) with 1%nat.
    change (su_nt su) with nt. destruct nt as [|nt]; [lia|]. unfold collect. cbn [seq seq_upd].
    unfold long_column at 1. rewrite Hds by lia. cbn [bind vec shape dat]. unfold column. change (su_z su) with z.
    assert (Lz : List.length z = nz) by apply tab_length. rewrite Lz, Ha by lia.
    destruct (Nat.eqb_spec (List.length zf) nz) as [E|_]; [unfold nz in E; lia|].
    destruct (Nat.eqb_spec (List.length zf) 1) as [E|_]; [lia|]. reflexivity.
  Qed.

  (** The names in the file of a run, sorted. *)
  Theorem run_keys (s : Solver T) g (w : Wake T) (a : WakeArgs T) s' f :
    wake_record s g w a = Ok (s', f) -> sdt s <> 0 ->
    exists zmin zmax ixt iyt u b c,
      np_min (centres (gz g)) = Ok zmin /\ np_max (centres (gz g)) = Ok zmax /\
      let Nt := Z.to_nat (wake_Nt w (wa_len a) (sdt s) zmax zmin) in
      steps s (window (wa_plane a) ixt) (window (wa_plane a) iyt) (sNz s) (wa_beam a) (wa_cb a) Nt u b c /\
      keys f = sort_names (meta_order ++ map snap_key (seq 0 Nt)) /\
      find f "t" = Some (vec (tab Nt (fun n => nofnat n * sdt s))) /\
      ((Nt <= 10 ^ 5)%nat -> keys f = map snap_key (seq 0 Nt) ++ meta_keys /\
        forall n, (n < Nt)%nat -> find f (snap_key n) = Some (c n)).
  Proof.
    intros Hr Hd. apply wake_record_inv in Hr; [|exact Hd].
    destruct Hr as (ixt & iyt & zmax & zmin & xs & ys & zs & Hx & Hy & Hmax & Hmin & Hxs & Hys & Hzs & Hp).
    cbv zeta in Hp. destruct (record_steps _ _ _ _ _ _ _ _ _ Hp) as [St Ef].
    exists zmin, zmax, ixt, iyt. do 3 eexists. split; [exact Hmin|]. split; [exact Hmax|]. cbv zeta. split; [exact St|].
    set (Nt := Z.to_nat (wake_Nt w (wa_len a) (sdt s) zmax zmin)) in *. set (c := a_ _ _ _ _ _ _ _) in *.
    apply (f_equal snd) in Ef. cbn [snd] in Ef.
    assert (K : keys f = sort_names (meta_order ++ map snap_key (seq 0 Nt))).
    { rewrite Ef. unfold keys. rewrite map_app, map_map. reflexivity. }
    split; [exact K|]. split; [rewrite Ef; reflexivity|].
    intros H5. split; [rewrite K; apply sort_run; exact H5|]. intros n Hn. rewrite Ef, find_app, axes_find.
    apply find_snap; assumption.
  Qed.

  Lemma setup_nt (w : Wake T) f su Nt dt : find f "t" = Some (vec (tab Nt (fun n => nofnat n * dt))) ->
    setup (read_Ez w f) = Ok su ->
    su_nt su = (if (List.length (keys f) - 4 <? Nt)%nat then (List.length (keys f) - 4)%nat else Nt) /\ su_keys su = keys f /\ su_f su = f.
  Proof.
    intros Ft Hs. unfold setup in Hs.
    assert (E : wk_t (read_Ez w f) = Some (tab Nt (fun n => nofnat n * dt))) by (cbn; unfold or_old; rewrite Ft; reflexivity).
    rewrite E in Hs. cbn [some bind] in Hs.
    repeat match type of Hs with (do x <- ?r; _) = _ => destruct r eqn:?; [cbn [bind] in Hs|discriminate Hs] end.
    change (wk_hf (read_Ez w f)) with (Some f) in *.
    match goal with H : some AttributeError (Some f) = Ok ?z |- _ => cbn [some] in H; injection H as <- end.
    apply (f_equal (fun r => match r with Ok x => x | Err _ => su end)) in Hs. subst su.
    cbn [su_nt su_keys su_f]. rewrite tab_length. auto.
  Qed.

  Lemma supplied_same (w : Wake T) disk E E' : calc_long_WP w disk (Some E) = calc_long_WP w disk (Some E').
  Proof.
    unfold calc_long_WP. cbn [bind]. change (setup (with_Ezt w E')) with (setup (with_Ezt w E)).
    destruct (setup (with_Ezt w E)) as [su|]; [cbn [bind]|reflexivity].
    destruct (dataset su 0) as [a0|]; [cbn [bind]|reflexivity].
    change (long_column (with_Ezt w E') su (List.length (shape a0))) with (long_column (with_Ezt w E) su (List.length (shape a0))).
    destruct (collect (long_column (with_Ezt w E) su (List.length (shape a0))) (seq 0 (su_nt su))) as [cols|]; [cbn [bind]|reflexivity].
    change (wp_loop (wp_term (with_Ezt w E') su cols (su_nt su)) (with_Ezt w E') su) with (wp_loop (wp_term (with_Ezt w E) su cols (su_nt su)) (with_Ezt w E) su).
    destruct (wp_loop (wp_term (with_Ezt w E) su cols (su_nt su)) (with_Ezt w E) su (repeat 0 (List.length (su_s su)))) as [WP|]; reflexivity.
  Qed.
End Total.
