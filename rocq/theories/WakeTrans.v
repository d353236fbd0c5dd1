(** Lemmas: transverse wake potentials, whole transverse runs, coverage of the s axis. *)
From Coq Require Import List Arith ZArith Bool String Lia Ring Field.
From Verif Require Import Num Vec FieldModel FieldSpec FieldProofs FieldProofs2 GridModel SolverModel SolverBuild
  WakeModel WakeNum WakeProofs WakeCells WakeNames WakeRun.
Import ListNotations.

Section Trans.
  Context {T : Type} {NT : Num T} {LT : NumLaws T} {OT : NumOrd T} {FT : NumFl T} {FL : NumFlLaws T}.
  Add Field wtf : (@num_field T NT LT).
  Local Open Scope num_scope.

  Lemma fold_add_sum (v : list T) : forall acc, fold_left nadd v acc = acc + sum (List.length v) (get v).
  Proof.
    induction v as [|x v IH] using rev_ind; intros acc; cbn [fold_left List.length sum]; [ring|].
    rewrite fold_left_app, IH, app_length. cbn [fold_left List.length]. rewrite Nat.add_1_r. cbn [sum].
    rewrite (sum_ext _ (get (v ++ [x])) (get v)).
    2:{ intros i Hi. unfold get. apply app_nth1. exact Hi. }
    replace (get (v ++ [x]) (List.length v)) with x. 2:{ unfold get. rewrite app_nth2, Nat.sub_diag by lia. reflexivity. }
    ring.
  Qed.
  Lemma sum_before_sum (v : list T) n : (n <= List.length v)%nat -> sum_before v n = sum n (get v).
  Proof.
    intros H. unfold sum_before. rewrite fold_add_sum, firstn_length. replace (Nat.min n (List.length v)) with n by lia.
    rewrite (sum_ext n _ (get v)); [ring|]. intros i Hi. unfold get.
    rewrite <- (firstn_skipn n v) at 2. rewrite app_nth1; [reflexivity|]. rewrite firstn_length. lia.
  Qed.

  Lemma wp3_at_ok (W : list (list (list T))) i j M : List.length W = M -> (forall i, (i < M)%nat -> List.length (nth i W []) = M) ->
    (i < M)%nat -> (j < M)%nat -> wp3_at W i j = Ok (nth j (nth i W []) []).
  Proof.
    intros H1 H2 Hi Hj. unfold wp3_at, some. rewrite (nth_error_nth' W []) by lia. cbn [bind].
    rewrite (nth_error_nth' (nth i W []) []) by (rewrite H2; assumption). reflexivity.
  Qed.

  Theorem trans_spec (w : Wake T) (s : list T) ds (W : list (list (list T))) dx dy :
    let n0 := wk_ntc w in let M := (2 * n0 + 1)%nat in
    wk_s w = Some s -> (3 <= List.length s)%nat -> get s 2 - get s 1 = ds -> wk_WP3 w = Some W ->
    wk_dx w = Some dx -> wk_dy w = Some dy -> (1 <= n0)%nat -> (n0 < List.length dx)%nat -> (n0 < List.length dy)%nat ->
    List.length W = M -> (forall i, (i < M)%nat -> List.length (nth i W []) = M) ->
    (forall i j, (i < M)%nat -> (j < M)%nat -> List.length (nth j (nth i W []) []) = List.length s) ->
    exists w' WPx WPy, calc_trans_WP w = Ok w' /\ wk_WPx w' = Some WPx /\ wk_WPy w' = Some WPy /\
      WPx = tab (List.length s) (fun n =>
        - (sum n (fun m => get (nth n0 (nth (n0 + 1) W []) []) m - get (nth n0 (nth (n0 - 1) W []) []) m) * ds
           / (get dx (n0 - 1) + get dx n0))) /\
      WPy = tab (List.length s) (fun n =>
        - (sum n (fun m => get (nth (n0 + 1) (nth n0 W []) []) m - get (nth (n0 - 1) (nth n0 W []) []) m) * ds
           / (get dy (n0 - 1) + get dy n0))) /\
      wk_txt w' = (if wk_save w then wk_txt w ++ [("WPx.txt"%string, (s, WPx)); ("WPy.txt"%string, (s, WPx))] else wk_txt w).
  Proof.
    intros n0 M Hs H3 Hds HW Hdx Hdy Hn Hlx Hly L1 L2 L3. unfold calc_trans_WP.
    rewrite Hs, HW, Hdx, Hdy. cbn [some bind]. rewrite !item_get by lia. cbn [bind]. fold n0. rewrite Hds.
    destruct n0 as [|p] eqn:En; [lia|]. replace (S p - 1)%nat with p by lia.
    rewrite !(wp3_at_ok W _ _ M) by (try assumption; unfold M; lia). cbn [bind].
    rewrite !item_get by lia. cbn [bind].
    assert (G : forall i j i' j' d n, (i < M)%nat -> (j < M)%nat -> (i' < M)%nat -> (j' < M)%nat -> (n < List.length s)%nat ->
      - ((sum_before (nth j (nth i W []) []) n * ds - sum_before (nth j' (nth i' W []) []) n * ds) / d)
      = - (sum n (fun m => get (nth j (nth i W []) []) m - get (nth j' (nth i' W []) []) m) * ds / d)).
    { intros i j i' j' d n H1 H2 H4 H5 Hn'. rewrite !sum_before_sum by (rewrite L3 by assumption; lia).
      rewrite sum_sub. f_equal. f_equal. ring. }
    eexists. eexists. eexists. split; [reflexivity|]. split; [reflexivity|]. split; [reflexivity|].
    split; [|split].
    - apply tab_ext. intros n Hn'. apply G; unfold M; lia.
    - apply tab_ext. intros n Hn'. apply G; unfold M; lia.
    - reflexivity.
  Qed.

  (** Rounding down is monotone. *)
  Lemma fl_sub_nat n (x : T) : nfloor (x - nofnat n) = (nfloor x - Z.of_nat n)%Z.
  Proof. pose proof (fl_nat n (x - nofnat n)) as H. replace (nofnat n + (x - nofnat n)) with x in H by ring. lia. Qed.
  Lemma fl_Z z (x : T) : nfloor (x + nofZ z) = (nfloor x + z)%Z.
  Proof.
    destruct z as [|p|p]; unfold nofZ.
    - cbn [Z.to_nat nofnat]. replace (x + 0) with x by ring. lia.
    - replace (x + nofnat (Z.to_nat (Z.pos p))) with (nofnat (Z.to_nat (Z.pos p)) + x) by ring. rewrite fl_nat. lia.
    - replace (x + - nofnat (Z.to_nat (- Z.neg p))) with (x - nofnat (Z.to_nat (- Z.neg p))) by ring. rewrite fl_sub_nat. lia.
  Qed.
  Lemma fl_mono (x y : T) : nltb y x = false -> (nfloor x <= nfloor y)%Z.
  Proof.
    intros H. destruct (Z.le_gt_cases (nfloor x) (nfloor y)) as [|G]; [assumption|exfalso].
    set (z := (- nfloor x)%Z).
    assert (A : nltb (y + nofZ z) 0 = true). { apply fl_neg. rewrite fl_Z. lia. }
    assert (B : nltb (x + nofZ z) 0 = false). { apply nltb_nonneg. rewrite fl_Z. lia. }
    assert (C : nltb (y + nofZ z) (x + nofZ z) = true).
    { destruct (nltb 0 (x + nofZ z)) eqn:K; [eapply ol_trans; eassumption|]. rewrite (ol_total _ _ B K). exact A. }
    rewrite ol_add in C. congruence.
  Qed.
  Lemma fl_lower (x : T) n : nltb x (nofnat n) = false <-> (Z.of_nat n <= nfloor x)%Z.
  Proof.
    split; intros H.
    - pose proof (fl_mono _ _ H) as M. rewrite fl_nofnat in M. exact M.
    - pose proof (fl_sub_nat n x) as E.
      assert (K : nltb (x - nofnat n) 0 = false) by (apply nltb_nonneg; lia).
      rewrite <- (ol_add _ _ (nofnat n)) in K. replace (x - nofnat n + nofnat n) with x in K by ring.
      replace (0 + nofnat n) with (nofnat n : T) in K by ring. exact K.
  Qed.

  (** A sample at least one step before the end of the wake reads recorded steps only. *)
  Theorem coverage (w : Wake T) len dt zmax zmin z n :
    nltb 0 dt = true -> nltb 0 (wk_v w) = true -> nltb z zmin = false -> nltb zmax z = false ->
    nltb (len + wk_ti w * wk_v w) (nofnat (S n) * (dt * wk_v w)) = false ->
    (Z.of_nat n + delay (wk_v w) dt z zmin < wake_Nt w len dt zmax zmin)%Z.
  Proof.
    intros Hd Hv H1 H2 H. pose proof (pos_neq _ Hd) as Nd. pose proof (pos_neq _ Hv) as Nv.
    assert (P : nltb 0 (dt * wk_v w) = true) by (apply mul_pos; assumption).
    pose (A := (len + wk_ti w * wk_v w) / (dt * wk_v w)). pose (B := (zmax - zmin) / (wk_v w * dt)).
    assert (HA : nltb A (nofnat (S n)) = false).
    { rewrite <- H. rewrite <- (ol_mul A (nofnat (S n)) (dt * wk_v w) P). f_equal. unfold A. field. auto. }
    assert (HB : nltb B ((z - zmin) / (wk_v w * dt)) = false).
    { assert (P2 : nltb 0 (wk_v w * dt) = true) by (apply mul_pos; assumption).
      rewrite <- (ol_mul _ _ _ P2). unfold B.
      replace ((zmax - zmin) / (wk_v w * dt) * (wk_v w * dt)) with (zmax + - zmin) by (field; auto).
      replace ((z - zmin) / (wk_v w * dt) * (wk_v w * dt)) with (z + - zmin) by (field; auto).
      rewrite ol_add. exact H2. }
    assert (E : (len + wk_ti w * wk_v w + (zmax - zmin)) / wk_v w / dt = A + B) by (unfold A, B; field; auto).
    unfold wake_Nt. rewrite E.
    assert (L : nltb (A + B) (nofnat (S n) + (z - zmin) / (wk_v w * dt)) = false).
    { assert (L1 : nltb (A + B) (nofnat (S n) + B) = false) by (rewrite ol_add; exact HA).
      assert (L2 : nltb (nofnat (S n) + B) (nofnat (S n) + (z - zmin) / (wk_v w * dt)) = false).
      { replace (nofnat (S n) + B) with (B + nofnat (S n)) by ring.
        replace (nofnat (S n) + (z - zmin) / (wk_v w * dt)) with ((z - zmin) / (wk_v w * dt) + nofnat (S n)) by ring.
        rewrite ol_add. exact HB. }
      eapply le_trans; eassumption. }
    pose proof (fl_mono _ _ L) as F. rewrite fl_nat in F.
    pose proof (delay_nonneg _ _ _ _ Hv Hd H1) as D. unfold delay in *.
    rewrite trunc_nonneg.
    - lia.
    - apply nltb_nonneg. lia.
  Qed.

  (** The line integral along the path at transverse cell (i, j): step it of the record meets cell
      k of the path when the test charge at distance s_n passes it; [sk] cells are left out at each
      end; the widths are taken from the start of [dz]. *)
  Definition line_at (E : nat -> Field T) (v dt zmin : T) (zc dz : list T) (nt sk i j n : nat) : T :=
    sum (List.length zc - 2 * sk) (fun k =>
      let it := (Z.of_nat n + delay v dt (get zc (sk + k)) zmin)%Z in
      if (it <? Z.of_nat nt)%Z then entry (E (Z.to_nat it)) 2 i j (sk + k) * get dz k else 0).

  Lemma rows_ext ns (Q : T) I J : (forall m n, (n < ns)%nat -> I m n = J m n) -> forall m, rows ns Q I m = rows ns Q J m.
  Proof.
    intros H. induction m as [|m IH]; [reflexivity|]. cbn [rows]. rewrite IH. apply tab_ext. intros n Hn. rewrite H by exact Hn. reflexivity.
  Qed.

  Theorem run_3d (s : Solver T) g (w : Wake T) (a : WakeArgs T) s' f :
    wake_record s g w a = Ok (s', f) ->
    named (wa_plane a) "both" = true \/ named (wa_plane a) "transverse" = true ->
    wk_hf w = None -> wk_ntc w = 1%nat -> wk_counter w = false -> (2 * wk_skip w < sNz s)%nat ->
    nltb 0 (sdt s) = true -> nltb 0 (wk_v w) = true -> sNz s = gNz g -> wk_q w * pico <> 0 ->
    exists ixt iyt zmin zmax u b c,
      nearest (centres (gx g)) (wk_xtest w) = Ok ixt /\ nearest (centres (gy g)) (wk_ytest w) = Ok iyt /\
      np_min (centres (gz g)) = Ok zmin /\ np_max (centres (gz g)) = Ok zmax /\
      let Nt := Z.to_nat (wake_Nt w (wa_len a) (sdt s) zmax zmin) in
      let dt := sdt s in
      let ns := List.length (s_axis w dt (wa_len a)) in
      steps s (window (wa_plane a) ixt) (window (wa_plane a) iyt) (sNz s) (wa_beam a) (wa_cb a) Nt u b c /\
      ((3 <= Nt)%nat -> (Nt <= 10 ^ 5)%nat -> (1 <= ixt)%nat -> (1 <= iyt)%nat ->
       (forall n, (n < Nt)%nat -> (ixt + 1 < fNx (sE (b n)))%nat /\ (iyt + 1 < fNy (sE (b n)))%nat /\ fNz (sE (b n)) = sNz s) ->
       (3 <= ns)%nat -> (2 <= gNx g)%nat -> (2 <= gNy g)%nat ->
       exists w' WP3, solve_WP (wa_plane a) (with_len w (wa_len a)) (Some f) = Ok w' /\ wk_WP3 w' = Some WP3 /\
         wk_s w' = Some (s_axis w dt (wa_len a)) /\
         wk_WP w' = Some (nth 1 (nth 1 WP3 []) []) /\
         let I i j n := line_at (fun m => sE (b m)) (wk_v w) dt zmin (centres (gz g)) (widths (gz g)) Nt (wk_skip w)
                                (ixt - 1 + i) (iyt - 1 + j) n in
         (forall i j n, (i < 3)%nat -> (j < 3)%nat -> (n < ns)%nat ->
            get (nth j (nth i WP3 []) []) n
            = sum (S (3 * i + j))%nat (fun l => I (l / 3)%nat (l mod 3)%nat n / npow (wk_q w * pico) (S (3 * i + j) - l)%nat)) /\
         (wk_WPx w' = Some (tab ns (fun n =>
            - (sum n (fun m => get (nth 1 (nth 2 WP3 []) []) m - get (nth 1 (nth 0 WP3 []) []) m) * (dt * wk_v w)
               / (get (widths (gx g)) 0 + get (widths (gx g)) 1)))) /\
          wk_WPy w' = Some (tab ns (fun n =>
            - (sum n (fun m => get (nth 2 (nth 1 WP3 []) []) m - get (nth 0 (nth 1 WP3 []) []) m) * (dt * wk_v w)
               / (get (widths (gy g)) 0 + get (widths (gy g)) 1)))))).
  Proof.
    intros Hr Hpl Hhf Hntc Hcm Hsk Hd Hv HNz HQ.
    apply wake_record_inv in Hr; [|apply pos_neq; exact Hd].
    destruct Hr as (ixt & iyt & zmax & zmin & xs & ys & zs & Hx & Hy & Hmax & Hmin & Hxs & Hys & Hzs & Hp).
    cbv zeta in Hp. set (Nt := Z.to_nat (wake_Nt w (wa_len a) (sdt s) zmax zmin)) in *.
    destruct (record_steps _ _ _ _ _ _ _ _ _ Hp) as [St Ef].
    exists ixt, iyt, zmin, zmax. eexists. eexists. eexists.
    split; [exact Hx|]. split; [exact Hy|]. split; [exact Hmin|]. split; [exact Hmax|]. cbv zeta. fold Nt.
    split; [exact St|]. intros N3 N5 Hix Hiy Hsz H3 Hgx Hgy.
    set (u := u_ _ _ _ _ _ _ _) in *. set (b := b_ _ _ _ _ _ _ _) in *. set (c := a_ _ _ _ _ _ _ _) in *.
    assert (Ef2 : f = axes_file xs ys zs (widths (gx g)) (widths (gy g)) (widths (gz g)) (tab Nt (fun n => nofnat n * sdt s)) ++ map (fun n => (snap_key n, c n)) (seq 0 Nt)) by congruence.
    assert (Ez : zs = centres (gz g)).
    { rewrite take_all in Hzs; [congruence|]. rewrite centres_length. exact HNz. }
    subst zs. clear Ef.
    assert (Lz : List.length (centres (gz g)) = sNz s) by (rewrite centres_length; symmetry; exact HNz).
    assert (Wn : window (wa_plane a) ixt = KS (Some (Z.of_nat ixt - 1)%Z) (Some (Z.of_nat ixt + 2)%Z) None /\
                 window (wa_plane a) iyt = KS (Some (Z.of_nat iyt - 1)%Z) (Some (Z.of_nat iyt + 2)%Z) None).
    { unfold window. replace (named (wa_plane a) "longitudinal") with false; [split; reflexivity|].
      unfold named in *. destruct Hpl as [P|P]; apply String.eqb_eq in P; rewrite P; reflexivity. }
    destruct Wn as [Wx Wy].
    assert (Hc : forall n, (n < Nt)%nat -> shape (c n) = [3; 3; List.length (centres (gz g))] /\
      forall p q k, (p < 3)%nat -> (q < 3)%nat -> (k < sNz s)%nat ->
        get (dat (c n)) (k + sNz s * (q + 3 * p)) = entry (sE (b n)) 2 (ixt - 1 + p) (iyt - 1 + q) k).
    { intros n Hn. destruct (Hsz n Hn) as (X1 & X2 & X3). destruct St as [_ St]. destruct (St n Hn) as (_ & G & _).
      rewrite <- X3, Wx, Wy in G.
      destruct (read_window (sE (b n)) ixt iyt) as (a0 & G0 & G1 & G2); try lia. rewrite G0 in G. injection G as G. subst a0.
      rewrite X3 in *. rewrite Lz. split; assumption. }
    pose proof (run_recorded c xs ys (centres (gz g)) (widths (gx g)) (widths (gy g)) (widths (gz g)) (sdt s) Nt N5) as R.
    rewrite <- Ef2 in R.
    unfold solve_WP.
    assert (P1 : (named (wa_plane a) "both" || named (wa_plane a) "transverse")%bool = true) by (apply orb_true_iff; exact Hpl).
    rewrite P1.
    destruct (long_WP_3d_spec (with_len w (wa_len a)) f Nt 3 3 (sdt s) (centres (gz g)) (widths (gz g)) c (wa_len a) Hhf eq_refl)
      as (zmin' & zmax' & w2 & WP3 & Z1 & Z2 & Z3 & Z4 & Z5 & Z6 & Z7); auto.
    { cbn [wk_skip with_len]. rewrite Lz. exact Hsk. }
    { intros n Hn. apply Hc. exact Hn. }
    { cbn [wk_skip with_len]. rewrite centres_length, widths_length. lia. }
    { cbn [wk_ntc with_len]. rewrite Hntc. cbn. lia. }
    { cbn [wk_ntc with_len]. rewrite Hntc. cbn. lia. }
    assert (zmin' = zmin) by congruence. subst zmin'. assert (zmax' = zmax) by congruence. subst zmax'.
    rewrite Z3. cbn [bind].
    cbv zeta in Z7. cbn [wk_ntc with_len] in Z6, Z7. rewrite Hntc in Z6, Z7. change (2 * 1 + 1)%nat with 3%nat in Z7.
    destruct Z7 as (L1 & L2 & Z7 & Zx & Zy & _ & Zn & Zs).
    change (s_axis (with_len w (wa_len a)) (sdt s) (wa_len a)) with (s_axis w (sdt s) (wa_len a)) in *.
    set (ns := List.length (s_axis w (sdt s) (wa_len a))) in *.
    pose (I := fun i j n => line_at (fun m => sE (b m)) (wk_v w) (sdt s) zmin (centres (gz g)) (widths (gz g)) Nt (wk_skip w)
                                (ixt - 1 + i) (iyt - 1 + j) n).
    assert (EI : forall i j, (i < 3)%nat -> (j < 3)%nat -> nth j (nth i WP3 []) [] = rows ns (wk_q w * pico) (fun m => I (m / 3)%nat (m mod 3)%nat) (S (3 * i + j))).
    { intros i j Hi Hj. rewrite Z7 by assumption. cbn [wk_q with_len].
      assert (G : forall M0, (M0 <= 9)%nat -> rows ns (wk_q w * pico) (cell_int (with_len w (wa_len a)) Nt 3 3 (sdt s) (centres (gz g)) (widths (gz g)) c zmin zmax) M0
                = rows ns (wk_q w * pico) (fun m => I (m / 3)%nat (m mod 3)%nat) M0).
      { induction M0 as [|m0 IH]; intros Hm; [reflexivity|]. cbn [rows]. rewrite IH by lia. apply tab_ext. intros n Hn. f_equal. f_equal.
        unfold cell_int. cbn [wk_counter with_len]. rewrite Hcm. unfold cell_fwd, I, line_at. cbn [wk_skip wk_v with_len].
        apply sum_ext. intros k Hk.
        set (it := (Z.of_nat n + delay (wk_v w) (sdt s) (get (centres (gz g)) (wk_skip w + k)) zmin)%Z). cbv zeta. idtac.
        destruct (Z.ltb_spec it (Z.of_nat Nt)) as [L|L]; [|reflexivity].
        f_equal. unfold ez3. rewrite Lz. unfold cellx, celly. cbn [wk_ntc with_len]. rewrite Hntc.
        change (2 * 1 + 1)%nat with 3%nat. change (3 / 2 - 1)%nat with 0%nat. cbn [Nat.add].
        apply Hc.
        - assert (0 <= it)%Z. { apply Z.add_nonneg_nonneg; [lia|]. apply delay_nonneg; auto.
            apply (proj2 (np_min_le _ _ Hmin)). apply nth_In. lia. }
          lia.
        - apply Nat.div_lt_upper_bound; lia.
        - apply Nat.mod_upper_bound; lia.
        - rewrite Lz in Hk. lia. }
      apply G. lia. }
    clear Z7.
    assert (Gs : forall m, (m < ns)%nat -> get (s_axis w (sdt s) (wa_len a)) m = - wk_ti w * wk_v w + nofnat m * (sdt s * wk_v w)).
    { intros m Hm. unfold s_axis. unfold ns, s_axis in Hm. rewrite tab_length in Hm. rewrite get_tab by exact Hm. reflexivity. }
    destruct (trans_spec w2 (s_axis w (sdt s) (wa_len a)) (sdt s * wk_v w) WP3 (widths (gx g)) (widths (gy g)))
      as (w' & WPx & WPy & Et & T2 & T3 & T4 & T5 & _); auto.
    { rewrite !Gs by lia. cbn [nofnat]. ring. }
    { rewrite Zx. rewrite Ef2. reflexivity. }
    { rewrite Zy. rewrite Ef2. reflexivity. }
    { rewrite Zn. lia. }
    { rewrite Zn, widths_length. unfold gNx in Hgx. lia. }
    { rewrite Zn, widths_length. unfold gNy in Hgy. lia. }
    { rewrite Zn. exact L1. }
    { rewrite Zn. exact L2. }
    { rewrite Zn. intros i j Hi Hj. rewrite EI by assumption. apply rows_length. }
    assert (Keep : wk_WP3 w' = wk_WP3 w2 /\ wk_s w' = wk_s w2 /\ wk_WP w' = wk_WP w2).
    { unfold calc_trans_WP in Et.
      binv Et q0 Y0. binv Et q1 Y1. binv Et q2 Y2. binv Et q3 Y3. binv Et q4 Y4. binv Et q5 Y5.
      destruct (wk_ntc w2) as [|p]; [discriminate Et|].
      binv Et q6 Y6. binv Et q7 Y7. binv Et q8 Y8. binv Et q9 Y9. binv Et q10 Y10. binv Et q11 Y11. binv Et q12 Y12. binv Et q13 Y13.
      apply (f_equal (fun x => match x with Ok q => q | Err _ => w2 end)) in Et. subst w'. cbn [wk_WP3 wk_s wk_WP trans_done]. auto. }
    destruct Keep as (K1 & K2 & K3).
    exists w', WP3. split; [exact Et|].
    split; [rewrite K1; exact Z5|]. split; [rewrite K2; exact Z4|]. split; [rewrite K3; exact Z6|]. cbv zeta.
    split.
    { intros i j n Hi Hj Hn. rewrite EI by assumption. rewrite (rows_closed ns (wk_q w * pico) _ _ n HQ Hn). reflexivity. }
    rewrite T2, T3, T4, T5, Zn.
    cbn [Nat.add Nat.sub]. split; reflexivity.
  Qed.
End Trans.
