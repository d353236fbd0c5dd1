(** Properties C71 and C76 to C80: transverse window, gradient, end of the record, skipped cells,
    counter-moving path. *)
From Coq Require Import List Arith ZArith Bool String Lia QArith Qcanon.
From Verif Require Import Num Vec FieldModel FieldSpec FieldProofs GridModel SolverModel SolverKern SolverCons SolverKit
  WakeModel WakeNum WakeProofs WakeCells WakeNames WakeRun WakeTrans WakeTotal WakeWin WakeProps.
Import ListNotations.
Open Scope nat_scope.

(** ** C71.  Full claim: the recorded window has three cells centred on the cell nearest to the test
    position.  True when that cell is not at an edge. *)
Theorem C71_inner_partial : forall (T : Type) (NT : Num T) (LT : NumLaws T) (OT : NumOrd T) (FT : NumFl T) (FL : NumFlLaws T)
    (s : Solver T) g (w : Wake T) (a : WakeArgs T) s' f,
  wake_record s g w a = Ok (s', f) -> sdt s <> nzero -> named (wa_plane a) "longitudinal" = false ->
  exists i j, i < gNx g /\ j < gNy g /\
    (forall l, l < gNx g -> nltb (nabs (get (centres (gx g)) l - wk_xtest w)) (nabs (get (centres (gx g)) i - wk_xtest w)) = false)%num /\
    (forall l, l < gNy g -> nltb (nabs (get (centres (gy g)) l - wk_ytest w)) (nabs (get (centres (gy g)) j - wk_ytest w)) = false)%num /\
    (1 <= i -> i + 1 < gNx g -> find f "x" = Some (vec [get (centres (gx g)) (i - 1); get (centres (gx g)) i; get (centres (gx g)) (i + 1)])) /\
    (1 <= j -> j + 1 < gNy g -> find f "y" = Some (vec [get (centres (gy g)) (j - 1); get (centres (gy g)) j; get (centres (gy g)) (j + 1)])).
Proof.
  intros T NT LT OT FT FL s g w a s' f H Hd Hp.
  destruct (run_axes s g w a s' f H Hd) as (i & j & zmax & zmin & xs & ys & zs & u & b & c & Hi & Hj & _ & _ & Tx & Ty & Fx & Fy & _).
  apply nearest_spec in Hi. apply nearest_spec in Hj.
  assert (Lx : List.length (centres (gx g)) = gNx g) by (rewrite centres_length; reflexivity).
  assert (Ly : List.length (centres (gy g)) = gNy g) by (rewrite centres_length; reflexivity).
  rewrite Lx in Hi. rewrite Ly in Hj. destruct Hi as [Hi Ni]. destruct Hj as [Hj Nj].
  exists i, j. do 4 (split; [assumption|]). unfold window in Tx, Ty. rewrite Hp in Tx, Ty. unfold take in Tx, Ty. split.
  - intros P1 P2. rewrite window_range in Tx by (rewrite ?Lx; assumption). cbn [bind map] in Tx. injection Tx as <-. exact Fx.
  - intros P1 P2. rewrite window_range in Ty by (rewrite ?Ly; assumption). cbn [bind map] in Ty. injection Ty as <-. exact Fy.
Qed.
Print Assumptions C71_inner_partial.

(** At the first cell the window is empty and the wake potential cannot be computed; at the last cell
    it has two cells. *)
Theorem C71_edges : forall (T : Type) (NT : Num T) (LT : NumLaws T) (OT : NumOrd T) (FT : NumFl T) (FL : NumFlLaws T)
    env g g' ar (s : Solver T) (w : Wake T) (a : WakeArgs T) i zmin zmax,
  made env g g' ar s -> nltb nzero (sdt s) = true -> harmless env g g' ar (wa_beam a) -> harmless env g g' ar (wa_cb a) ->
  wk_hf w = None -> (named (wa_plane a) "both" || named (wa_plane a) "transverse" = true)%bool -> named (wa_plane a) "longitudinal" = false ->
  nearest (centres (gx g)) (wk_xtest w) = Ok i -> 3 <= gNx g ->
  np_min (centres (gz g)) = Ok zmin -> np_max (centres (gz g)) = Ok zmax ->
  Z.to_nat (wake_Nt w (wa_len a) (sdt s) zmax zmin) <= 10 ^ 5 ->
  exists s' f, wake_record s g w a = Ok (s', f) /\
    (i = 0 -> find f "x" = Some (vec []) /\ forall r, wakesolve s g w a <> Ok r) /\
    (i = gNx g - 1 -> find f "x" = Some (vec [get (centres (gx g)) (i - 1); get (centres (gx g)) i])).
Proof.
  intros T NT LT OT FT FL env g g' ar s w a i zmin zmax Hm Hd Hb Hc Hf Hp Hl Hi Hn Hmin Hmax H5.
  destruct (record_ok env g g' ar s w a Hm Hd Hb Hc) as (s' & f & E & _). exists s', f. split; [exact E|].
  pose proof (pos_neq _ Hd) as Hd0.
  destruct (run_axes s g w a s' f E Hd0) as (i' & j & zmax' & zmin' & xs & ys & zs & u & b & c & Hi' & Hj & Hx' & Hn' & Tx & Ty & Fx & Fy & St & Ef).
  assert (i' = i) by congruence. assert (zmin' = zmin) by congruence. assert (zmax' = zmax) by congruence. subst i' zmin' zmax'.
  assert (Lx : List.length (centres (gx g)) = gNx g) by (rewrite centres_length; reflexivity).
  pose proof (nearest_spec _ _ _ Hi) as [Bi _].
  unfold window at 1 in Tx. rewrite Hl in Tx. unfold take in Tx. rewrite Lx in Tx. split.
  - intros ->. rewrite window_first in Tx by exact Hn. cbn [bind map] in Tx. injection Tx as <-. split; [exact Fx|].
    intros r Hr. unfold wakesolve in Hr. rewrite E in Hr. cbn [bind snd] in Hr.
    unfold solve_WP in Hr. rewrite Hp in Hr.
    destruct (calc_long_WP_3d (with_len w (wa_len a)) (Some f)) as [w1|] eqn:C; [|discriminate Hr].
    set (Nt := Z.to_nat (wake_Nt w (wa_len a) (sdt s) zmax zmin)) in *.
    assert (Fx2 := Hf). pose proof C as C0. unfold calc_long_WP_3d in C0. rewrite opened_fresh in C0 by exact Hf. cbn [bind] in C0.
    destruct (setup (read_Ez (with_len w (wa_len a)) f)) as [su|] eqn:Hs; [|discriminate C0].
    assert (Ft : find f "t" = Some (vec (tab Nt (fun n => nofnat n * sdt s)%num))) by (rewrite Ef; reflexivity).
    assert (K : keys f = map snap_key (seq 0 Nt) ++ meta_keys).
    { rewrite Ef. unfold keys. rewrite map_app, map_map. cbn [fst]. apply sort_run. exact H5. }
    destruct (setup_nt _ f su Nt (sdt s) Ft Hs) as (X1 & X2 & X3).
    rewrite K, app_length, map_length, seq_length in X1. cbn [meta_keys List.length] in X1.
    assert (L3 : 3 <= Nt).
    { unfold setup in Hs. assert (Q : wk_t (read_Ez (with_len w (wa_len a)) f) = Some (tab Nt (fun n => nofnat n * sdt s)%num)) by (cbn; unfold or_old; rewrite Ft; reflexivity).
      rewrite Q in Hs. cbn [some bind] in Hs. unfold item in Hs.
      destruct (nth_error (tab Nt (fun n => nofnat n * sdt s)%num) 2) eqn:N; [|discriminate Hs].
      assert (V : nth_error (tab Nt (fun n => nofnat n * sdt s)%num) 2 <> None) by congruence. apply nth_error_Some in V. rewrite tab_length in V. lia. }
    destruct (Nat.ltb_spec (Nt + 7 - 4) Nt); [lia|].
    refine (empty_cells (with_len w (wa_len a)) f su w1 Hf Hs _ _ C); [lia|].
    assert (Sh : exists ny nz, shape (c 0) = [0; ny; nz]).
    { cbv zeta in St. destruct St as [S0 St]. destruct (St 0) as (_ & G & _); [lia|].
      assert (Mb : made env g g' ar (b 0)).
      { destruct (St 0) as (B & _); [lia|]. rewrite S0 in B. destruct (Hb (nofnat 0 * sdt s)%num s Hm) as (s1 & B1 & M1). congruence. }
      destruct (made_dims _ _ _ _ _ Mb) as (_ & _ & _ & F1 & F2 & F3 & _).
      destruct (slice_ok (fNz (sE (b 0))) (Some 0%Z) (Some (Z.of_nat (sNz s)))) as [lz Rz].
      destruct (nearest_spec _ _ _ Hj) as [Bj _]. rewrite centres_length in Bj. fold (gNy g) in Bj.
      destruct (window_ok (wa_plane a) (gNy g) j Bj) as [ly Ry].
      assert (Ry' : resolve (fNy (sE (b 0))) (window (wa_plane a) j) = Ok ly) by (rewrite F2; exact Ry).
      assert (Rx' : resolve (fNx (sE (b 0))) (window (wa_plane a) 0) = Ok []).
      { rewrite F1. unfold window. rewrite Hl. apply window_first. exact Hn. }
      rewrite (getitem_z (sE (b 0)) _ _ _ _ _ _ Rx' Ry' Rz) in G. injection G as G. rewrite <- G. cbn [shape].
      unfold window. rewrite Hl. unfold krange. cbn [keep3 List.length]. do 2 eexists. reflexivity. }
    destruct Sh as (ny & nz & Sh). exists (c 0), ny, nz. split; [|exact Sh].
    unfold dataset. rewrite X2, X3, K. destruct Nt as [|nt] eqn:EN; [lia|]. cbn [seq map app nth_error some bind].
      rewrite Ef, find_app, axes_find, (find_snap c (S nt) 0) by lia. reflexivity.
  - intros ->. rewrite window_last in Tx by lia. cbn [bind map] in Tx. injection Tx as <-. rewrite Fx.
    replace (gNx g - 1 - 1) with (gNx g - 2) by lia. reflexivity.
Qed.
Print Assumptions C71_edges.

(** Witnesses: the electric box, test position nearest to the first cell or inside. *)
Definition wxQ (x : Qc) : Wake Qc :=
  wake_init envQ (q 8 1) (q 1 1) (q 1 1) (q 1 1) x (q 2 1) (Some (q 1 2)) None 0 false true.
Definition runbQ (l : Qc) : WakeArgs Qc :=
  {| wa_plane := "both"; wa_len := l; wa_beam := fun t s => do_op s (OWriteJ (ramp 2)); wa_cb := fun _ s => Ok s |}.
Lemma gzQ_ne : centres (gz gridQ) <> [].
Proof. intros H. apply (f_equal (@List.length Qc)) in H. rewrite centres_length in H. discriminate H. Qed.
Theorem C71_refuted : exists env g g' ar (s s' : Solver Qc) (w : Wake Qc) (a : WakeArgs Qc) f,
  made env g g' ar s /\ gNx g = 3 /\ named (wa_plane a) "both" = true /\ wk_hf w = None /\
  wake_record s g w a = Ok (s', f) /\ find f "x" = Some (vec []) /\ forall r, wakesolve s g w a <> Ok r.
Proof.
  destruct boxQ_made as (g' & s & Hm & Hd).
  destruct (np_min_ok (centres (gz gridQ))) as [zmin Hmin]; [apply gzQ_ne|].
  destruct (np_max_ok (centres (gz gridQ))) as [zmax Hmax]; [apply gzQ_ne|].
  destruct (C71_edges Qc _ _ _ _ _ envQ gridQ g' boxQ s (wxQ (q 1 4)) (runbQ (q 1 1)) 0 zmin zmax Hm) as (s' & f & E & A & _).
  - rewrite Hd. reflexivity.
  - apply ramp_harmless.
  - apply idle_harmless.
  - reflexivity.
  - reflexivity.
  - reflexivity.
  - vm_compute. reflexivity.
  - apply Nat.leb_le. vm_compute. reflexivity.
  - exact Hmin.
  - exact Hmax.
  - rewrite Hd.
    assert (V : match np_min (centres (gz gridQ)), np_max (centres (gz gridQ)) with
                | Ok lo, Ok hi => wake_Nt (wxQ (q 1 4)) (wa_len (runbQ (q 1 1))) (q 1 4) hi lo | _, _ => 0%Z end = 16%Z) by (vm_compute; reflexivity).
    rewrite Hmin, Hmax in V. rewrite V. apply Nat.leb_le. vm_compute. reflexivity.
  - destruct (A eq_refl) as [Fx N].
    exists envQ, gridQ, g', boxQ, s, s', (wxQ (q 1 4)), (runbQ (q 1 1)), f. repeat (split; [first [exact Hm|exact E|exact Fx|reflexivity]|]). exact N.
Qed.
Print Assumptions C71_refuted.
Example C71_case : exists g' s s' f, made envQ gridQ g' boxQ s /\ wake_record s gridQ (wxQ (q 2 1)) (runbQ (q 1 1)) = Ok (s', f) /\
  sdt s <> nzero /\ nearest (centres (gx gridQ)) (wk_xtest (wxQ (q 2 1))) = Ok 1 /\ 1 + 1 < gNx gridQ.
Proof.
  destruct boxQ_made as (g' & s & Hm & Hd).
  destruct (record_ok envQ gridQ g' boxQ s (wxQ (q 2 1)) (runbQ (q 1 1)) Hm) as (s' & f & E & _).
  - rewrite Hd. reflexivity.
  - apply ramp_harmless.
  - apply idle_harmless.
  - exists g', s, s', f. split; [exact Hm|]. split; [exact E|]. split.
    + rewrite Hd. intros H. apply (f_equal this) in H. discriminate H.
    + split; [vm_compute; reflexivity|apply Nat.leb_le; vm_compute; reflexivity].
Qed.

(** ** C76.  Full claim: the transverse wake is minus the difference of the two neighbouring integrals
    divided by the distance between the neighbouring cell centres.  The code divides by the first two
    widths of the grid. *)
Section Gradient.
  Context {T : Type} {NT : Num T}.
  Local Open Scope num_scope.
  (** Difference of the integrals of two rows over the samples before n. *)
  Definition rise (W : list (list (list T))) (s : list T) (hi lo : nat * nat) (n : nat) : T :=
    sum n (fun m => (get (nth (snd hi) (nth (fst hi) W []) []) m - get (nth (snd lo) (nth (fst lo) W []) []) m) * (get s 2 - get s 1)).
End Gradient.
Theorem C76_uniform_partial : forall (T : Type) (NT : Num T) (LT : NumLaws T) (OT : NumOrd T) (FT : NumFl T) (FL : NumFlLaws T)
    (w : Wake T) (s : list T) (W : list (list (list T))) gx gy dx dy i j,
  wk_ntc w = 1 -> wk_s w = Some s -> 3 <= List.length s -> wk_WP3 w = Some W ->
  wk_dx w = Some (widths gx) -> wk_dy w = Some (widths gy) ->
  List.length W = 3 -> (forall i, i < 3 -> List.length (nth i W []) = 3) ->
  (forall i j, i < 3 -> j < 3 -> List.length (nth j (nth i W []) []) = List.length s) ->
  (forall k, k + 1 < List.length gx -> get (widths gx) k = dx) -> (forall k, k + 1 < List.length gy -> get (widths gy) k = dy) ->
  1 <= i -> i + 2 < List.length gx -> 1 <= j -> j + 2 < List.length gy ->
  exists w' WPx WPy, calc_trans_WP w = Ok w' /\ wk_WPx w' = Some WPx /\ wk_WPy w' = Some WPy /\
    forall n, n < List.length s ->
      get WPx n = (- (rise W s (2, 1)%nat (0, 1)%nat n / (get (centres gx) (i + 1)%nat - get (centres gx) (i - 1)%nat)))%num /\
      get WPy n = (- (rise W s (1, 2)%nat (1, 0)%nat n / (get (centres gy) (j + 1)%nat - get (centres gy) (j - 1)%nat)))%num.
Proof.
  intros T NT LT OT FT FL w s W gx gy dx dy i j H0 H1 H2 H3 H4 H5 H6 H7 H8 Ux Uy I1 I2 J1 J2.
  destruct (C54_panofsky_wenzel T NT LT w s W (widths gx) (widths gy) 1 H0 H1 H2 H3 H4 H5) as (w' & WPx & WPy & A & B & C & _ & _ & V);
    rewrite ?widths_length; try lia; auto.
  exists w', WPx, WPy. do 3 (split; [assumption|]). intros n Hn. destruct (V n Hn) as [Vx Vy].
  rewrite (centre_gap_uniform gx dx i 1 Ux), (centre_gap_uniform gy dy j 1 Uy) by lia. split; [exact Vx|exact Vy].
Qed.
Print Assumptions C76_uniform_partial.
(** Witness: widths 1, 1, 2, 4; the window around the third cell spans 9/2, the code divides by 2. *)
Definition gradedQ : list Qc := [q 0 1; q 1 1; q 2 1; q 4 1; q 8 1].
Definition tiltQ : list (list (list Qc)) :=
  map (fun i => map (fun j => map (fun n => q (Z.of_nat (i * i + n)) 1) (seq 0 4)) (seq 0 3)) (seq 0 3).
Definition wgQ (dx dy : list Qc) : Wake Qc :=
  {| wk_q := q 1 1; wk_v := q 1 1; wk_ti := q 1 1; wk_xtest := q 3 1; wk_ytest := q 3 1;
     wk_len := None; wk_skip := 0; wk_ntc := 1; wk_counter := false; wk_save := true; wk_hf := None;
     wk_t := None; wk_z := None; wk_zf := None; wk_xf := None; wk_yf := None;
     wk_dx := Some dx; wk_dy := Some dy; wk_dz := None; wk_Ezt := None;
     wk_s := Some [q 0 1; q 1 2; q 1 1; q 3 2]; wk_WP := None; wk_WP3 := Some tiltQ; wk_WPx := None; wk_WPy := None; wk_txt := [] |}.
Lemma tiltQ_rows i j : i < 3 -> j < 3 -> List.length (nth i tiltQ []) = 3 /\ List.length (nth j (nth i tiltQ []) []) = 4.
Proof.
  intros Hi Hj. destruct i as [|[|[|i]]]; [| | |lia]; (destruct j as [|[|[|j]]]; [| | |lia]); split; reflexivity.
Qed.
Theorem C76_refuted : exists (w w' : Wake Qc) s W gx WPx i n,
  wk_ntc w = 1 /\ wk_s w = Some s /\ wk_WP3 w = Some W /\ wk_dx w = Some (widths gx) /\
  nearest (centres gx) (wk_xtest w) = Ok i /\ 1 <= i /\ i + 2 < List.length gx /\
  calc_trans_WP w = Ok w' /\ wk_WPx w' = Some WPx /\ n < List.length s /\
  get WPx n <> (- (rise W s (2, 1)%nat (0, 1)%nat n / (get (centres gx) (i + 1)%nat - get (centres gx) (i - 1)%nat)))%num.
Proof.
  destruct (C54_panofsky_wenzel Qc _ _ (wgQ (widths gradedQ) (widths gradedQ)) [q 0 1; q 1 2; q 1 1; q 3 2] tiltQ (widths gradedQ) (widths gradedQ) 1)
    as (w' & WPx & WPy & A & B & C & _ & _ & V); try reflexivity; try (apply Nat.leb_le; vm_compute; reflexivity).
  - intros i Hi. apply (tiltQ_rows i 0); lia.
  - intros i j Hi Hj. apply (tiltQ_rows i j); lia.
  - exists (wgQ (widths gradedQ) (widths gradedQ)), w', [q 0 1; q 1 2; q 1 1; q 3 2], tiltQ, gradedQ, WPx, 2, 2.
    do 4 (split; [reflexivity|]). split; [vm_compute; reflexivity|]. split; [lia|]. split; [apply Nat.leb_le; vm_compute; reflexivity|].
    split; [exact A|]. split; [exact B|]. split; [apply Nat.leb_le; vm_compute; reflexivity|]. destruct (V 2) as [-> _]; [apply Nat.leb_le; vm_compute; reflexivity|].
    intros H. apply (f_equal this) in H. vm_compute in H. discriminate H.
Qed.
Print Assumptions C76_refuted.
Definition evenQ : list Qc := [q 0 1; q 2 1; q 4 1; q 6 1; q 8 1].
Example C76_case : exists w' WPx, calc_trans_WP (wgQ (widths evenQ) (widths evenQ)) = Ok w' /\ wk_WPx w' = Some WPx /\ get WPx 2 = q (-1) 1.
Proof.
  destruct (C76_uniform_partial Qc _ _ _ _ _ (wgQ (widths evenQ) (widths evenQ)) [q 0 1; q 1 2; q 1 1; q 3 2] tiltQ evenQ evenQ (q 2 1) (q 2 1) 2 1)
    as (w' & WPx & WPy & A & B & C & V); try reflexivity; try (apply Nat.leb_le; vm_compute; reflexivity).
  - intros i Hi. apply (tiltQ_rows i 0); lia.
  - intros i j Hi Hj. apply (tiltQ_rows i j); lia.
  - intros k Hk. cbn in Hk. destruct k as [|[|[|[|k]]]]; try lia; apply Qc_this; vm_compute; reflexivity.
  - intros k Hk. cbn in Hk. destruct k as [|[|[|[|k]]]]; try lia; apply Qc_this; vm_compute; reflexivity.
  - exists w', WPx. split; [exact A|]. split; [exact B|]. destruct (V 2) as [-> _]; [apply Nat.leb_le; vm_compute; reflexivity|]. apply Qc_this. vm_compute. reflexivity.
Qed.

(** ** C77.  Full claim: every sample of the s axis is integrated over recorded steps only. *)
Theorem C77_covered_partial : forall (T : Type) (NT : Num T) (LT : NumLaws T) (OT : NumOrd T) (FT : NumFl T) (FL : NumFlLaws T)
    env g g' ar (s : Solver T) (w : Wake T) (a : WakeArgs T) zmin zmax,
  made env g g' ar s -> nltb nzero (sdt s) = true -> nltb nzero (wk_v w) = true ->
  harmless env g g' ar (wa_beam a) -> harmless env g g' ar (wa_cb a) ->
  named (wa_plane a) "longitudinal" = true -> wk_hf w = None -> wk_skip w = 0 ->
  np_min (centres (gz g)) = Ok zmin -> np_max (centres (gz g)) = Ok zmax ->
  let Nt := Z.to_nat (wake_Nt w (wa_len a) (sdt s) zmax zmin) in
  3 <= Nt -> Nt <= 10 ^ 5 ->
  exists ixt iyt s' f w' u b c WP, wakesolve s g w a = Ok (s', f, w') /\ wk_WP w' = Some WP /\
    steps s (KI (Z.of_nat ixt)) (KI (Z.of_nat iyt)) (gNz g) (wa_beam a) (wa_cb a) Nt u b c /\
    forall n, n < List.length WP ->
      (* the sample is at least one step before the end of the wake *)
      nltb (wa_len a + wk_ti w * wk_v w)%num (nofnat (S n) * (sdt s * wk_v w))%num = false ->
      get WP n = (sum (gNz g) (fun k =>
        entry (sE (b (Z.to_nat (Z.of_nat n + delay (wk_v w) (sdt s) (get (centres (gz g)) k) zmin)))) 2 ixt iyt k * get (widths (gz g)) k)
        / (wk_q w * e12))%num.
Proof.
  intros T NT LT OT FT FL env g g' ar s w a zmin zmax Hm Hd Hv Hb Hc Hl Hf Hs Hmin Hmax Nt H3 H5.
  destruct (C52_run T NT LT OT FT FL env g g' ar s w a Hm Hd Hv Hb Hc Hl Hf Hs) as (ixt & iyt & zmin' & zmax' & _ & _ & A & B & R).
  assert (zmin' = zmin) by congruence. assert (zmax' = zmax) by congruence. subst zmin' zmax'. fold Nt in R.
  destruct (R H3 H5) as (s' & f & w' & u & b & c & E & St & _ & P).
  exists ixt, iyt, s', f, w', u, b, c. eexists. split; [exact E|]. split; [exact P|]. split; [exact St|].
  rewrite tab_length. intros n Hn Hle. rewrite get_tab by exact Hn. f_equal. apply sum_ext. intros k Hk. cbv zeta.
  assert (In k (seq 0 (gNz g))) as _ by (apply in_seq; lia).
  assert (Lz : List.length (centres (gz g)) = gNz g) by (rewrite centres_length; reflexivity).
  assert (Ik : In (get (centres (gz g)) k) (centres (gz g))) by (apply nth_In; lia).
  pose proof (coverage w (wa_len a) (sdt s) zmax zmin (get (centres (gz g)) k) n Hd Hv
                (proj2 (np_min_le _ _ Hmin) _ Ik) (proj2 (np_max_le _ _ Hmax) _ Ik) Hle) as Cv.
  destruct (Z.ltb_spec (Z.of_nat n + delay (wk_v w) (sdt s) (get (centres (gz g)) k) zmin) (Z.of_nat Nt)) as [|G]; [reflexivity|].
  exfalso. unfold Nt in G. lia.
Qed.
Print Assumptions C77_covered_partial.
(** Witness: wakelength 9/8; sample 6 needs step 16 at the last cell, 16 steps were recorded. *)
Definition runlQ (l : Qc) : WakeArgs Qc :=
  {| wa_plane := "longitudinal"; wa_len := l; wa_beam := fun t s => do_op s (OWriteJ (ramp 2)); wa_cb := fun _ s => Ok s |}.
Theorem C77_refuted : exists env g g' ar (s s' : Solver Qc) (w w' : Wake Qc) (a : WakeArgs Qc) f sx zmin n k,
  made env g g' ar s /\ named (wa_plane a) "longitudinal" = true /\ wakesolve s g w a = Ok (s', f, w') /\ wk_s w' = Some sx /\
  n < List.length sx /\ k < gNz g /\ np_min (centres (gz g)) = Ok zmin /\
  find f (snap_key (Z.to_nat (Z.of_nat n + delay (wk_v w) (sdt s) (get (centres (gz g)) k) zmin))) = None.
Proof.
  destruct boxQ_made as (g' & s & Hm & Hd).
  destruct (np_min_ok (centres (gz gridQ))) as [zmin Hmin]; [apply gzQ_ne|].
  destruct (np_max_ok (centres (gz gridQ))) as [zmax Hmax]; [apply gzQ_ne|].
  assert (V : match np_min (centres (gz gridQ)), np_max (centres (gz gridQ)) with
              | Ok lo, Ok hi => (wake_Nt (wQ 0 false) (wa_len (runlQ (q 9 8))) (q 1 4) hi lo, delay (wk_v (wQ 0 false)) (q 1 4) (get (centres (gz gridQ)) 2) lo) | _, _ => (0%Z, 0%Z) end = (16%Z, 10%Z)) by (vm_compute; reflexivity).
  rewrite Hmin, Hmax in V. pose proof (f_equal fst V) as V1. pose proof (f_equal snd V) as V2. cbn [fst snd] in V1, V2. clear V.
  destruct (C52_run Qc _ _ _ _ _ envQ gridQ g' boxQ s (wQ 0 false) (runlQ (q 9 8)) Hm) as (ixt & iyt & lo & hi & _ & _ & A & B & R).
  - rewrite Hd. reflexivity.
  - reflexivity.
  - apply ramp_harmless.
  - apply idle_harmless.
  - reflexivity.
  - reflexivity.
  - reflexivity.
  - assert (lo = zmin) by congruence. assert (hi = zmax) by congruence. subst lo hi. rewrite Hd in R. cbv zeta in R. rewrite V1 in R.
    destruct R as (s' & f & w' & u & b & c & E & _ & P & _).
    + apply Nat.leb_le. vm_compute. reflexivity.
    + apply Nat.leb_le. vm_compute. reflexivity.
    + exists envQ, gridQ, g', boxQ, s, s', (wQ 0 false), w', (runlQ (q 9 8)), f. eexists. exists zmin, 6, 2.
      split; [exact Hm|]. split; [reflexivity|]. split; [exact E|]. split; [exact P|].
      split; [apply Nat.ltb_lt; vm_compute; reflexivity|]. split; [apply Nat.leb_le; vm_compute; reflexivity|]. split; [exact Hmin|].
      rewrite Hd, V2. unfold wakesolve in E.
      destruct (wake_record s gridQ (wQ 0 false) (runlQ (q 9 8))) as [[s1 f1]|] eqn:Er; [|discriminate E]. cbn [bind snd] in E.
      destruct (solve_WP _ _ _) as [w1|] eqn:Ew in E; [|discriminate E]. cbn [bind] in E.
      assert (f1 = f). { apply (f_equal (fun r => match r with Ok (_, x, _) => x | Err _ => f end)) in E. exact E. } subst f1. clear E.
      destruct (run_axes s gridQ (wQ 0 false) (runlQ (q 9 8)) s1 f Er) as (i & j & zM & zm & xs & ys & zs & u' & b' & c' & _ & _ & M1 & M2 & _ & _ & _ & _ & _ & Ef).
      { rewrite Hd. intros H. apply (f_equal this) in H. discriminate H. }
      assert (zm = zmin) by congruence. assert (zM = zmax) by congruence. subst zm zM. rewrite Hd, V1 in Ef.
      rewrite Ef, find_app, axes_find. reflexivity.
Qed.
Print Assumptions C77_refuted.
(** With wakelength 1 all six samples of the box qualify. *)
Example C77_case : List.length (s_axis (wQ 0 false) (q 1 4) (q 1 1)) = 6 /\
  forall n, n < 6 -> nltb (wa_len (runlQ (q 1 1)) + wk_ti (wQ 0 false) * wk_v (wQ 0 false))%num (nofnat (S n) * (q 1 4 * wk_v (wQ 0 false)))%num = false.
Proof.
  split; [vm_compute; reflexivity|]. intros n Hn. do 6 (destruct n as [|n]; [vm_compute; reflexivity|]). lia.
Qed.

(** ** C78 and C79.  Full claims: every cell left by skip_cells is weighted with its own width, also for
    a counter-moving test charge.  The code takes the widths from the start of dz in both cases. *)
Section Own.
  Context {T : Type} {NT : Num T} {OT : NumOrd T} {FT : NumFl T}.
  Local Open Scope num_scope.
  (** The integral along cell (i, j): cells skip .. N-skip-1, each with its own field and width. *)
  Definition own_wake (w : Wake T) (nt ny : nat) (dt : T) (zf dz : list T) (a : nat -> ndarray T) (zmin zmax : T) (i j n : nat) : T :=
    sum (List.length zf - 2 * wk_skip w) (fun k =>
      let c := if wk_counter w then (wk_skip w + (List.length zf - 2 * wk_skip w - 1 - k))%nat else (wk_skip w + k)%nat in
      let it := (Z.of_nat n + (if wk_counter w then delay (wk_v w) dt zmax (get zf c) else delay (wk_v w) dt (get zf c) zmin))%Z in
      if (it <? Z.of_nat nt)%Z
      then (if wk_counter w then - (at3 ny (List.length zf) a (Z.to_nat it) i j c * get dz c)
            else at3 ny (List.length zf) a (Z.to_nat it) i j c * get dz c)
      else 0).
  Lemma own_same (w : Wake T) nt ny dt zf dz a zmin zmax i j n :
    (forall k, (k < List.length zf - 2 * wk_skip w)%nat ->
       get dz k = get dz (if wk_counter w then (wk_skip w + (List.length zf - 2 * wk_skip w - 1 - k))%nat else (wk_skip w + k)%nat)) ->
    cell_wake w nt ny dt zf dz a zmin zmax i j n = own_wake w nt ny dt zf dz a zmin zmax i j n.
  Proof.
    intros H. unfold cell_wake, own_wake. apply sum_ext. intros k Hk. specialize (H k Hk). destruct (wk_counter w); cbv zeta; rewrite H; reflexivity.
  Qed.
End Own.

(** What a record must satisfy for the transverse integration (as in C53). *)
Definition fit3 {T} {NT : Num T} {OT : NumOrd T} (w : Wake T) f nt nx ny dt (zf dz : list T) (a : nat -> ndarray T) len : Prop :=
  wk_hf w = None /\ wk_len w = Some len /\ 2 * wk_skip w < List.length zf /\
  recorded f nt dt zf dz a /\ 3 <= nt /\ (forall n, n < nt -> shape (a n) = [nx; ny; List.length zf]) /\
  List.length zf - 2 * wk_skip w <= List.length dz /\ nltb nzero dt = true /\ nltb nzero (wk_v w) = true /\
  (wk_ntc w <= nx / 2 /\ nx / 2 + wk_ntc w < nx) /\ (wk_ntc w <= ny / 2 /\ ny / 2 + wk_ntc w < ny) /\
  (wk_q w * pico)%num <> nzero.

Theorem C78_own_widths_partial : forall (T : Type) (NT : Num T) (LT : NumLaws T) (OT : NumOrd T) (FT : NumFl T) (FL : NumFlLaws T)
    (w : Wake T) f nt nx ny dt zf dz (a : nat -> ndarray T) len d,
  fit3 w f nt nx ny dt zf dz a len -> (forall k, k < List.length zf -> get dz k = d) ->
  exists zmin zmax w' WP3, np_min zf = Ok zmin /\ np_max zf = Ok zmax /\ calc_long_WP_3d w (Some f) = Ok w' /\ wk_WP3 w' = Some WP3 /\
    let M := 2 * wk_ntc w + 1 in
    let I i j n := own_wake w nt ny dt zf dz a zmin zmax (nx / 2 - wk_ntc w + i) (ny / 2 - wk_ntc w + j) n in
    forall i j n, i < M -> j < M -> n < List.length (s_axis w dt len) ->
      get (nth j (nth i WP3 []) []) n
      = sum (S (M * i + j)) (fun l => I (l / M)%nat (l mod M)%nat n / npow (wk_q w * pico) (S (M * i + j) - l)%nat)%num.
Proof.
  intros T NT LT OT FT FL w f nt nx ny dt zf dz a len d (H1 & H2 & H3 & H4 & H5 & H6 & H7 & H8 & H9 & H10 & H11 & HQ) Hd.
  destruct (C53_carry_partial T NT LT OT FT FL w f nt nx ny dt zf dz a len H1 H2 H3 H4 H5 H6 H7 H8 H9 H10 H11 HQ)
    as (zmin & zmax & w' & WP3 & Z1 & Z2 & Z3 & _ & Z5 & _ & Z7).
  exists zmin, zmax, w', WP3. do 4 (split; [assumption|]). intros M I i j n Hi Hj Hn. rewrite Z7 by assumption.
  apply sum_ext. intros l Hl. f_equal. apply own_same. intros k Hk. destruct (wk_counter w); rewrite !Hd by lia; reflexivity.
Qed.
Print Assumptions C78_own_widths_partial.
Theorem C79_mirror_partial : forall (T : Type) (NT : Num T) (LT : NumLaws T) (OT : NumOrd T) (FT : NumFl T) (FL : NumFlLaws T)
    (w : Wake T) f nt nx ny dt zf dz (a : nat -> ndarray T) len,
  fit3 w f nt nx ny dt zf dz a len -> wk_counter w = true -> wk_skip w = 0 ->
  (forall k, k < List.length zf -> get dz k = get dz (List.length zf - 1 - k)) ->
  exists zmin zmax w' WP3, np_min zf = Ok zmin /\ np_max zf = Ok zmax /\ calc_long_WP_3d w (Some f) = Ok w' /\ wk_WP3 w' = Some WP3 /\
    let M := 2 * wk_ntc w + 1 in
    let I i j n := own_wake w nt ny dt zf dz a zmin zmax (nx / 2 - wk_ntc w + i) (ny / 2 - wk_ntc w + j) n in
    forall i j n, i < M -> j < M -> n < List.length (s_axis w dt len) ->
      get (nth j (nth i WP3 []) []) n
      = sum (S (M * i + j)) (fun l => I (l / M)%nat (l mod M)%nat n / npow (wk_q w * pico) (S (M * i + j) - l)%nat)%num.
Proof.
  intros T NT LT OT FT FL w f nt nx ny dt zf dz a len (H1 & H2 & H3 & H4 & H5 & H6 & H7 & H8 & H9 & H10 & H11 & HQ) Hc Hs Hd.
  destruct (C53_carry_partial T NT LT OT FT FL w f nt nx ny dt zf dz a len H1 H2 H3 H4 H5 H6 H7 H8 H9 H10 H11 HQ)
    as (zmin & zmax & w' & WP3 & Z1 & Z2 & Z3 & _ & Z5 & _ & Z7).
  exists zmin, zmax, w', WP3. do 4 (split; [assumption|]). intros M I i j n Hi Hj Hn. rewrite Z7 by assumption.
  apply sum_ext. intros l Hl. f_equal. apply own_same. rewrite Hs, Hc. intros k Hk. rewrite Nat.mul_0_r, Nat.sub_0_r in *. apply Hd. exact Hk.
Qed.
Print Assumptions C79_mirror_partial.

(** Witnesses: three cells of widths 1, 2, 1 (skip) or 1, 1, 2 (counter-moving); the first transverse
    cell, which carries nothing from others. *)
Definition zwQ : list Qc := [q 1 2; q 2 1; q 7 2].
Definition dzwQ : list Qc := [q 1 1; q 2 1; q 1 1].
Definition fileP (z dz : list Qc) (a : nat -> ndarray Qc) : File Qc :=
  axes_file [q 2 1] [q 2 1] z dxQ dxQ dz (tab 6 (fun n => nofnat n * q 1 2)%num) ++ map (fun n => (snap_key n, a n)) (seq 0 6).
Lemma fileP_recorded z dz a : recorded (fileP z dz a) 6 (q 1 2) z dz a.
Proof. apply run_recorded. apply Nat.leb_le. vm_compute. reflexivity. Qed.
Definition fullQ (n : nat) : ndarray Qc :=
  {| shape := [3; 3; 3]; dat := map (fun p => q (Z.of_nat ((p + n * n) mod 5 + 1)) 1) (seq 0 27) |}.
Lemma fit3Q z dz skip counter : List.length z = 3 -> List.length dz = 3 -> skip <= 1 ->
  fit3 (wQ skip counter) (fileP z dz fullQ) 6 3 3 (q 1 2) z dz fullQ (q 2 1).
Proof.
  intros Hz Hd Hs. unfold fit3. rewrite Hz, Hd. cbn [wQ wake_init wk_skip wk_ntc wk_hf wk_len].
  do 2 (split; [reflexivity|]). split; [lia|]. split; [apply fileP_recorded|]. split; [lia|]. split; [reflexivity|]. split; [lia|].
  do 2 (split; [reflexivity|]). do 2 (split; [cbn; lia|]). intros H. apply (f_equal this) in H. vm_compute in H. discriminate H.
Qed.
Definition first_row (z dz : list Qc) (skip : nat) (counter : bool) : Prop :=
  exists (w : Wake Qc) f a len zmin zmax w' WP3 n, wk_skip w = skip /\ wk_counter w = counter /\ wk_ntc w = 1 /\
  fit3 w f 6 3 3 (q 1 2) z dz a len /\ np_min z = Ok zmin /\ np_max z = Ok zmax /\
  calc_long_WP_3d w (Some f) = Ok w' /\ wk_WP3 w' = Some WP3 /\ n < List.length (s_axis w (q 1 2) len) /\
  get (nth 0 (nth 0 WP3 []) []) n <> (own_wake w 6 3 (q 1 2) z dz a zmin zmax 0 0 n / (wk_q w * pico))%num.
Lemma first_row_ok z dz skip counter : List.length z = 3 -> List.length dz = 3 -> skip <= 1 ->
  match np_min z, np_max z with
  | Ok lo, Ok hi => neqb (cell_wake (wQ skip counter) 6 3 (q 1 2) z dz fullQ lo hi 0 0 0 / (wk_q (wQ skip counter) * pico))
                         (own_wake (wQ skip counter) 6 3 (q 1 2) z dz fullQ lo hi 0 0 0 / (wk_q (wQ skip counter) * pico))
  | _, _ => true end%num = false ->
  0 < List.length (s_axis (wQ skip counter) (q 1 2) (q 2 1)) -> first_row z dz skip counter.
Proof.
  intros Hz Hd Hs V L. pose proof (fit3Q z dz skip counter Hz Hd Hs) as F.
  destruct F as (H1 & H2 & H3 & H4 & H5 & H6 & H7 & H8 & H9 & H10 & H11 & HQ).
  destruct (C53_second_cell Qc _ _ _ _ _ (wQ skip counter) (fileP z dz fullQ) 6 3 3 (q 1 2) z dz fullQ (q 2 1) H1 H2 H3 H4 H5 H6 H7 H8 H9 H10 H11 HQ)
    as (zmin & zmax & w' & WP3 & Z1 & Z2 & Z3 & Z4 & Z5); [cbn; lia|].
  exists (wQ skip counter), (fileP z dz fullQ), fullQ, (q 2 1), zmin, zmax, w', WP3, 0.
  do 3 (split; [reflexivity|]). split; [apply fit3Q; assumption|]. do 4 (split; [assumption|]). split; [exact L|].
  destruct (Z5 0 L) as [Z6 _]. change (3 / 2 - wk_ntc (wQ skip counter) + 0) with 0 in Z6.
  rewrite Z6. rewrite Z1, Z2 in V. intros H. rewrite H in V.
  match type of V with neqb ?x ?x = false => assert (X : neqb x x = true) by (apply neqb_eq; reflexivity); rewrite X in V; discriminate V end.
Qed.
Theorem C78_refuted : exists z dz, first_row z dz 1 false.
Proof.
  exists zwQ, dzwQ. apply first_row_ok; try reflexivity; try lia.
  apply Nat.leb_le. vm_compute. reflexivity.
Qed.
Print Assumptions C78_refuted.
Theorem C79_refuted : exists z dz, first_row z dz 0 true.
Proof.
  exists zQ, dzQ. apply first_row_ok; try reflexivity; try lia.
  apply Nat.leb_le. vm_compute. reflexivity.
Qed.
Print Assumptions C79_refuted.
Example C78_case : fit3 (wQ 1 false) (fileP zQ [q 1 1; q 1 1; q 1 1] fullQ) 6 3 3 (q 1 2) zQ [q 1 1; q 1 1; q 1 1] fullQ (q 2 1) /\
  forall k, k < 3 -> get [q 1 1; q 1 1; q 1 1] k = q 1 1.
Proof. split; [apply fit3Q; try reflexivity; lia|]. intros k Hk. destruct k as [|[|[|k]]]; try reflexivity; lia. Qed.
Example C79_case : fit3 (wQ 0 true) (fileP zwQ dzwQ fullQ) 6 3 3 (q 1 2) zwQ dzwQ fullQ (q 2 1) /\
  forall k, k < List.length zwQ -> get dzwQ k = get dzwQ (List.length zwQ - 1 - k).
Proof. split; [apply fit3Q; try reflexivity; lia|]. intros k Hk. destruct k as [|[|[|k]]]; try reflexivity; cbn in Hk; lia. Qed.

(** A longitudinal record never works with skipped cells. *)
Theorem C78_longitudinal_fails : forall (T : Type) (NT : Num T) (LT : NumLaws T) (OT : NumOrd T) (FT : NumFl T) (FL : NumFlLaws T)
    (w : Wake T) f nt dt zf dz (a : nat -> list T) len,
  wk_hf w = None -> wk_len w = Some len -> 0 < wk_skip w -> 2 * wk_skip w < List.length zf ->
  recorded f nt dt zf dz (fun n => vec (a n)) -> 3 <= nt -> (forall n, n < nt -> List.length (a n) = List.length zf) ->
  nltb nzero dt = true -> nltb nzero (wk_v w) = true -> calc_long_WP w (Some f) None = Err ValueError.
Proof. exact (fun T NT LT OT FT FL => @skip_fails T NT LT OT FT FL). Qed.
Print Assumptions C78_longitudinal_fails.
Example C78_longitudinal_case : calc_long_WP (wQ 1 false) (Some (fileQ (fun n => vec (rowQ 2 n)))) None = Err ValueError.
Proof.
  apply (C78_longitudinal_fails Qc _ _ _ _ _ (wQ 1 false) (fileQ (fun n => vec (rowQ 2 n))) 6 (q 1 2) zQ dzQ (rowQ 2) (q 2 1)); try reflexivity.
  - cbn. lia.
  - cbn. lia.
  - apply fileQ_recorded.
  - lia.
Qed.

(** ** C80.  Full claim: calc_long_WP on a record with a transverse window integrates along its centre cell
    (shape // 2).  It integrates along the cell after it, in both directions. *)
Theorem C80_next_cell_partial : forall (T : Type) (NT : Num T) (LT : NumLaws T) (OT : NumOrd T) (FT : NumFl T) (FL : NumFlLaws T)
    (w : Wake T) f nt nx ny dt zf dz (a : nat -> ndarray T) len,
  wk_hf w = None -> wk_len w = Some len -> 2 * wk_skip w < List.length zf -> wk_counter w = false ->
  recorded f nt dt zf dz a -> 3 <= nt -> (forall n, n < nt -> shape (a n) = [nx; ny; List.length zf]) ->
  List.length zf - 2 * wk_skip w <= List.length dz -> nltb nzero dt = true -> nltb nzero (wk_v w) = true ->
  nx / 2 + 1 < nx -> ny / 2 + 1 < ny ->
  exists zmin w' WP, np_min zf = Ok zmin /\ calc_long_WP w (Some f) None = Ok w' /\ wk_WP w' = Some WP /\
    List.length WP = List.length (s_axis w dt len) /\ forall n, n < List.length WP ->
      get WP n = (cell_wake w nt ny dt zf dz a zmin zmin (nx / 2 + 1)%nat (ny / 2 + 1)%nat n / (wk_q w * pico))%num.
Proof.
  intros T NT LT OT FT FL w f nt nx ny dt zf dz a len H1 H2 H3 Hc H4 H5 H6 H7 H8 H9 H10 H11.
  destruct (long_WP_window w f nt nx ny dt zf dz a len H1 H2 H3 H4 H5 H6 H7 H8 H9 H10 H11) as (zmin & w' & Z1 & Z2 & _ & Z3).
  exists zmin, w'. eexists. split; [exact Z1|]. split; [exact Z2|]. split; [exact Z3|]. rewrite tab_length. split; [reflexivity|].
  intros n Hn. rewrite get_tab by exact Hn. f_equal. unfold cell_wake. rewrite Hc. reflexivity.
Qed.
Print Assumptions C80_next_cell_partial.
(** Witness: field in the centre cell only; the result is zero. *)
Definition centreQ (n : nat) : ndarray Qc :=
  {| shape := [3; 3; 3]; dat := map (fun p => if (p / 3 =? 4)%nat then q (Z.of_nat n + 1) 1 else q 0 1) (seq 0 27) |}.
Theorem C80_refuted : exists (w : Wake Qc) f nt nx ny dt zf dz a len zmin w' WP n,
  wk_hf w = None /\ wk_len w = Some len /\ recorded f nt dt zf dz a /\ (forall n, n < nt -> shape (a n) = [nx; ny; List.length zf]) /\
  nx = 3 /\ ny = 3 /\ np_min zf = Ok zmin /\ calc_long_WP w (Some f) None = Ok w' /\ wk_WP w' = Some WP /\ n < List.length WP /\
  get WP n <> (cell_wake w nt ny dt zf dz a zmin zmin (nx / 2)%nat (ny / 2)%nat n / (wk_q w * pico))%num.
Proof.
  destruct (C80_next_cell_partial Qc _ _ _ _ _ (wQ 0 false) (fileQ centreQ) 6 3 3 (q 1 2) zQ dzQ centreQ (q 2 1))
    as (zmin & w' & WP & Z1 & Z2 & Z3 & Z4 & Z5); try reflexivity; try (cbn; lia).
  - apply fileQ_recorded.
  - exists (wQ 0 false), (fileQ centreQ), 6, 3, 3, (q 1 2), zQ, dzQ, centreQ, (q 2 1), zmin, w', WP, 0.
    do 2 (split; [reflexivity|]). split; [apply fileQ_recorded|]. do 3 (split; [reflexivity|]).
    do 3 (split; [assumption|]).
    assert (L : 0 < List.length WP) by (rewrite Z4; apply Nat.leb_le; vm_compute; reflexivity).
    split; [exact L|]. rewrite (Z5 0 L).
    assert (V : match np_min zQ with
      | Ok lo => neqb (cell_wake (wQ 0 false) 6 3 (q 1 2) zQ dzQ centreQ lo lo (3 / 2 + 1)%nat (3 / 2 + 1)%nat 0 / (wk_q (wQ 0 false) * pico))
                      (cell_wake (wQ 0 false) 6 3 (q 1 2) zQ dzQ centreQ lo lo (3 / 2)%nat (3 / 2)%nat 0 / (wk_q (wQ 0 false) * pico))
      | _ => true end%num = false) by (vm_compute; reflexivity).
    rewrite Z1 in V. intros H. rewrite H in V.
    match type of V with neqb ?x ?x = false => assert (X : neqb x x = true) by (apply neqb_eq; reflexivity); rewrite X in V; discriminate V end.
Qed.
Print Assumptions C80_refuted.
