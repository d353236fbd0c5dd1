(** Property C100 with a largest frequency given: calc_impedance_from_wake resamples the wake first. *)
From Coq Require Import List Arith ZArith Bool String Lia QArith Qcanon Reals Lra.
From Coquelicot Require Import Coquelicot.
From Verif Require Import Num Vec FieldModel GridModel GridProofs2 SolverModel SolverCons SolverTime GridFileModel WakeModel WakeNum WakeZ WakeZProofs WakeZProps
  SourceModel SolverKit GaussInt FftModel FftProofs FftInterp FftProps FitModel FitProps.
Import ListNotations.
Open Scope nat_scope.

Lemma nth_mono (l : list R) : (forall i, S i < List.length l -> (get l i < get l (S i))%R) ->
  forall i j, i <= j -> j < List.length l -> (get l i <= get l j)%R.
Proof. intros H i j L. induction L as [|j L IH]; intros Hj; [lra|]. specialize (H j Hj). specialize (IH ltac:(lia)). lra. Qed.
Lemma in_get (l : list R) x : In x l -> exists i, i < List.length l /\ get l i = x.
Proof. intros H. destruct (In_nth l x 0%R H) as (i & Hi & E). exists i. split; assumption. Qed.
Lemma np_min_first (l : list R) : 0 < List.length l -> (forall i, S i < List.length l -> (get l i < get l (S i))%R) -> np_min l = Ok (get l 0).
Proof.
  intros L H. destruct (SolverTime.np_min_ok l) as [m E]; [intros ->; cbn in L; lia|]. rewrite E. f_equal.
  destruct (np_min_R l m E) as [I P]. destruct (in_get l m I) as (i & Hi & <-).
  pose proof (nth_mono l H 0 i ltac:(lia) Hi). specialize (P (get l 0) (nth_In l 0%R L)). lra.
Qed.
Lemma max_fold (l : list R) : forall a, (forall x, In x l -> (x <= fold_left nmax l a)%R) /\ (a <= fold_left nmax l a)%R /\ (fold_left nmax l a = a \/ In (fold_left nmax l a) l).
Proof.
  induction l as [|b l IH]; intros a; [cbn; split; [intros x []|]; split; [lra|left; reflexivity]|].
  cbn [fold_left]. destruct (IH (nmax a b)) as (P1 & P2 & P3).
  assert (Q : (a <= nmax a b /\ b <= nmax a b)%R /\ (nmax a b = a \/ nmax a b = b)).
  { unfold nmax. destruct (nltb a b) eqn:E; [apply R_ltb in E; repeat split; try lra; right; reflexivity|].
    split; [|left; reflexivity]. destruct (Rlt_dec a b) as [K|K]; [apply R_ltb in K; rewrite K in E; discriminate|lra]. }
  destruct Q as [[Q1 Q2] Q3]. split; [intros x [<-|Hx]; [lra|apply P1, Hx]|]. split; [lra|].
  destruct P3 as [P3|P3]; [|right; right; exact P3]. rewrite P3. destruct Q3 as [->| ->]; [left|right; left]; reflexivity.
Qed.
Lemma np_max_last (l : list R) : 0 < List.length l -> (forall i, S i < List.length l -> (get l i < get l (S i))%R) -> np_max l = Ok (get l (List.length l - 1)).
Proof.
  intros L H. assert (E : exists m, np_max l = Ok m /\ In m l /\ forall x, In x l -> (x <= m)%R).
  { destruct l as [|a l]; [cbn in L; lia|]. destruct (max_fold l a) as (P1 & P2 & P3). exists (fold_left nmax l a). split; [reflexivity|].
    split; [destruct P3 as [P3|P3]; [left; symmetry; exact P3|right; exact P3]|]. intros x [<-|Hx]; [exact P2|apply P1, Hx]. }
  destruct E as (m & -> & I & P). f_equal. destruct (in_get l m I) as (i & Hi & <-).
  pose proof (nth_mono l H i (List.length l - 1) ltac:(lia) ltac:(lia)). assert (J : In (get l (List.length l - 1)) l) by (apply nth_In; lia). specialize (P _ J). apply Rle_antisym; assumption.
Qed.
Lemma mean_arange (N : nat) (a h : R) : 2 <= N -> mean_step (tab N (fun k => nadd a (nmul (nofnat k) h))) = Ok h.
Proof.
  intros HN. unfold mean_step. destruct (tab N _) as [|u [|v l]] eqn:E;
    try (apply (f_equal (@List.length R)) in E; rewrite tab_length in E; cbn in E; lia).
  rewrite <- E. rewrite tab_length. f_equal. change (sum ?n ?f) with (Rsum n f).
  rewrite (Rsum_ext (N - 1) _ (fun _ => h)).
  - rewrite Rsum_const, nofnat_INR. cbn. field. apply not_0_INR. lia.
  - intros i Hi. rewrite !get_tab by lia. rewrite !nofnat_INR, S_INR. cbn. ring.
Qed.
Lemma kept_half N (fm : R) : 0 < N -> (0 < fm)%R -> WakeZProofs.kept N (1 / fm / 2)%R fm = bins N.
Proof.
  intros HN Hd. unfold WakeZProofs.kept. fold (bins N). apply Nat.min_l.
  assert (E : nmul fm (nmul (nofnat N) (1 / fm / 2)%R) = (INR N / 2)%R) by (rewrite nofnat_INR; cbn; field; lra).
  rewrite E. destruct (ceil_R (INR N / 2)%R) as [C _]; [pose proof (pos_INR N); lra|]. set (m := Z.to_nat (nceil (INR N / 2)%R)) in *.
  assert (K : (INR N <= INR (2 * m))%R) by (rewrite mult_INR; cbn [INR]; lra). apply INR_le in K.
  pose proof (bins_le N HN). lia.
Qed.

(** With fmax the wake is first resampled linearly at M points 1/(2 fmax) apart, from the first time up to but not
    including the last.  The frequencies are k/(N h) with h = 1/(2 fmax), all below fmax, and the values are 2/M times the
    Fourier sum of the resampled wake. *)
Theorem C100_fmax : forall (c : R) (w : list R) s t tt (fm : R) samples,
  times c s t = Some tt -> List.length w = List.length tt -> 2 <= List.length tt ->
  (forall i, S i < List.length tt -> (get tt i < get tt (S i))%R) -> (0 < fm)%R ->
  let h := (1 / fm / 2)%R in let lo := get tt 0 in let hi := get tt (List.length tt - 1) in (h < hi - lo)%R ->
  exists M w', 2 <= M /\ (lo + INR (M - 1) * h < hi <= lo + INR M * h)%R /\
    resampled tt w 1%R (tab M (fun k => lo + INR k * h)%R) w' /\
    let N := match samples with Some n => 2 * n | None => M end in 0 < N ->
    exists f Z, calc_impedance_from_wake twR c (WaArr w) s t (Some fm) samples = Ok (f, Z) /\
      List.length f = (N - 1) / 2 + 1 /\ List.length Z = List.length f /\
      forall k, k < List.length f -> get f k = (INR k / (INR N * h))%R /\ (0 <= get f k < fm)%R /\
        cget Z k = cscale (2 / INR M)%R (fourier h (firstn N w') (get f k)).
Proof.
  intros c w s t tt fm samples Ht Lw Lt Mo Pf h lo hi Hh.
  assert (Ph : (0 < h)%R) by (unfold h; apply Rdiv_lt_0_compat; [apply Rdiv_lt_0_compat|]; lra).
  set (x := ((hi - lo) / h)%R).
  assert (Px : (1 < x)%R) by (unfold x; apply (Rmult_lt_reg_r h); [exact Ph|]; unfold Rdiv; rewrite Rmult_assoc, Rinv_l by lra; lra).
  destruct (ceil_R x ltac:(lra)) as [B1 B2]. set (M := Z.to_nat (nceil x)) in *.
  assert (M2 : 2 <= M). { assert (K : (INR 1 < INR M)%R) by (cbn [INR]; lra). apply INR_lt in K. lia. }
  set (aux := tab M (fun k => nadd lo (nmul (nofnat k) h))).
  assert (Ea : aux = tab M (fun k => lo + INR k * h)%R) by (apply tab_ext; intros k _; rewrite nofnat_INR; reflexivity).
  assert (La : List.length aux = M) by apply tab_length.
  set (w' := map (pt tt w) aux).
  exists M, w'. split; [exact M2|]. split.
  { assert (Ex : (hi - lo = x * h)%R) by (unfold x; field; lra). rewrite minus_INR by lia. cbn [INR]. split; nra. }
  split.
  { rewrite <- Ea. assert (Ew : map (fun y => ndiv y 1%R) w = w) by (rewrite <- (map_id w) at 2; apply map_ext; intros y; cbn; field).
    unfold w'. rewrite <- Ew at 2. apply resampled_pt; [congruence|lia|]. intros i Hi. apply R_ltb, Mo, Hi. }
  intros N HN.
  assert (E : match s with Some s => Ok (map (fun x => ndiv x c) s) | None => some AttributeError t end = Ok tt).
  { unfold times in Ht. destruct s; [injection Ht as <-; reflexivity|]. destruct t; [|discriminate]. cbn. congruence. }
  assert (Lw' : List.length w' = M) by (unfold w'; rewrite map_length; exact La).
  assert (Em : exists dt, mean_step tt = Ok dt) by (destruct tt as [|a [|b l]]; [cbn in Lt; lia|cbn in Lt; lia|eexists; reflexivity]). destruct Em as [dt Em].
  assert (Ear : arange lo hi h = Ok aux).
  { unfold arange. replace (neqb h nzero) with false; [reflexivity|]. symmetry. apply not_true_iff_false. intros K. apply neqb_eq in K. cbn in K. lra. }
  assert (I : calc_impedance_from_wake twR c (WaArr w) s t (Some fm) samples =
    Ok (tab (bins N) (fun k => INR k * (1 / (INR N * h)))%R, tab (bins N) (fun k => cscale (2 / INR M)%R (dft_cut twR N w' k)))).
  { unfold calc_impedance_from_wake. rewrite E. cbn [bind]. rewrite Em. cbn [bind].
    rewrite np_min_first, np_max_last by (lia || exact Mo). cbn [bind]. fold lo hi.
    replace (ndiv (ndiv none_ fm) (nofnat 2)) with h by (unfold h; cbn; field; lra). rewrite Ear. cbn [bind].
    rewrite interp_ok by (lia || exact Lw). cbn [bind]. fold w'. unfold aux. rewrite mean_arange by exact M2. cbn [bind]. rewrite Lw'. fold N.
    destruct (Nat.eqb_spec N 0) as [Q|_]; [lia|].
    destruct (picked_spec N h fm HN) as [P1 P2]; [apply R_ltb; exact Ph|].
    assert (K : WakeZProofs.kept N h fm = bins N) by (apply kept_half; assumption). rewrite K in P1, P2. pose proof (bins_le N HN) as B.
    cbv zeta. rewrite P2. rewrite P1. destruct (seq 0 (bins N)) as [|a l] eqn:Q; [apply (f_equal (@List.length nat)) in Q; rewrite seq_length in Q; cbn in Q; lia|].
    rewrite <- Q. f_equal. f_equal.
    - apply tab_ext. intros k _. rewrite !nofnat_INR. reflexivity.
    - change (map ?g (seq 0 ?n)) with (tab n g). apply tab_ext. intros k Hk. unfold fft. rewrite cget_tab by lia. fold (dft_cut twR N w' k).
      f_equal. rewrite !nofnat_INR. cbn. unfold Rdiv. ring. }
  do 2 eexists. split; [exact I|]. rewrite !tab_length. split; [reflexivity|]. split; [reflexivity|]. intros k Hk.
  rewrite get_tab by exact Hk. assert (N0 : (0 < INR N)%R) by (apply lt_0_INR; lia).
  assert (Fk : (INR k * (1 / (INR N * h)) = INR k / (INR N * h))%R) by (field; lra).
  split; [exact Fk|]. split.
  { pose proof (pos_INR k). assert (0 < INR N * h)%R by (apply Rmult_lt_0_compat; assumption).
    split; [apply Rmult_le_pos; [assumption|]; apply Rlt_le, Rdiv_lt_0_compat; lra|].
    rewrite Fk. apply (Rmult_lt_reg_r (INR N * h)); [assumption|]. unfold Rdiv. rewrite Rmult_assoc, Rinv_l by lra.
    replace (fm * (INR N * h))%R with (INR N / 2)%R by (unfold h; field; lra).
    assert (2 * k < N). { pose proof (bins_le N HN). unfold bins in *. lia. }
    assert (K2 : (INR (2 * k) < INR N)%R) by (apply lt_INR; assumption). rewrite mult_INR in K2. cbn [INR] in K2. lra. }
  rewrite cget_tab by exact Hk. f_equal. rewrite <- dft_cut_firstn. apply fourier_cut; [exact HN|lra|].
  rewrite firstn_length. lia.
Qed.
Print Assumptions C100_fmax.
Example C100_fmax_case : let tt := [0; 1; 2]%R in times 1 None (Some tt) = Some tt /\ List.length [5; 7; 1]%R = List.length tt /\
  (forall i, S i < List.length tt -> (get tt i < get tt (S i))%R) /\ (1 / 1 / 2 < get tt 2 - get tt 0)%R.
Proof.
  cbv zeta. split; [reflexivity|]. split; [reflexivity|]. split.
  - intros i Hi. cbn in Hi. destruct i as [|[|i]]; unfold get; cbn [nth]; [lra|lra|lia].
  - unfold get. cbn [nth]. lra.
Qed.
(** Components above fmax are not removed: the alternating wake 1, -1, 1, -1, 1, -1 has no constant part, and none is
    reported without fmax; with fmax at half its frequency it is reported as a constant. *)
Theorem C100_alias_refuted : exists (w t : list R) (fm : R) f Z f' Z',
  calc_impedance_from_wake twR 1%R (WaArr w) None (Some t) None None = Ok (f, Z) /\
  calc_impedance_from_wake twR 1%R (WaArr w) None (Some t) (Some fm) None = Ok (f', Z') /\
  get f 0 = 0%R /\ get f' 0 = 0%R /\ cget Z 0 = (0, 0)%R /\ cget Z' 0 = (2, 0)%R.
Proof.
  set (w := [1; -1; 1; -1; 1; -1]%R). set (t := [0; 1; 2; 3; 4; 5]%R).
  assert (Mo : forall i, S i < List.length t -> (get t i < get t (S i))%R).
  { intros i Hi. cbn in Hi. unfold t, get. do 5 (destruct i as [|i]; [cbn [nth]; lra|]). lia. }
  assert (Em : mean_step t = Ok 1%R) by (unfold mean_step, t; cbn [List.length Nat.sub sum]; unfold get; cbn [nth nofnat]; cbn; f_equal; field).
  destruct (C100_values 1%R w None (Some t) t 1%R None eq_refl Em ltac:(lra) ltac:(cbn; lia)) as (f & Z & E & _ & L & _ & V).
  destruct (C100_fmax 1%R w None (Some t) t (/ 4)%R None eq_refl eq_refl ltac:(cbn; lia) Mo ltac:(lra)) as (M & w' & M2 & B & Rs & G).
  { unfold t, get. cbn [List.length Nat.sub nth]. lra. }
  unfold t in B. cbn [List.length Nat.sub] in B. unfold get in B. cbn [nth] in B.
  assert (EM : M = 3).
  { assert (K1 : (INR (M - 1) < INR 3)%R) by (cbn [INR]; lra). assert (K2 : (INR 2 < INR M)%R) by (cbn [INR]; lra). apply INR_lt in K1, K2. lia. }
  subst M. destruct (G ltac:(lia)) as (f' & Z' & E' & L' & _ & V'). clear G.
  exists w, t, (/ 4)%R, f, Z, f', Z'. split; [exact E|]. split; [exact E'|].
  destruct (V 0) as [F0 Z0]; [rewrite L; cbn; lia|]. destruct (V' 0) as (F0' & _ & Z0'); [rewrite L'; cbn; lia|].
  cbn [INR] in F0, F0'. unfold Rdiv in F0, F0'. rewrite Rmult_0_l in F0, F0'.
  split; [exact F0|]. split; [exact F0'|]. rewrite F0 in Z0. rewrite F0' in Z0'. rewrite Z0, Z0'.
  destruct Rs as [Lr Rs]. rewrite tab_length in Lr, Rs.
  assert (Ew : w' = [1; 1; 1]%R).
  { assert (X : forall p, p < 3 -> get w' p = 1%R).
    { intros p Hp. destruct (Rs p Hp) as (_ & _ & _ & X). rewrite (X (2 * p)); [|cbn; lia|].
      - unfold w, get. do 3 (destruct p as [|p]; [cbn; field|]). lia.
      - rewrite get_tab by exact Hp. unfold t, get. do 3 (destruct p as [|p]; [cbn; field|]). lia. }
    destruct w' as [|a [|b [|d [|]]]]; try discriminate Lr. pose proof (X 0 ltac:(lia)) as X0. pose proof (X 1 ltac:(lia)) as X1. pose proof (X 2 ltac:(lia)) as X2. unfold get in X0, X1, X2. cbn [nth] in X0, X1, X2. subst. reflexivity. }
  assert (FZ : forall d x, fourier d x 0%R = (Rsum (List.length x) (fun n => get x n), 0)%R).
  { intros d x. unfold fourier, csum. cbn [fst snd]. f_equal.
    - apply Rsum_ext. intros n _. replace (2 * PI * 0 * (INR n * d))%R with 0%R by ring. rewrite cos_0. ring.
    - transitivity (Rsum (List.length x) (fun _ => 0)%R); [apply Rsum_ext; intros n _; replace (2 * PI * 0 * (INR n * d))%R with 0%R by ring; rewrite sin_0; ring|]. rewrite Rsum_const. ring. }
  rewrite !FZ, Ew. unfold cscale, w. cbn [List.length firstn fst snd INR nmul Num_R]. unfold Rsum. cbn [sum]. unfold get. cbn [nth nadd nzero Num_R].
  split; f_equal; field.
Qed.
Print Assumptions C100_alias_refuted.
