(** Properties C100-C102: impedance from wake and back, and the charge distribution. *)
From Coq Require Import List Arith ZArith Bool String Lia QArith Qcanon Reals Lra.
From Coquelicot Require Import Coquelicot.
From Verif Require Import Num Vec FieldModel GridModel GridProofs2 SolverModel SolverCons GridFileModel WakeModel WakeNum WakeZ WakeZProofs WakeZProps
  SourceModel SolverKit GaussInt FftModel FftProofs FftInterp.
Import ListNotations.
Open Scope nat_scope.

(** ** C100 *)
(** The times used: t, or s over the speed of light. *)
Definition times (c : R) (s t : option (list R)) : option (list R) :=
  match s with Some s => Some (map (fun x => x / c)%R s) | None => t end.
(** With spacing dt and N points transformed (the length, or twice [samples]), the k-th frequency is k/(N dt) up to
    just below half the sampling rate, and the k-th value is 2/length times the Fourier sum of the transformed points. *)
Theorem C100_values : forall (c : R) (w : list R) s t tt (dt : R) samples,
  times c s t = Some tt -> mean_step tt = Ok dt -> (0 < dt)%R ->
  let N := match samples with Some n => 2 * n | None => List.length w end in 0 < N ->
  exists f Z, calc_impedance_from_wake twR c (WaArr w) s t None samples = Ok (f, Z) /\
    calc_impedance_from_wake twR c (WaList tt w) None None None samples = Ok (f, Z) /\
    List.length f = (N - 1) / 2 + 1 /\ List.length Z = List.length f /\
    forall k, k < List.length f -> get f k = (INR k / (INR N * dt))%R /\
      cget Z k = cscale (2 / INR (List.length w))%R (fourier dt (firstn N w) (get f k)).
Proof.
  intros c w s t tt dt samples Ht Hd Pd N HN.
  assert (E : match s with Some s => Ok (map (fun x => x / c)%R s) | None => some AttributeError t end = Ok tt).
  { unfold times in Ht. destruct s; [congruence|]. destruct t; [|discriminate]. cbn. congruence. }
  do 2 eexists. split; [apply (impedance_spec c w s t tt dt samples E Hd Pd HN)|].
  split; [exact (impedance_spec c w None (Some tt) tt dt samples eq_refl Hd Pd HN)|].
  change (win samples w) with N. rewrite !tab_length. split; [reflexivity|]. split; [reflexivity|]. intros k Hk. rewrite get_tab by exact Hk.
  assert (N0 : (INR N <> 0)%R) by (apply not_0_INR; lia).
  split; [field; lra|]. rewrite cget_tab by exact Hk. f_equal. rewrite <- dft_cut_firstn. apply fourier_cut; [exact HN|lra|].
  rewrite firstn_length. lia.
Qed.
Print Assumptions C100_values.
(** Without times the function fails. *)
Theorem C100_no_times : forall c w fmax samples, calc_impedance_from_wake twR c (WaArr w) None None fmax samples = Err AttributeError.
Proof. reflexivity. Qed.
Print Assumptions C100_no_times.
(** A wake A cos(2 pi m n/N + ph), 0 < m < N/2: amplitude and phase at the m-th frequency, zero at every other one. *)
Theorem C100_harmonic : forall (c A ph : R) N m (t : list R) (dt : R), 0 < m -> 2 * m < N -> mean_step t = Ok dt -> (0 < dt)%R ->
  let w := tab N (fun n => A * cos (2 * PI * (INR m * INR n) / INR N + ph))%R in
  exists f Z, calc_impedance_from_wake twR c (WaArr w) None (Some t) None None = Ok (f, Z) /\
    get f m = (INR m / (INR N * dt))%R /\ cget Z m = (A * cos ph, A * sin ph)%R /\
    forall k, k < List.length f -> k <> m -> cget Z k = (0, 0)%R.
Proof.
  intros c A ph N m t dt H0 Hm Ht Hd w.
  assert (Lw : List.length w = N) by apply tab_length.
  pose proof (impedance_spec c w None (Some t) t dt None eq_refl Ht Hd ltac:(unfold win; lia)) as I. cbn [win] in I. rewrite Lw in I.
  do 2 eexists. split; [exact I|]. assert (N0 : (INR N <> 0)%R) by (apply not_0_INR; lia).
  assert (Bm : m < bins N) by (pose proof (bins_spec N ltac:(lia)) as B; destruct (Nat.even N); lia).
  split; [rewrite get_tab by exact Bm; field; lra|]. split.
  - rewrite cget_tab by exact Bm. unfold w. rewrite harmonic_dft by (assumption || lia). rewrite Nat.eqb_refl. unfold cscale. cbn [fst snd nmul Num_R].
    f_equal; field; exact N0.
  - rewrite tab_length. intros k Hk Hne. rewrite cget_tab by exact Hk. unfold w. rewrite harmonic_dft by (assumption || lia).
    apply Nat.eqb_neq in Hne. rewrite Hne. unfold cscale. cbn [fst snd nmul Num_R]. f_equal; ring.
Qed.
Print Assumptions C100_harmonic.
(** A constant wake comes out twice too large at zero frequency. *)
Theorem C100_constant_doubled : forall (A : R) N (t : list R) (dt c : R), (A <> 0)%R -> 0 < N -> mean_step t = Ok dt -> (0 < dt)%R ->
  exists f Z, calc_impedance_from_wake twR c (WaArr (tab N (fun _ => A))) None (Some t) None None = Ok (f, Z) /\
    get f 0 = 0%R /\ cget Z 0 = (2 * A, 0)%R /\ cget Z 0 <> (A, 0)%R.
Proof.
  intros A N t dt c HA HN Ht Hd. set (w := tab N (fun _ => A)). assert (Lw : List.length w = N) by apply tab_length.
  pose proof (impedance_spec c w None (Some t) t dt None eq_refl Ht Hd ltac:(unfold win; lia)) as I. cbn [win] in I. rewrite Lw in I.
  do 2 eexists. split; [exact I|]. assert (N0 : (INR N <> 0)%R) by (apply not_0_INR; lia). pose proof (bins_le N HN) as B.
  split; [rewrite get_tab by lia; cbn [INR]; ring|].
  assert (E : cget (tab (bins N) (fun k => cscale (2 / INR N)%R (dft_cut twR N w k))) 0 = (2 * A, 0)%R).
  { rewrite cget_tab by lia. unfold w. rewrite constant_dft by (assumption || lia). cbn [Nat.eqb]. unfold cscale. cbn [fst snd nmul Num_R]. f_equal; field; exact N0. }
  split; [exact E|]. rewrite E. intros Q. injection Q as Q. lra.
Qed.
Print Assumptions C100_constant_doubled.
(** The impedance of a decayed wake depends on how many zeros follow it: the sum is divided by the number of samples. *)
Theorem C100_tail_refuted : exists (w : list R) (t t' : list R) f Z f' Z',
  mean_step t = Ok 1%R /\ mean_step t' = Ok 1%R /\
  calc_impedance_from_wake twR 1%R (WaArr w) None (Some t) None None = Ok (f, Z) /\
  calc_impedance_from_wake twR 1%R (WaArr (w ++ [0; 0])%R) None (Some t') None None = Ok (f', Z') /\
  get f 0 = 0%R /\ get f' 0 = 0%R /\ cget Z 0 = (1, 0)%R /\ cget Z' 0 = (/ 2, 0)%R.
Proof.
  exists [1; 0]%R. exists (tab 2 (fun k => INR k * 1))%R. exists (tab 4 (fun k => INR k * 1))%R.
  pose proof (mean_uniform 2 1%R ltac:(lia)) as M2. pose proof (mean_uniform 4 1%R ltac:(lia)) as M4.
  pose proof (impedance_spec 1%R [1; 0]%R None (Some (tab 2 (fun k => INR k * 1)%R)) _ 1%R None eq_refl M2 ltac:(lra) ltac:(cbn; lia)) as I2.
  pose proof (impedance_spec 1%R [1; 0; 0; 0]%R None (Some (tab 4 (fun k => INR k * 1)%R)) _ 1%R None eq_refl M4 ltac:(lra) ltac:(cbn; lia)) as I4.
  do 4 eexists. split; [exact M2|]. split; [exact M4|]. split; [exact I2|]. split; [exact I4|].
  cbn [win List.length]. split; [rewrite get_tab by (cbn; lia); cbn [INR]; ring|]. split; [rewrite get_tab by (cbn; lia); cbn [INR]; ring|].
  split; rewrite cget_tab by (cbn; lia); rewrite dft_parts by lia; unfold cscale, Rsum; cbn [sum Nat.mul fst snd]; unfold get; cbn [nth];
    cbn [nadd nmul nzero Num_R]; replace (2 * PI * INR 0 / INR 2)%R with 0%R by (cbn [INR]; field);
    replace (2 * PI * INR 0 / INR 4)%R with 0%R by (cbn [INR]; field); rewrite ?cos_0, ?sin_0; f_equal; cbn [INR]; field.
Qed.
Print Assumptions C100_tail_refuted.
Example C100_case : 0 < 2 /\ 2 * 2 < 9 /\ mean_step (tab 9 (fun k => INR k * (1 / 4)))%R = Ok (1 / 4)%R /\ (0 < 1 / 4)%R.
Proof. split; [lia|]. split; [lia|]. split; [apply mean_uniform; lia|lra]. Qed.

(** ** C101 *)
(** From a wake of N >= 3 samples to its impedance and back with N samples: the wake comes back with the opposite sign,
    backwards in time, shifted by its mean (and for even N by the alternating mean), on a stretched time axis; with the
    default number of samples only (N-1)/2+1 values come back. *)
Theorem C101_exact_partial : forall (c : R) (w t : list R) (dt : R), 3 <= List.length w -> mean_step t = Ok dt -> (0 < dt)%R ->
  let N := List.length w in
  exists f Z, calc_impedance_from_wake twR c (WaArr w) None (Some t) None None = Ok (f, Z) /\
    (exists t' w', calc_wake_from_impedance twR (ImPair f Z) None None None = Ok (t', w') /\ List.length w' = (N - 1) / 2 + 1) /\
    exists t' w', calc_wake_from_impedance twR (ImPair f Z) None None (Some N) = Ok (t', w') /\ List.length t' = N /\ List.length w' = N /\
      forall j, j < N -> get t' j = (INR j * (INR N * dt / INR (N - 1)))%R /\
        get w' j = (- get w (N - 1 - j) - sum N (get w) / INR N -
                    (if Nat.even N then (-1) ^ j * (sum N (fun n => (-1) ^ n * get w n) / INR N) else 0))%R.
Proof. exact back_spec. Qed.
Print Assumptions C101_exact_partial.
(** The wake does not come back: a single positive pulse. *)
Theorem C101_roundtrip_refuted : exists (w t : list R) f Z t' w',
  mean_step t = Ok 1%R /\ calc_impedance_from_wake twR 1%R (WaArr w) None (Some t) None None = Ok (f, Z) /\
  calc_wake_from_impedance twR (ImPair f Z) None None (Some (List.length w)) = Ok (t', w') /\
  (get w 0 = 1 /\ get w 1 = 0 /\ get w 2 = 0)%R /\ (get w' 0 = - (1 / 3) /\ get w' 1 = - (1 / 3) /\ get w' 2 = - (4 / 3))%R /\
  get t' 2 = 3%R.
Proof.
  exists [1; 0; 0]%R. exists (tab 3 (fun k => INR k * 1))%R.
  pose proof (mean_uniform 3 1%R ltac:(lia)) as M.
  destruct (back_spec 1%R [1; 0; 0]%R _ 1%R ltac:(cbn; lia) M ltac:(lra)) as (f & Z & I & _ & t' & w' & J & _ & _ & V).
  exists f, Z, t', w'. split; [exact M|]. split; [exact I|]. split; [exact J|]. split; [repeat split|].
  cbn [List.length Nat.even] in V. unfold Rsum in V. cbn [sum] in V. unfold get in V at 3 4 5 6. cbn [nth Nat.sub] in V.
  destruct (V 0 ltac:(lia)) as [_ V0]. destruct (V 1 ltac:(lia)) as [_ V1]. destruct (V 2 ltac:(lia)) as [T2 V2].
  rewrite V0, V1, V2, T2. cbn [Nat.sub]. unfold get. cbn [nth nadd nzero Num_R INR]. repeat split; try (cbn [INR]; field); lra.
Qed.
Print Assumptions C101_roundtrip_refuted.
(** An impedance of two values with its frequencies is taken for a list [f, Z] and fails. *)
Theorem C101_two_values : forall (T : Type) (NT : Num T) (OT : NumOrd T) (FT : NumFl T) (tw : nat -> nat -> cx T) a b f tmax samples,
  calc_wake_from_impedance tw (ImArr [a; b]) (Some f) tmax samples = Err IndexError.
Proof. reflexivity. Qed.
Print Assumptions C101_two_values.
Example C101_case : 3 <= List.length [1; 2; 5; 3]%R /\ mean_step [0; 1]%R = Ok 1%R.
Proof. split; [cbn; lia|]. unfold mean_step. cbn. unfold get. cbn. f_equal. field. Qed.

(** ** C102 *)
(** [lam] is the distribution [l] over the nodes [z], divided by [q], at the points [s]: linear between the nodes, exact at
    a node; beyond the ends the end value is kept. *)
Definition resampled {T} {NT : Num T} {OT : NumOrd T} (z l : list T) (q : T) (s lam : list T) : Prop :=
  let n := List.length z - 1 in List.length lam = List.length s /\
  forall p, p < List.length s -> let x := get s p in
      (nltb x (get z 0) = true -> get lam p = ndiv (get l 0) q) /\
      (forall i, i < n -> nltb x (get z i) = false -> nltb x (get z (S i)) = true ->
         get lam p = nadd (ndiv (get l i) q) (nmul (nsub (ndiv (get l (S i)) q) (ndiv (get l i) q))
                                                   (ndiv (nsub x (get z i)) (nsub (get z (S i)) (get z i))))) /\
      (nltb x (get z n) = false -> get lam p = ndiv (get l n) q) /\
      (forall i, i <= n -> x = get z i -> get lam p = ndiv (get l i) q).
Lemma resampled_pt {T} {NT : Num T} {LT : NumLaws T} {OT : NumOrd T} {FT : NumFl T} {FL : NumFlLaws T} (l z : list T) (q : T) s :
  List.length z = List.length l -> 0 < List.length l ->
  (forall i, S i < List.length z -> nltb (get z i) (get z (S i)) = true) ->
  resampled z l q s (map (pt z (map (fun x => ndiv x q) l)) s).
Proof.
  intros Lz L0 R. split; [apply map_length|]. set (n := List.length z - 1).
  intros p Hp x. set (g := fun x => ndiv x q).
  assert (E : get (map (pt z (map g l)) s) p = pt z (map g l) x).
  { unfold get at 1. rewrite (nth_indep _ _ (pt z (map g l) nzero)) by (rewrite map_length; exact Hp). rewrite map_nth. reflexivity. }
  assert (G : forall i, i <= n -> get (map g l) i = ndiv (get l i) q).
  { intros i Hi. unfold get at 1. rewrite (nth_indep _ _ (g nzero)) by (rewrite map_length; lia). rewrite map_nth. reflexivity. }
  rewrite E. destruct (pt_spec z (map g l) x R ltac:(lia) ltac:(rewrite map_length; lia)) as (P1 & P2 & P3). fold n in P2, P3.
  split; [|split; [|split]].
  - intros H. rewrite (P1 H). apply G. lia.
  - intros i Hi H1 H2. rewrite (P2 i Hi H1 H2). rewrite !G by lia. reflexivity.
  - intros H. rewrite (P3 H). apply G. lia.
  - intros i Hi ->. rewrite pt_node; [apply G; exact Hi|exact R|lia|rewrite map_length; lia].
Qed.
(** An array as long as the grid axis z, or else as the monitor axis zf, is resampled from that axis. *)
Theorem C102_array : forall (T : Type) (NT : Num T) (LT : NumLaws T) (OT : NumOrd T) (FT : NumFl T) (FL : NumFlLaws T)
    (l z : list T) zg zf (q : T) (s : list T),
  zg = Some z \/ (exists w, zg = Some w /\ List.length w <> List.length l) /\ zf = Some z ->
  List.length z = List.length l -> 0 < List.length l ->
  (forall i, S i < List.length z -> nltb (get z i) (get z (S i)) = true) ->
  exists lam, calc_lambdas (ChArr l) zg zf q s = Ok lam /\ resampled z l q s lam.
Proof.
  intros T NT LT OT FT FL l z zg zf q s Hz Lz L0 R.
  assert (M : match_axis zg zf (List.length l) = Ok z).
  { unfold match_axis, len_of. destruct Hz as [->|[(w & -> & N) ->]]; cbn [bind]; [rewrite Lz, Nat.eqb_refl; reflexivity|].
    apply Nat.eqb_neq in N. rewrite N, Lz, Nat.eqb_refl. reflexivity. }
  rewrite (lambdas_arr zg zf l q s z M L0 Lz). eexists. split; [reflexivity|]. apply resampled_pt; assumption.
Qed.
Print Assumptions C102_array.
(** A file gives the nodes in its first column and the distribution in its second; further columns are ignored, and so are
    the axes of the grid. *)
Theorem C102_file : forall (T : Type) (NT : Num T) (LT : NumLaws T) (OT : NumOrd T) (FT : NumFl T) (FL : NumFlLaws T)
    (z l : list T) more zg zf (q : T) (s : list T),
  List.length z = List.length l -> 0 < List.length l ->
  (forall i, S i < List.length z -> nltb (get z i) (get z (S i)) = true) ->
  exists lam, calc_lambdas (ChFile (Ok (z :: l :: more))) zg zf q s = Ok lam /\ resampled z l q s lam.
Proof.
  intros T NT LT OT FT FL z l more zg zf q s Lz L0 R. cbn [calc_lambdas nth_error bind some].
  rewrite interp_ok by (try rewrite map_length; lia). eexists. split; [reflexivity|]. apply resampled_pt; assumption.
Qed.
Print Assumptions C102_file.
Example C102_file_case : match calc_lambdas (ChFile (Ok [[q 0 1; q 2 1]; [q 6 1; q 10 1]; []])) None None (q 2 1) [q 1 1; q 3 1] with
  | Ok v => map this v = [4; 5]%Q | Err _ => False end.
Proof. vm_compute. reflexivity. Qed.
(** The documented dict form never works. *)
Theorem C102_dict_fails : forall (T : Type) (NT : Num T) (OT : NumOrd T) (d : dict (list T)) z zf (q : T) s lam,
  calc_lambdas (ChDict d) z zf q s <> Ok lam.
Proof. intros T NT OT d z zf q s lam. cbn [calc_lambdas]. destruct (match_axis z zf (List.length d)); discriminate. Qed.
Print Assumptions C102_dict_fails.
(** The same distribution as an array and as a dict: the array is accepted, the dict is not. *)
Theorem C102_dict_refuted : exists (z l s : list Qc) (q : Qc),
  (exists lam, calc_lambdas (ChArr l) (Some z) None q s = Ok lam) /\
  calc_lambdas (ChDict [("z", z); ("charge", l)]%string) (Some z) (Some z) q s = Err UnboundLocalError.
Proof. exists [q 0 1; q 1 1; q 2 1], [q 0 1; q 3 1; q 0 1], [q 1 2], (q 3 1). split; [eexists; reflexivity|reflexivity]. Qed.
Print Assumptions C102_dict_refuted.
(** A point far from the bunch gets the end value: not zero unless the distribution ends at zero. *)
Theorem C102_outside_refuted : exists (z l : list Qc) (q x : Qc) lam, List.length z = List.length l /\
  (forall y, In y z -> (y < x)%Qc) /\ calc_lambdas (ChArr l) (Some z) None q [x] = Ok [lam] /\ lam <> Q2Qc 0.
Proof.
  exists [q 0 1; q 1 1; q 2 1], [q 1 1; q 3 1; q 1 1], (q 5 1), (q 100 1). eexists. split; [reflexivity|]. split.
  - intros y [<-|[<-|[<-|[]]]]; reflexivity.
  - split; [reflexivity|]. intros E. apply (f_equal this) in E. vm_compute in E. discriminate.
Qed.
Print Assumptions C102_outside_refuted.
(** The analytic distribution is the normal density with mean 0 and deviation sigmaz, of total charge one. *)
Theorem C102_analytic : forall (sg : R) (s : list R), (0 < sg)%R ->
  let lam := calc_lambdas_analytic sqrt sg s in
  List.length lam = List.length s /\
  (forall p, p < List.length s -> (0 < get lam p)%R /\
     get lam p = (1 / sqrt (2 * PI * (sg * sg)) * exp (- ((get s p - 0) * (get s p - 0)) / (2 * (sg * sg))))%R) /\
  (forall p r, p < List.length s -> r < List.length s -> (Rabs (get s p) = Rabs (get s r) -> get lam p = get lam r)%R /\
     (Rabs (get s p) < Rabs (get s r) -> get lam r < get lam p)%R) /\
  forall e, (0 < e)%R -> exists M, forall a b, (a <= - M)%R -> (M <= b)%R -> exists v, (Rabs (v - 1) < e)%R /\
    is_RInt (fun x => get (calc_lambdas_analytic sqrt sg [x]) 0) a b v.
Proof.
  intros sg s Hs lam. pose proof PI_RGT_0 as PP.
  assert (S2 : (0 < sqrt (2 * PI))%R) by (apply sqrt_lt_R0; lra).
  assert (NV : (sqrt (2 * PI * (sg * sg)) = sg * sqrt (2 * PI))%R).
  { rewrite sqrt_mult by nra. rewrite sqrt_square by lra. ring. }
  assert (F : forall x, get (calc_lambdas_analytic sqrt sg [x]) 0 = (1 / sqrt (2 * PI * (sg * sg)) * exp (- ((x - 0) * (x - 0)) / (2 * (sg * sg))))%R).
  { intros x. unfold calc_lambdas_analytic, get. cbn [map nth]. rewrite nofnat_INR. cbn [nexp npi nopp nmul ndiv none_ Num_R NumTr_R].
    replace (INR 2) with 2%R by (cbn; ring). rewrite NV. replace ((x - 0) * (x - 0))%R with (x * x)%R by ring. reflexivity. }
  assert (L : List.length lam = List.length s) by apply map_length.
  assert (G : forall p, p < List.length s -> get lam p = (1 / sqrt (2 * PI * (sg * sg)) * exp (- ((get s p - 0) * (get s p - 0)) / (2 * (sg * sg))))%R).
  { intros p Hp. rewrite <- F. unfold lam, calc_lambdas_analytic, get. cbn [map].
    match goal with |- nth p (map ?h s) _ = _ => rewrite (nth_indep _ _ (h nzero)) by (rewrite map_length; exact Hp); rewrite (map_nth h) end. reflexivity. }
  assert (K : (0 < 1 / sqrt (2 * PI * (sg * sg)))%R) by (rewrite NV; apply Rdiv_lt_0_compat; [lra|nra]).
  split; [exact L|]. split; [|split].
  - intros p Hp. split; [|apply G; exact Hp]. rewrite G by exact Hp. apply Rmult_lt_0_compat; [exact K|apply exp_pos].
  - intros p r Hp Hr. rewrite !G by assumption. rewrite !Rminus_0_r.
    assert (Sq : forall x, (x * x = Rabs x * Rabs x)%R) by (intros x; rewrite <- Rabs_mult; symmetry; apply Rabs_pos_eq; apply Rle_0_sqr).
    rewrite (Sq (get s p)), (Sq (get s r)). pose proof (Rabs_pos (get s p)) as A. split.
    + intros ->. reflexivity.
    + intros Lt. apply Rmult_lt_compat_l; [exact K|]. apply exp_increasing. unfold Rdiv. apply Rmult_lt_compat_r; [apply Rinv_0_lt_compat; nra|nra].
  - intros e He. destruct (density_total 0 sg e Hs He) as (M & HM). exists M. intros a b Ha Hb. destruct (HM a b Ha Hb) as (v & V1 & V2).
    exists v. split; [exact V1|]. eapply is_RInt_ext; [|exact V2]. intros x _. cbv beta. rewrite F. reflexivity.
Qed.
Print Assumptions C102_analytic.
Example C102_case : match calc_lambdas (ChArr [q 0 1; q 6 1; q 0 1]) (Some [q 0 1; q 1 1; q 3 1]) None (q 3 1) [q (-1) 1; q 1 2; q 1 1; q 2 1; q 9 1] with
  | Ok l => map this l = [0; 1; 2; 1; 0]%Q | Err _ => False end.
Proof. vm_compute. reflexivity. Qed.
