(** Lemmas: sums over roots of unity, impedance of a wake, and the way back. *)
From Coq Require Import List Arith ZArith Bool String Lia Reals Lra.
From Verif Require Import Num Vec FieldModel GridModel GridProofs2 SolverModel MpiTiles WakeModel WakeNum WakeProofs WakeTrans WakeZ WakeZProofs WakeZProps
  MonitorProps SourceModel FftModel.
Import ListNotations.
Open Scope R_scope.

(** ** Sums of cosines *)
Definition Rsum (n : nat) (f : nat -> R) : R := sum n f.
Lemma Rsum_eq n f : sum n f = Rsum n f. Proof. reflexivity. Qed.
Lemma Rsum_ext n f g : (forall i, (i < n)%nat -> f i = g i) -> Rsum n f = Rsum n g.
Proof. apply sum_ext. Qed.
Lemma Rsum_S n f : Rsum (S n) f = Rsum n f + f n.
Proof. reflexivity. Qed.
Lemma Rsum_add n f g : Rsum n (fun i => f i + g i) = Rsum n f + Rsum n g.
Proof. exact (sum_add n f g). Qed.
Lemma Rsum_scale n a f : Rsum n (fun i => a * f i) = a * Rsum n f.
Proof. exact (sum_scale n a f). Qed.
Lemma Rsum_opp n f : Rsum n (fun i => - f i) = - Rsum n f.
Proof. exact (sum_opp n f). Qed.
Lemma Rsum_swap n m (f : nat -> nat -> R) : Rsum n (fun i => Rsum m (fun j => f i j)) = Rsum m (fun j => Rsum n (fun i => f i j)).
Proof. exact (sum_swap n m f). Qed.
Lemma Rsum_split n m f : Rsum (n + m) f = Rsum n f + Rsum m (fun i => f (n + i)%nat).
Proof. exact (sum_split n m f). Qed.
Lemma Rsum_const n a : Rsum n (fun _ => a) = INR n * a.
Proof. induction n as [|n IH]; [cbn; ring|]. rewrite Rsum_S, IH, S_INR. ring. Qed.
Lemma Rsum_single n k f : (k < n)%nat -> (forall i, (i < n)%nat -> i <> k -> f i = 0) -> Rsum n f = f k.
Proof. exact (sum_single n k f). Qed.
Lemma Rsum_head n f : Rsum (S n) f = f 0%nat + Rsum n (fun i => f (S i)).
Proof. change (S n) with (1 + n)%nat. rewrite (Rsum_split 1 n f). f_equal. cbn. ring. Qed.
Lemma Rsum_rev n f : Rsum n (fun i => f (n - i)%nat) = Rsum n (fun i => f (S i)).
Proof.
  revert f. induction n as [|n IH]; intros f; [reflexivity|]. rewrite Rsum_S. rewrite Rsum_head.
  replace (S n - n)%nat with 1%nat by lia. rewrite Rplus_comm. f_equal.
  rewrite <- (IH (fun i => f (S i))). apply Rsum_ext. intros i Hi. f_equal. lia.
Qed.

Lemma roots_sum (N : nat) (m : Z) ph : (0 < N)%nat -> (forall k, m <> (k * Z.of_nat N)%Z) ->
  Rsum N (fun k => cos (2 * PI * (INR k * IZR m) / INR N + ph)) = 0.
Proof.
  intros HN Hm. assert (PN : 0 < INR N) by (apply lt_0_INR; exact HN). pose proof PI_RGT_0 as PP.
  set (u := PI * IZR m / INR N).
  rewrite (Rsum_ext N _ (fun k => cos (2 * (u * INR k) + ph))).
  - apply (vanish u ph N m); [|unfold u; field; lra].
    intros S. apply sin_eq_0_0 in S. destruct S as [k Hk]. apply (Hm k). apply eq_IZR. rewrite mult_IZR, <- INR_IZR_INZ.
    unfold u in Hk. apply (Rmult_eq_reg_l (PI / INR N)).
    + replace (PI / INR N * (IZR k * INR N)) with (IZR k * PI) by (field; lra). rewrite <- Hk. field. lra.
    + apply Rgt_not_eq. apply Rdiv_lt_0_compat; lra.
  - intros k _. f_equal. unfold u. field. lra.
Qed.
Lemma sin_cos_shift x : sin x = cos (x + - (PI / 2)).
Proof. rewrite cos_plus, cos_neg, sin_neg, cos_PI2, sin_PI2. ring. Qed.
Lemma roots_sum_sin (N : nat) (m : Z) ph : (0 < N)%nat -> (forall k, m <> (k * Z.of_nat N)%Z) ->
  Rsum N (fun k => sin (2 * PI * (INR k * IZR m) / INR N + ph)) = 0.
Proof.
  intros HN Hm. rewrite (Rsum_ext N _ (fun k => cos (2 * PI * (INR k * IZR m) / INR N + (ph + - (PI / 2))))).
  - apply roots_sum; assumption.
  - intros k _. rewrite sin_cos_shift. f_equal. ring.
Qed.
Lemma not_mult (m N : Z) : (0 < Z.abs m < N)%Z -> forall k, m <> (k * N)%Z.
Proof. intros H k E. subst m. rewrite Z.abs_mul, (Z.abs_eq N) in H by lia. destruct (Z.eq_dec k 0) as [->|]; nia. Qed.

(** ** The impedance of a wake, as a Fourier sum *)
Definition bins (N : nat) : nat := ((N - 1) / 2 + 1)%nat.
Lemma bins_spec N : (0 < N)%nat -> if Nat.even N then N = (2 * bins N)%nat else (N + 1 = 2 * bins N)%nat.
Proof.
  intros H. unfold bins. destruct (Nat.even N) eqn:E.
  - apply Nat.even_spec in E. destruct E as [k ->]. replace (2 * k - 1)%nat with (1 + (k - 1) * 2)%nat by lia.
    rewrite Nat.div_add by lia. replace (1 / 2)%nat with 0%nat by reflexivity. lia.
  - assert (O : Nat.odd N = true) by (unfold Nat.odd; rewrite E; reflexivity). apply Nat.odd_spec in O. destruct O as [k ->].
    replace (2 * k + 1 - 1)%nat with (k * 2)%nat by lia. rewrite Nat.div_mul by lia. lia.
Qed.
Lemma bins_le N : (0 < N)%nat -> (1 <= bins N <= N /\ 2 * bins N <= N + 1)%nat.
Proof. intros H. pose proof (bins_spec N H) as B. destruct (Nat.even N); lia. Qed.

Lemma kept_all N (dt : R) : (0 < N)%nat -> 0 < dt -> kept N dt (1 / dt) = bins N.
Proof.
  intros HN Hd. unfold kept. fold (bins N). apply Nat.min_l.
  assert (E : nmul (ndiv none_ dt) (nmul (nofnat N) dt) = (nofnat N : R)) by (rewrite nofnat_INR; cbn; field; lra).
  change (1 / dt) with (ndiv none_ dt). rewrite E. rewrite ceil_nofnat. rewrite Nat2Z.id. apply bins_le. exact HN.
Qed.

Definition win (samples : option nat) (w : list R) : nat := match samples with Some n => (2 * n)%nat | None => List.length w end.
Lemma impedance_spec c w (s t : option (list R)) tt (dt : R) samples :
  match s with Some s => Ok (map (fun x => x / c) s) | None => some AttributeError t end = Ok tt ->
  mean_step tt = Ok dt -> 0 < dt -> (0 < win samples w)%nat -> let N := win samples w in
  calc_impedance_from_wake twR c (WaArr w) s t None samples =
    Ok (tab (bins N) (fun k => INR k * (1 / (INR N * dt))),
        tab (bins N) (fun k => cscale (2 / INR (List.length w)) (dft_cut twR N w k))).
Proof.
  intros Ht Hd Pd HN N. unfold calc_impedance_from_wake. cbn [fst snd].
  replace (match s with Some s0 => Ok (map (fun x => ndiv x c) s0) | None => some AttributeError t end) with (Ok tt) by (symmetry; exact Ht).
  cbn [bind]. rewrite Hd. cbn [bind]. fold (win samples w). fold N. destruct (Nat.eqb_spec N 0) as [E|_]; [unfold N in E; lia|].
  destruct (picked_spec N dt (ndiv none_ dt) HN) as [P1 P2]; [apply R_ltb; exact Pd|].
  assert (K : kept N dt (ndiv none_ dt) = bins N) by (apply kept_all; assumption). rewrite K in P1, P2.
  pose proof (bins_le N HN) as B.
  cbv zeta. rewrite P2. rewrite P1. destruct (seq 0 (bins N)) as [|a l] eqn:Q; [apply (f_equal (@List.length nat)) in Q; rewrite seq_length in Q; cbn in Q; lia|].
  rewrite <- Q. f_equal. f_equal.
  - apply tab_ext. intros k _. rewrite !nofnat_INR. reflexivity.
  - change (map ?h (seq 0 ?n)) with (tab n h). apply tab_ext. intros k Hk. unfold fft. rewrite cget_tab by lia. fold (dft_cut twR N w k).
    f_equal. rewrite !nofnat_INR. cbn. unfold Rdiv. ring.
Qed.
Lemma tail_nz {A} (l : list A) : (0 < List.length l)%nat -> l <> []. Proof. destruct l; cbn; [lia|discriminate]. Qed.

(** ** A harmonic wake *)
Lemma dft_parts N w k : (0 < N)%nat ->
  dft_cut twR N w k = (Rsum N (fun n => get w n * cos (2 * PI * INR (n * k) / INR N)), - Rsum N (fun n => get w n * sin (2 * PI * INR (n * k) / INR N))).
Proof.
  intros HN. unfold dft_cut, csum. f_equal. rewrite <- Rsum_opp. apply Rsum_ext. intros n _. unfold cscale, twR. cbn [snd]. cbn [nmul Num_R]. ring.
Qed.
Lemma cos_prod a b : cos a * cos b = (cos (a + b) + cos (a - b)) / 2.
Proof. rewrite cos_plus, cos_minus. lra. Qed.
Lemma cos_sin_prod a b : cos a * sin b = (sin (a + b) - sin (a - b)) / 2.
Proof. rewrite sin_plus, sin_minus. lra. Qed.
Lemma INR_Z n : INR n = IZR (Z.of_nat n). Proof. apply INR_IZR_INZ. Qed.

Section Harmonic.
  Context (N m : nat) (A ph : R) (HN : (0 < N)%nat).
  Let wave (n : nat) : R := A * cos (2 * PI * (INR m * INR n) / INR N + ph).
  Lemma angle_add n k : 2 * PI * (INR m * INR n) / INR N + ph + 2 * PI * INR (n * k) / INR N = 2 * PI * (INR n * IZR (Z.of_nat m + Z.of_nat k)) / INR N + ph.
  Proof. assert (INR N <> 0) by (apply not_0_INR; lia). rewrite mult_INR, plus_IZR, <- !INR_Z. field. assumption. Qed.
  Lemma angle_sub n k : 2 * PI * (INR m * INR n) / INR N + ph - 2 * PI * INR (n * k) / INR N = 2 * PI * (INR n * IZR (Z.of_nat m - Z.of_nat k)) / INR N + ph.
  Proof. assert (INR N <> 0) by (apply not_0_INR; lia). rewrite mult_INR, minus_IZR, <- !INR_Z. field. assumption. Qed.
  Lemma harmonic_dft k : (k < bins N)%nat -> (0 < m)%nat -> (2 * m < N)%nat ->
    dft_cut twR N (tab N wave) k = if (k =? m)%nat then (INR N / 2 * (A * cos ph), INR N / 2 * (A * sin ph)) else (0, 0).
  Proof.
    intros Hk H0 Hm. pose proof (bins_le N HN) as B. rewrite dft_parts by exact HN.
    assert (Ec : Rsum N (fun n => get (tab N wave) n * cos (2 * PI * INR (n * k) / INR N)) =
      A / 2 * (Rsum N (fun n => cos (2 * PI * (INR n * IZR (Z.of_nat m + Z.of_nat k)) / INR N + ph)) +
               Rsum N (fun n => cos (2 * PI * (INR n * IZR (Z.of_nat m - Z.of_nat k)) / INR N + ph)))).
    { rewrite <- Rsum_add, <- Rsum_scale. apply Rsum_ext. intros n Hn. rewrite get_tab by exact Hn. unfold wave.
      rewrite Rmult_assoc, cos_prod, angle_add, angle_sub. lra. }
    assert (Es : Rsum N (fun n => get (tab N wave) n * sin (2 * PI * INR (n * k) / INR N)) =
      A / 2 * (Rsum N (fun n => sin (2 * PI * (INR n * IZR (Z.of_nat m + Z.of_nat k)) / INR N + ph)) +
               - Rsum N (fun n => sin (2 * PI * (INR n * IZR (Z.of_nat m - Z.of_nat k)) / INR N + ph)))).
    { rewrite <- Rsum_opp, <- Rsum_add, <- Rsum_scale. apply Rsum_ext. intros n Hn. rewrite get_tab by exact Hn. unfold wave.
      rewrite Rmult_assoc, cos_sin_prod, angle_add, angle_sub. lra. }
    rewrite Ec, Es. rewrite roots_sum, roots_sum_sin by (try exact HN; apply not_mult; lia).
    destruct (Nat.eqb_spec k m) as [->|Hne].
    - rewrite Z.sub_diag.
      rewrite (Rsum_ext N (fun n => cos _) (fun _ => cos ph)) by (intros; f_equal; unfold Rdiv; ring).
      rewrite (Rsum_ext N (fun n => sin _) (fun _ => sin ph)) by (intros; f_equal; unfold Rdiv; ring).
      rewrite !Rsum_const. f_equal; lra.
    - rewrite roots_sum, roots_sum_sin by (try exact HN; apply not_mult; lia). f_equal; lra.
  Qed.
End Harmonic.
Lemma constant_dft N A k : (0 < N)%nat -> (k < bins N)%nat ->
  dft_cut twR N (tab N (fun _ => A)) k = if (k =? 0)%nat then (INR N * A, 0) else (0, 0).
Proof.
  intros HN Hk. pose proof (bins_le N HN) as B. rewrite dft_parts by exact HN. assert (N0 : INR N <> 0) by (apply not_0_INR; lia).
  rewrite (Rsum_ext N (fun n => get _ n * cos _) (fun n => A * cos (2 * PI * (INR n * IZR (Z.of_nat k)) / INR N + 0))).
  2:{ intros n Hn. rewrite get_tab by exact Hn. rewrite mult_INR, <- INR_Z, Rplus_0_r. reflexivity. }
  rewrite (Rsum_ext N (fun n => get _ n * sin _) (fun n => A * sin (2 * PI * (INR n * IZR (Z.of_nat k)) / INR N + 0))).
  2:{ intros n Hn. rewrite get_tab by exact Hn. rewrite mult_INR, <- INR_Z, Rplus_0_r. reflexivity. }
  rewrite !Rsum_scale. destruct (Nat.eqb_spec k 0) as [->|Hne].
  - rewrite (Rsum_ext N (fun n => cos _) (fun _ => 1)).
    2:{ intros n _. cbn [Z.of_nat]. rewrite Rmult_0_r. replace (2 * PI * 0 / INR N + 0) with 0 by (field; exact N0). apply cos_0. }
    rewrite (Rsum_ext N (fun n => sin _) (fun _ => 0)).
    2:{ intros n _. cbn [Z.of_nat]. rewrite Rmult_0_r. replace (2 * PI * 0 / INR N + 0) with 0 by (field; exact N0). apply sin_0. }
    rewrite !Rsum_const. f_equal; ring.
  - rewrite roots_sum, roots_sum_sin by (try exact HN; apply not_mult; lia). f_equal; ring.
Qed.

(** ** There and back *)
(** Sum over the kept bins of cosines at an integer. *)
Lemma cos_2pi_shift x (k : nat) : cos (2 * PI * INR k - x) = cos x.
Proof. replace (2 * PI * INR k - x) with (- x + 2 * INR k * PI) by ring. rewrite cos_period. apply cos_neg. Qed.
Definition phase (N k m : nat) : R := cos (2 * PI * INR (k * m) / INR N).
Lemma phase_sym N k m : (0 < N)%nat -> (k <= N)%nat -> phase N (N - k) m = phase N k m.
Proof.
  intros HN Hk. unfold phase. assert (N0 : INR N <> 0) by (apply not_0_INR; lia).
  rewrite <- (cos_2pi_shift (2 * PI * INR (k * m) / INR N) m). f_equal. rewrite !mult_INR, minus_INR by exact Hk. field. exact N0.
Qed.
Lemma phase_all N m : (0 < N)%nat -> Rsum N (fun k => phase N k m) = if (m mod N =? 0)%nat then INR N else 0.
Proof.
  intros HN. assert (N0 : INR N <> 0) by (apply not_0_INR; lia).
  assert (E : forall k, phase N k m = cos (2 * PI * (INR k * IZR (Z.of_nat m)) / INR N + 0)).
  { intros k. unfold phase. rewrite mult_INR, <- INR_Z, Rplus_0_r. reflexivity. }
  destruct (Nat.eqb_spec (m mod N) 0) as [D|D].
  - apply Nat.mod_divides in D; [|lia]. destruct D as [q ->].
    rewrite (Rsum_ext N _ (fun _ => 1)); [rewrite Rsum_const; ring|]. intros k _. unfold phase.
    replace (2 * PI * INR (k * (N * q)) / INR N) with (0 + 2 * INR (k * q) * PI) by (rewrite !mult_INR; field; exact N0).
    rewrite cos_period. apply cos_0.
  - rewrite (Rsum_ext N _ _ (fun k _ => E k)). apply roots_sum; [exact HN|]. intros k Hk. apply D.
    assert (0 <= k)%Z by nia. apply Nat2Z.inj. rewrite Nat2Z.inj_mod, Hk. apply Z_mod_mult.
Qed.
Lemma phase_half N m : (0 < N)%nat -> Nat.even N = true -> phase N (bins N) m = (-1) ^ m.
Proof.
  intros HN Ev. pose proof (bins_spec N HN) as B. rewrite Ev in B. unfold phase.
  assert (K0 : INR (bins N) <> 0) by (apply not_0_INR; lia).
  assert (E : INR N = 2 * INR (bins N)) by (rewrite B at 1; rewrite mult_INR; reflexivity).
  replace (2 * PI * INR (bins N * m) / INR N) with (INR m * PI) by (rewrite E, mult_INR; field; exact K0).
  clear. induction m as [|m IH]; [cbn; rewrite Rmult_0_l; apply cos_0|].
  rewrite S_INR. replace ((INR m + 1) * PI) with (INR m * PI + PI) by ring. rewrite neg_cos, IH. cbn. ring.
Qed.
Lemma phase_bins N m : (0 < N)%nat ->
  2 * Rsum (bins N) (fun k => phase N k m) = (if (m mod N =? 0)%nat then INR N else 0) + 1 - (if Nat.even N then (-1) ^ m else 0).
Proof.
  intros HN. pose proof (bins_spec N HN) as B. pose proof (bins_le N HN) as L. rewrite <- phase_all by exact HN.
  set (f := fun k => phase N k m). set (K := bins N) in *.
  assert (F0 : f 0%nat = 1) by (unfold f, phase; cbn [Nat.mul INR]; replace (2 * PI * 0 / INR N) with 0 by (unfold Rdiv; ring); apply cos_0).
  assert (HK : Rsum K f = 1 + Rsum (K - 1) (fun i => f (S i))).
  { replace K with (S (K - 1)) at 1 by lia. rewrite Rsum_head, F0. reflexivity. }
  assert (Sy : forall k, (k <= N)%nat -> f (N - k)%nat = f k) by (intros k Hk; apply phase_sym; assumption).
  destruct (Nat.even N) eqn:Ev.
  - replace N with (K + S (K - 1))%nat at 1 by lia. rewrite Rsum_split, Rsum_head, Nat.add_0_r.
    rewrite (Rsum_ext (K - 1) _ (fun i => f (K - 1 - i)%nat)).
    2:{ intros i Hi. rewrite <- (Sy (K - 1 - i)%nat) by lia. f_equal. lia. }
    rewrite Rsum_rev. rewrite (phase_half N m HN Ev : f K = _). lra.
  - replace N with (K + (K - 1))%nat at 1 by lia. rewrite Rsum_split.
    rewrite (Rsum_ext (K - 1) (fun i => f (K + i)%nat) (fun i => f (K - 1 - i)%nat)).
    2:{ intros i Hi. rewrite <- (Sy (K - 1 - i)%nat) by lia. f_equal. lia. }
    rewrite Rsum_rev. lra.
Qed.

Lemma back_value N (w : list R) c : (0 < N)%nat -> (c < N)%nat ->
  let Z := tab (bins N) (fun k => cscale (2 / INR N) (dft_cut twR N w k)) in
  fst (csum N (fun n => cmul (cget Z n) (twR N (n * c)))) =
  get w ((N - c) mod N) + Rsum N (get w) / INR N - (if Nat.even N then (-1) ^ c * (Rsum N (fun n => (-1) ^ n * get w n) / INR N) else 0).
Proof.
  intros HN Hc Z. assert (N0 : INR N <> 0) by (apply not_0_INR; lia). pose proof (bins_le N HN) as L.
  assert (E1 : forall k, (k < bins N)%nat -> fst (cmul (cget Z k) (twR N (k * c))) = 2 / INR N * Rsum N (fun n => get w n * phase N k (n + c))).
  { intros k Hk. unfold Z. rewrite cget_tab by exact Hk. rewrite dft_parts by exact HN.
    unfold cmul, cscale, twR. cbn [fst snd]. cbn [nmul nsub Num_R].
    set (a := Rsum N _). set (b := Rsum N _).
    replace (2 / INR N * a * cos (2 * PI * INR (k * c) / INR N) - 2 / INR N * - b * - sin (2 * PI * INR (k * c) / INR N))
      with (2 / INR N * (cos (2 * PI * INR (k * c) / INR N) * a + (- sin (2 * PI * INR (k * c) / INR N)) * b)) by ring.
    f_equal. unfold a, b. rewrite <- !Rsum_scale, <- Rsum_add. apply Rsum_ext. intros n _. unfold phase.
    replace (2 * PI * INR (k * (n + c)) / INR N) with (2 * PI * INR (n * k) / INR N + 2 * PI * INR (k * c) / INR N).
    - rewrite cos_plus. ring.
    - rewrite !mult_INR, plus_INR. field. exact N0. }
  unfold csum. cbn [fst]. change (sum N ?f) with (Rsum N f).
  set (F := fun i => fst (cmul (cget Z i) (twR N (i * c)))).
  replace (Rsum N F) with (Rsum (bins N) F).
  2:{ replace N with (bins N + (N - bins N))%nat at 2 by lia. rewrite Rsum_split.
      rewrite (Rsum_ext (N - bins N) _ (fun _ => 0)); [rewrite Rsum_const; ring|]. intros i _. unfold F, Z, cget.
      rewrite nth_overflow by (rewrite tab_length; lia). unfold cmul, c0. cbn [fst]. cbn. ring. }
  rewrite (Rsum_ext _ F _ E1). rewrite Rsum_scale, Rsum_swap.
  rewrite (Rsum_ext N _ (fun n => / 2 * (get w n * ((if ((n + c) mod N =? 0)%nat then INR N else 0) + 1 - (if Nat.even N then (-1) ^ (n + c) else 0))))).
  2:{ intros n _. rewrite Rsum_scale. rewrite <- phase_bins by exact HN. lra. }
  rewrite Rsum_scale.
  rewrite (Rsum_ext N _ (fun n => ((if ((n + c) mod N =? 0)%nat then INR N * get w n else 0) + get w n) + (if Nat.even N then - (-1) ^ c else 0) * ((-1) ^ n * get w n))).
  2:{ intros n _. destruct ((n + c) mod N =? 0)%nat, (Nat.even N); try rewrite pow_add; ring. }
  rewrite !Rsum_add, Rsum_scale.
  rewrite (Rsum_single N ((N - c) mod N) (fun n => if ((n + c) mod N =? 0)%nat then INR N * get w n else 0)).
  - destruct (Nat.eqb_spec (((N - c) mod N + c) mod N) 0) as [_|D].
    + destruct (Nat.even N); field; exact N0.
    + exfalso. apply D. rewrite Nat.add_mod_idemp_l by lia. replace (N - c + c)%nat with N by lia. apply Nat.mod_same. lia.
  - apply Nat.mod_upper_bound. lia.
  - intros i Hi Hne. destruct (Nat.eqb_spec ((i + c) mod N) 0) as [D|_]; [|reflexivity]. exfalso. apply Hne.
    destruct (Nat.eq_dec c 0) as [->|C].
    + rewrite Nat.add_0_r, Nat.mod_small in D by exact Hi. subst i. rewrite Nat.sub_0_r. symmetry. apply Nat.mod_same. lia.
    + rewrite (Nat.mod_small (N - c)) by lia. apply Nat.mod_divides in D; [|lia]. destruct D as [q D]. destruct q as [|[|q]]; nia.
Qed.

Lemma mean_uniform (N : nat) (h : R) : (2 <= N)%nat -> mean_step (tab N (fun k => INR k * h)) = Ok h.
Proof.
  intros HN. unfold mean_step. destruct (tab N (fun k => INR k * h)) as [|a [|b l]] eqn:E;
    try (apply (f_equal (@List.length R)) in E; rewrite tab_length in E; cbn in E; lia).
  rewrite <- E. rewrite tab_length. f_equal. change (sum ?n ?f) with (Rsum n f).
  rewrite (Rsum_ext (N - 1) _ (fun _ => h)).
  - rewrite Rsum_const, nofnat_INR. cbn. field. apply not_0_INR. lia.
  - intros i Hi. rewrite !get_tab by lia. rewrite S_INR. cbn. ring.
Qed.

Lemma back_spec c w t dt : (3 <= List.length w)%nat -> mean_step t = Ok dt -> 0 < dt -> let N := List.length w in
  exists f Z, calc_impedance_from_wake twR c (WaArr w) None (Some t) None None = Ok (f, Z) /\
    (exists t' w', calc_wake_from_impedance twR (ImPair f Z) None None None = Ok (t', w') /\ List.length w' = bins N) /\
    exists t' w', calc_wake_from_impedance twR (ImPair f Z) None None (Some N) = Ok (t', w') /\ List.length t' = N /\ List.length w' = N /\
      (forall j, (j < N)%nat -> get t' j = INR j * (INR N * dt / INR (N - 1)) /\
        get w' j = - get w (N - 1 - j) - Rsum N (get w) / INR N - (if Nat.even N then (-1) ^ j * (Rsum N (fun n => (-1) ^ n * get w n) / INR N) else 0)).
Proof.
  intros HN Ht Hd N. pose proof (bins_spec N ltac:(unfold N; lia)) as B. pose proof (bins_le N ltac:(unfold N; lia)) as L.
  assert (K2 : (2 <= bins N)%nat) by (destruct (Nat.even N); unfold N in *; lia).
  assert (N0 : INR N <> 0) by (apply not_0_INR; unfold N; lia). assert (N1 : INR (N - 1) <> 0) by (apply not_0_INR; unfold N; lia).
  pose proof (impedance_spec c w None (Some t) t dt None eq_refl Ht Hd ltac:(unfold win; lia)) as I. cbn [win] in I. fold N in I.
  do 2 eexists. split; [exact I|]. clear I. set (h := 1 / (INR N * dt)).
  unfold calc_wake_from_impedance. cbn [bind]. rewrite mean_uniform by exact K2. cbn [bind].
  rewrite !tab_length. destruct (Nat.eqb_spec (bins N) 0) as [E|_]; [lia|]. destruct (Nat.eqb_spec N 0) as [E|_]; [unfold N in E; lia|].
  split; [do 2 eexists; split; [reflexivity|apply tab_length]|].
  do 2 eexists. split; [reflexivity|]. split; [apply tab_length|]. split; [apply tab_length|].
  intros j Hj. split.
  - rewrite get_tab by exact Hj. destruct (Nat.eqb_spec N 1) as [E|_]; [unfold N in E; lia|]. rewrite !nofnat_INR. unfold h. cbn. field. repeat split; try assumption; lra.
  - rewrite get_tab by exact Hj. set (c' := ((j + 1) mod N)%nat). assert (C : (c' < N)%nat) by (apply Nat.mod_upper_bound; lia).
    unfold get at 1. set (F := fun a : cx R => (- fst a)%num).
    rewrite (nth_indep _ _ (F c0)) by (rewrite map_length; unfold cfft; rewrite tab_length; exact C). rewrite map_nth.
    unfold F. unfold cfft. change (nth c' (tab N ?f) c0) with (cget (tab N f) c'). rewrite cget_tab by exact C.
    pose proof (back_value N w c' ltac:(lia) C) as V. cbv zeta in V. change (nopp ?x) with (- x). unfold h. fold N. rewrite V.
    assert (Ej : ((N - c') mod N = N - 1 - j)%nat).
    { unfold c'. destruct (Nat.eq_dec (j + 1) N) as [Q|Q].
      - rewrite Q, Nat.mod_same, Nat.sub_0_r, Nat.mod_same by lia. lia.
      - rewrite (Nat.mod_small (j + 1)) by lia. rewrite Nat.mod_small by lia. lia. }
    rewrite Ej. destruct (Nat.even N) eqn:Ev; [|ring].
    assert (P : (-1) ^ c' = - (-1) ^ j).
    { unfold c'. destruct (Nat.eq_dec (j + 1) N) as [Q|Q].
      - rewrite Q, Nat.mod_same by lia. apply Nat.even_spec in Ev. destruct Ev as [q Ev]. replace j with (2 * (q - 1) + 1)%nat by lia.
        rewrite pow_add, pow_1_even. cbn. ring.
      - rewrite (Nat.mod_small (j + 1)) by lia. rewrite pow_add. cbn. ring. }
    rewrite P. ring.
Qed.
