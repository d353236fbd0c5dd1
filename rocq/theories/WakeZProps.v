(** Properties C56, C81, C82: impedances. *)
From Coq Require Import List Arith ZArith Bool String Lia Reals Lra QArith Qcanon.
From Verif Require Import Num Vec FieldModel GridModel GridProofs2 SolverModel SolverCons SolverKit MpiTiles WakeModel WakeNum WakeProofs WakeTrans WakeZ WakeZProofs.
Import ListNotations.
Open Scope nat_scope.

(** ** C56 *)
Theorem C56_axis : forall (T : Type) (NT : Num T) (LT : NumLaws T) (OT : NumOrd T) (FT : NumFl T) (FL : NumFlLaws T)
    (tw : nat -> nat -> cx T) (v fmax ds : T) samples (s lam WP : list T),
  mean_step s = Ok ds -> nltb nzero v = true -> nltb nzero ds = true -> nltb nzero fmax = true -> 1 <= samples ->
  nltb (v / ds)%num fmax = false ->
  exists f Z L m, calc_long_Z tw v fmax samples s lam WP = Ok (f, Z, L) /\
    1 <= m /\ 1 <= List.length f <= samples /\ List.length Z = List.length f /\ List.length L = List.length f /\
    (forall k, k < List.length f -> get f k = nofnat k * (v / (nofnat (m * samples) * ds)))%num /\
    get f 0 = nzero /\ (forall k, S k < List.length f -> nltb (get f k) (get f (S k)) = true) /\
    (forall k, k < List.length f -> nltb (get f k) fmax = true).
Proof.
  intros T NT LT OT FT FL tw v fmax ds samples s lam WP Hs Hv Hd Hf H1 Hle.
  destruct (dft_len_spec v ds fmax samples Hv Hd Hf H1 Hle) as (m & Hm & Em & HN).
  set (N := m * samples) in *. assert (PN : 0 < N) by (unfold N; nia).
  assert (Pd : nltb nzero (ds / v)%num = true) by (apply div_pos; assumption).
  destruct (spectra_spec tw v fmax ds samples s lam [WP] N Hs HN PN Pd) as (r & Er & F1 & F2 & F3).
  pose proof (kept_le v ds fmax samples m Hv Hd Hf H1 Hm Em) as K. fold N in K.
  set (M := kept N (ds / v)%num fmax) in *.
  unfold calc_long_Z. rewrite Er. cbn [bind]. do 3 eexists. exists m. split; [reflexivity|]. split; [exact Hm|].
  rewrite F1, F2, F3. cbn [map nth]. unfold ratio. rewrite !tab_length.
  split; [exact K|]. do 2 (split; [reflexivity|]).
  assert (G : forall k, k < M -> get (tab M (fun k => nofnat k * (1 / (nofnat N * (ds / v)))))%num k = (nofnat k * (v / (nofnat N * ds)))%num).
  { intros k Hk. rewrite get_tab by exact Hk. rewrite step_form by assumption. reflexivity. }
  split; [exact G|]. split; [rewrite get_tab by lia; apply nofnat_0_mul|]. split.
  - intros k Hk. rewrite !get_tab by lia. apply grid_increasing; [|lia]. apply inv_pos. apply mul_pos; [apply nofnat_pos; exact PN|exact Pd].
  - intros k Hk. rewrite get_tab by exact Hk. apply kept_below; assumption.
Qed.
Print Assumptions C56_axis.

(** Above v/ds there is no transform. *)
Theorem C56_above : forall (T : Type) (NT : Num T) (LT : NumLaws T) (OT : NumOrd T) (FT : NumFl T) (FL : NumFlLaws T)
    (tw : nat -> nat -> cx T) (v fmax ds : T) samples (s lam WP : list T),
  mean_step s = Ok ds -> nltb nzero ds = true -> nltb nzero fmax = true -> nltb (v / ds)%num fmax = true ->
  calc_long_Z tw v fmax samples s lam WP = Err ValueError.
Proof.
  intros T NT LT OT FT FL tw v fmax ds samples s lam WP Hs Hd Hf H. unfold calc_long_Z, spectra. rewrite Hs. cbn [bind].
  rewrite dft_len_fails by assumption. reflexivity.
Qed.
Print Assumptions C56_above.

(** ** C82.  Full claim: the axis reaches to within one frequency step of fmax. *)
Theorem C82_reaches_partial : forall (T : Type) (NT : Num T) (LT : NumLaws T) (OT : NumOrd T) (FT : NumFl T) (FL : NumFlLaws T)
    (tw : nat -> nat -> cx T) (v fmax ds : T) samples (s lam WP : list T),
  mean_step s = Ok ds -> nltb nzero v = true -> nltb nzero ds = true -> nltb nzero fmax = true -> 1 <= samples ->
  nltb (v / ds)%num (nofnat 2 * fmax)%num = false ->
  exists f Z L step, calc_long_Z tw v fmax samples s lam WP = Ok (f, Z, L) /\
    (forall k, k < List.length f -> get f k = nofnat k * step)%num /\
    nltb (nofnat (List.length f) * step)%num fmax = false.
Proof.
  intros T NT LT OT FT FL tw v fmax ds samples s lam WP Hs Hv Hd Hf H1 H2.
  assert (Hle : nltb (v / ds)%num fmax = false).
  { eapply le_trans; [|exact H2]. apply ltb_asym. apply double_gt. exact Hf. }
  destruct (dft_len_spec v ds fmax samples Hv Hd Hf H1 Hle) as (m & Hm & Em & HN).
  set (N := m * samples) in *. assert (PN : 0 < N) by (unfold N; nia).
  assert (Pd : nltb nzero (ds / v)%num = true) by (apply div_pos; assumption).
  destruct (spectra_spec tw v fmax ds samples s lam [WP] N Hs HN PN Pd) as (r & Er & F1 & F2 & F3).
  unfold calc_long_Z. rewrite Er. cbn [bind]. do 3 eexists. exists (1 / (nofnat N * (ds / v)))%num. split; [reflexivity|].
  rewrite F1, tab_length. split; [intros k Hk; rewrite get_tab by exact Hk; reflexivity|]. apply kept_reaches; assumption.
Qed.
Print Assumptions C82_reaches_partial.
(** Examples and witness: four samples one unit apart, v = 1. *)
Definition sQ : list Qc := [q 0 1; q 1 1; q 2 1; q 3 1].
Lemma sQ_step : exists ds, mean_step sQ = Ok ds /\ ds = q 1 1.
Proof. eexists. split; [reflexivity|]. apply Qc_this. vm_compute. reflexivity. Qed.
Example C56_case : forall tw, exists f Z L, calc_long_Z tw (q 1 1) (q 1 4) 3 sQ sQ sQ = Ok (f, Z, L) /\ map this f = [0; 1 # 12; 1 # 6]%Q.
Proof.
  intros tw. destruct sQ_step as (ds & E & Eds). subst ds.
  destruct (C56_axis Qc _ _ _ _ _ tw (q 1 1) (q 1 4) (q 1 1) 3 sQ sQ sQ E) as (f & Z & L & m & A & _ & _ & _); try reflexivity; [lia|].
  exists f, Z, L. split; [exact A|].
  assert (V : match calc_long_Z tw (q 1 1) (q 1 4) 3 sQ sQ sQ with Ok (f, _, _) => map this f | Err _ => [] end = [0; 1 # 12; 1 # 6]%Q)
    by (unfold calc_long_Z, spectra; vm_compute; reflexivity).
  rewrite A in V. exact V.
Qed.
Example C82_reaches_case : forall tw, exists f Z L step, calc_long_Z tw (q 1 1) (q 1 4) 3 sQ sQ sQ = Ok (f, Z, L) /\
  (forall k, k < List.length f -> get f k = nofnat k * step)%num /\ nltb (nofnat (List.length f) * step)%num (q 1 4) = false.
Proof.
  intros tw. destruct sQ_step as (ds & E & Eds). subst ds.
  apply (C82_reaches_partial Qc _ _ _ _ _ tw (q 1 1) (q 1 4) (q 1 1) 3 sQ sQ sQ E); try reflexivity. lia.
Qed.
Theorem C82_refuted : forall tw, exists (v fmax : Qc) samples s lam WP f Z L step,
  calc_long_Z tw v fmax samples s lam WP = Ok (f, Z, L) /\ 1 < List.length f /\
  (forall k, k < List.length f -> get f k = nofnat k * step)%num /\
  nltb (nofnat (S (List.length f)) * step)%num fmax = true.
Proof.
  intros tw. destruct sQ_step as (ds & E & Eds). subst ds.
  destruct (C56_axis Qc _ _ _ _ _ tw (q 1 1) (q 4 5) (q 1 1) 4 sQ sQ sQ E) as (f & Z & L & m & A & _ & _ & _); try reflexivity; [lia|].
  exists (q 1 1), (q 4 5), 4, sQ, sQ, sQ, f, Z, L, (q 1 4). split; [exact A|].
  assert (V : match calc_long_Z tw (q 1 1) (q 4 5) 4 sQ sQ sQ with Ok (f, _, _) => map this f | Err _ => [] end = [0; 1 # 4]%Q)
    by (unfold calc_long_Z, spectra; vm_compute; reflexivity).
  rewrite A in V. assert (Lf : List.length f = 2) by (rewrite <- (map_length this), V; reflexivity). rewrite Lf.
  split; [lia|]. split; [|vm_compute; reflexivity].
  intros k Hk. apply Qc_this. unfold get. rewrite <- (map_nth this f nzero k), V.
  destruct k as [|[|k]]; [vm_compute; reflexivity|vm_compute; reflexivity|lia].
Qed.
Print Assumptions C82_refuted.

(** ** C81.  Full claim: at every returned frequency f the impedance is minus the ratio of the Fourier sums of
    the whole wake (in V/C) and of the whole charge distribution at f. *)
Open Scope R_scope.
(** exp(-2 pi i m / N) *)
Definition twR (N m : nat) : cx R := (cos (2 * PI * INR m / INR N), - sin (2 * PI * INR m / INR N)).
(** Fourier sum of samples taken every d seconds, at frequency f. *)
Definition fourier (d : R) (x : list R) (f : R) : cx R :=
  csum (List.length x) (fun n => (get x n * cos (2 * PI * f * (INR n * d)), - (get x n * sin (2 * PI * f * (INR n * d))))).

Lemma fourier_dft d x N k : (0 < N)%nat -> d <> 0 ->
  dft twR N x k = fourier d x (INR k * (1 / (INR N * d))).
Proof.
  intros HN Hd. unfold dft, fourier. apply csum_ext. intros n Hn. unfold twR, cscale. cbn [fst snd].
  assert (A : 2 * PI * INR (n * k) / INR N = 2 * PI * (INR k * (1 / (INR N * d))) * (INR n * d)).
  { rewrite mult_INR. assert (INR N <> 0) by (apply not_0_INR; lia). field. split; assumption. }
  rewrite A. f_equal. change (nmul (get x n) (- sin (2 * PI * (INR k * (1 / (INR N * d))) * (INR n * d)))
     = - (get x n * sin (2 * PI * (INR k * (1 / (INR N * d))) * (INR n * d)))).
  change (nmul (get x n) (- sin (2 * PI * (INR k * (1 / (INR N * d))) * (INR n * d)))) with (get x n * - sin (2 * PI * (INR k * (1 / (INR N * d))) * (INR n * d))).
  ring.
Qed.

Lemma dft_len_R (v fmax ds : R) samples : 0 < v -> 0 < ds -> 0 < fmax -> (1 <= samples)%nat -> fmax <= v / ds ->
  exists N, (0 < N)%nat /\ Z.of_nat N = (Int_part (v / ds / fmax) * Z.of_nat samples)%Z /\ dft_len v ds fmax samples = Ok N.
Proof.
  intros Hv Hd Hf H1 Hle.
  destruct (dft_len_spec v ds fmax samples) as (m & Hm & Em & HN); try (apply R_ltb; assumption); [exact H1|apply R_ltb_f; exact Hle|].
  exists (m * samples)%nat. split; [nia|]. split; [|exact HN]. rewrite Nat2Z.inj_mul, Em. reflexivity.
Qed.
Lemma fourier_cut d x N k : (0 < N)%nat -> d <> 0 -> (List.length x <= N)%nat ->
  dft_cut twR N x k = fourier d x (INR k * (1 / (INR N * d))).
Proof. intros HN Hd Hl. rewrite dft_cut_whole by exact Hl. apply fourier_dft; assumption. Qed.

Theorem C81_long_partial : forall (v fmax ds : R) samples (s lam WP : list R),
  mean_step s = Ok ds -> 0 < v -> 0 < ds -> 0 < fmax <= v / ds -> (1 <= samples)%nat ->
  (* the data are no longer than the transform *)
  (Z.of_nat (List.length WP) <= Int_part (v / ds / fmax) * Z.of_nat samples)%Z ->
  (Z.of_nat (List.length lam) <= Int_part (v / ds / fmax) * Z.of_nat samples)%Z ->
  exists f Z L, calc_long_Z twR v fmax samples s lam WP = Ok (f, Z, L) /\
  forall i, (i < List.length f)%nat -> cnorm2 (cscale v (fourier (ds / v) lam (get f i))) <> 0 ->
    cget Z i = cdiv (copp (cscale pico (fourier (ds / v) WP (get f i)))) (cscale v (fourier (ds / v) lam (get f i))).
Proof.
  intros v fmax ds samples s lam WP Hs Hv Hd [Hf Hle] H1 LW LL.
  destruct (dft_len_R v fmax ds samples Hv Hd Hf H1 Hle) as (N & PN & EN & HN). rewrite <- EN in LW, LL.
  assert (Dv : 0 < ds / v) by (apply Rdiv_lt_0_compat; assumption). assert (Dn : ds / v <> 0) by lra.
  destruct (spectra_ratio twR v fmax ds samples s lam [WP] N copp 0 Hs HN PN) as (r & Er & F);
    [apply R_ltb; exact Hd|apply R_ltb; exact Dv|apply cscale_opp|cbn; lia|].
  unfold calc_long_Z. rewrite Er. cbn [bind]. do 3 eexists. split; [reflexivity|].
  intros i Hi. destruct (F i Hi) as [Ff FZ]. rewrite !nofnat_INR in Ff. cbn [nth] in FZ.
  rewrite (fourier_cut (ds / v) lam N i PN Dn), (fourier_cut (ds / v) WP N i PN Dn) in FZ by lia.
  rewrite Ff. exact FZ.
Qed.
Print Assumptions C81_long_partial.

Theorem C81_trans_partial : forall (v fmax ds : R) samples (s lam WPx WPy : list R),
  mean_step s = Ok ds -> 0 < v -> 0 < ds -> 0 < fmax <= v / ds -> (1 <= samples)%nat ->
  (Z.of_nat (List.length WPx) <= Int_part (v / ds / fmax) * Z.of_nat samples)%Z ->
  (Z.of_nat (List.length WPy) <= Int_part (v / ds / fmax) * Z.of_nat samples)%Z ->
  (Z.of_nat (List.length lam) <= Int_part (v / ds / fmax) * Z.of_nat samples)%Z ->
  exists f Zx Zy, calc_trans_Z twR v fmax samples s lam WPx WPy = Ok (f, Zx, Zy) /\
  forall i, (i < List.length f)%nat -> cnorm2 (cscale v (fourier (ds / v) lam (get f i))) <> 0 ->
    cget Zx i = cdiv (cmul (0, 1) (cscale pico (fourier (ds / v) WPx (get f i)))) (cscale v (fourier (ds / v) lam (get f i))) /\
    cget Zy i = cdiv (cmul (0, 1) (cscale pico (fourier (ds / v) WPy (get f i)))) (cscale v (fourier (ds / v) lam (get f i))).
Proof.
  intros v fmax ds samples s lam WPx WPy Hs Hv Hd [Hf Hle] H1 LX LY LL.
  destruct (dft_len_R v fmax ds samples Hv Hd Hf H1 Hle) as (N & PN & EN & HN). rewrite <- EN in LX, LY, LL.
  assert (Dv : 0 < ds / v) by (apply Rdiv_lt_0_compat; assumption). assert (Dn : ds / v <> 0) by lra.
  destruct (spectra_ratio twR v fmax ds samples s lam [WPx; WPy] N (cmul ci) 0 Hs HN PN) as (r & Er & F);
    [apply R_ltb; exact Hd|apply R_ltb; exact Dv|intros; apply cscale_mul|cbn; lia|].
  destruct (spectra_ratio twR v fmax ds samples s lam [WPx; WPy] N (cmul ci) 1 Hs HN PN) as (r' & Er' & F');
    [apply R_ltb; exact Hd|apply R_ltb; exact Dv|intros; apply cscale_mul|cbn; lia|].
  assert (r' = r) by congruence. subst r'.
  unfold calc_trans_Z. rewrite Er. cbn [bind]. do 3 eexists. split; [reflexivity|].
  intros i Hi. destruct (F i Hi) as [Ff FZ]. destruct (F' i Hi) as [_ FZ']. rewrite !nofnat_INR in Ff. cbn [nth] in FZ, FZ'.
  rewrite (fourier_cut (ds / v) lam N i PN Dn), (fourier_cut (ds / v) WPx N i PN Dn) in FZ by lia.
  rewrite (fourier_cut (ds / v) lam N i PN Dn), (fourier_cut (ds / v) WPy N i PN Dn) in FZ' by lia.
  rewrite Ff. intros Hn. split; [apply FZ; exact Hn|apply FZ'; exact Hn].
Qed.
Print Assumptions C81_trans_partial.

(** What is beyond the transform's length has no effect at all. *)
Theorem C81_cropped : forall (v fmax ds : R) samples (s lam WP lam' WP' : list R) N,
  mean_step s = Ok ds -> 0 < v -> 0 < ds -> 0 < fmax <= v / ds -> (1 <= samples)%nat ->
  Z.of_nat N = (Int_part (v / ds / fmax) * Z.of_nat samples)%Z ->
  firstn N WP' = firstn N WP -> firstn N lam' = firstn N lam ->
  calc_long_Z twR v fmax samples s lam' WP' = calc_long_Z twR v fmax samples s lam WP.
Proof.
  intros v fmax ds samples s lam WP lam' WP' N Hs Hv Hd [Hf Hle] H1 EN EW EL.
  destruct (dft_len_R v fmax ds samples Hv Hd Hf H1 Hle) as (N' & PN & EN' & HN).
  assert (N' = N) by lia. subst N'.
  assert (Dv : 0 < ds / v) by (apply Rdiv_lt_0_compat; assumption).
  assert (E : forall x x' k, firstn N x' = firstn N x -> dft_cut twR N x' k = dft_cut twR N x k).
  { intros x x' k E. rewrite <- (dft_cut_firstn twR N x'), <- (dft_cut_firstn twR N x), E. reflexivity. }
  destruct (spectra_spec twR v fmax ds samples s lam [WP] N Hs HN PN) as (r & Er & F1 & F2 & F3); [apply R_ltb; exact Dv|].
  destruct (spectra_spec twR v fmax ds samples s lam' [WP'] N Hs HN PN) as (r' & Er' & F1' & F2' & F3'); [apply R_ltb; exact Dv|].
  unfold calc_long_Z. rewrite Er, Er'. cbn [bind]. rewrite F1, F1', F2, F2', F3, F3'. cbn [map nth].
  rewrite (tab_ext _ (fun k => cscale (nmul ds v) (dft_cut twR N lam' k)) (fun k => cscale (nmul ds v) (dft_cut twR N lam k)))
    by (intros k _; rewrite (E lam lam' k EL); reflexivity).
  rewrite (tab_ext _ (fun k => cscale (nmul ds pico) (dft_cut twR N WP' k)) (fun k => cscale (nmul ds pico) (dft_cut twR N WP k)))
    by (intros k _; rewrite (E WP WP' k EW); reflexivity).
  reflexivity.
Qed.
Print Assumptions C81_cropped.

(** Examples and witness *)
Lemma Int_part_nat x n : x = INR n -> Int_part x = Z.of_nat n.
Proof.
  intros ->. unfold Int_part. rewrite <- (tech_up (INR n) (Z.of_nat n + 1)); [lia| |];
    rewrite plus_IZR, <- INR_IZR_INZ; lra.
Qed.
Lemma sR_step : mean_step [0; 1; 2] = Ok 1.
Proof. unfold mean_step. f_equal. cbn. unfold get. cbn. field. Qed.
Example C81_long_case : exists f Z L, calc_long_Z twR 1 (1 / 4) 2 [0; 1; 2] [1; 0; 0] [1; 2; 3] = Ok (f, Z, L) /\
  forall i, (i < List.length f)%nat ->
    cget Z i = copp (cscale pico (fourier 1 [1; 2; 3] (get f i))).
Proof.
  assert (I : Int_part (1 / 1 / (1 / 4)) = 4%Z) by (apply (Int_part_nat _ 4); cbn; lra).
  destruct (C81_long_partial 1 (1 / 4) 1 2 [0; 1; 2] [1; 0; 0] [1; 2; 3] sR_step) as (f & Z & L & E & F);
    try lra; try lia; try (rewrite I; cbn; lia).
  exists f, Z, L. split; [exact E|]. intros i Hi. specialize (F i Hi). replace (1 / 1) with 1 in F by lra.
  assert (U : cscale 1 (fourier 1 [1; 0; 0] (get f i)) = (1, 0)).
  { unfold cscale, fourier, csum, get. cbn -[cos sin PI Rmult Rplus Ropp]. rewrite !Rmult_0_l, !Rmult_0_r, cos_0, sin_0. f_equal; ring. }
  rewrite U in F. rewrite F by (unfold cnorm2; cbn; lra).
  match goal with |- cdiv ?a _ = _ => destruct a as [x y] end. unfold cdiv, cnorm2. cbn. f_equal; field.
Qed.
Lemma sR2_step : mean_step [0; 1] = Ok 1.
Proof. unfold mean_step. f_equal. cbn. unfold get. cbn. field. Qed.
Theorem C81_refuted : exists (v fmax ds : R) samples s lam WP f Z L,
  mean_step s = Ok ds /\ 0 < v /\ 0 < ds /\ 0 < fmax <= v / ds /\ (1 <= samples)%nat /\
  List.length WP = List.length s /\ List.length lam = List.length s /\
  calc_long_Z twR v fmax samples s lam WP = Ok (f, Z, L) /\ (0 < List.length f)%nat /\
  cnorm2 (cscale v (fourier (ds / v) lam (get f 0))) <> 0 /\
  cget Z 0 <> cdiv (copp (cscale pico (fourier (ds / v) WP (get f 0)))) (cscale v (fourier (ds / v) lam (get f 0))).
Proof.
  assert (I : Int_part (1 / 1 / 1) = 1%Z) by (apply (Int_part_nat _ 1); cbn; lra).
  destruct (C81_long_partial 1 1 1 1 [0; 1] [1] [1] sR2_step) as (f & Z & L & E & F);
    try lra; try lia; try (rewrite I; cbn; lia).
  destruct (C56_axis R _ _ _ _ _ twR 1 1 1 1 [0; 1] [1] [1] sR2_step) as (f' & Z' & L' & m & A & _ & [B _] & _ & _ & _ & Cf & _);
    try (apply R_ltb; cbn; lra); try lia; [apply R_ltb_f; cbn; lra|].
  rewrite E in A. assert (f' = f) by congruence. subst f'.
  assert (G : forall x, fourier (1 / 1) [1; x] 0 = (1 + x, 0)).
  { intros x. unfold fourier, csum, get. cbn -[cos sin PI Rmult Rplus Ropp]. rewrite !Rmult_0_r, !Rmult_0_l, cos_0, sin_0. f_equal; ring. }
  assert (G1 : fourier (1 / 1) [1] 0 = (1, 0)).
  { unfold fourier, csum, get. cbn -[cos sin PI Rmult Rplus Ropp]. rewrite !Rmult_0_r, !Rmult_0_l, cos_0, sin_0. f_equal; ring. }
  specialize (F 0%nat B). rewrite Cf in F. change (@nzero R _) with 0 in F. rewrite G1 in F.
  exists 1, 1, 1, 1%nat, [0; 1], [1; 0], [1; 1], f, Z, L.
  split; [exact sR2_step|]. do 2 (split; [lra|]). split; [lra|]. do 3 (split; [cbn; lia|]).
  split; [rewrite <- E; apply (C81_cropped 1 1 1 1 [0; 1] [1] [1] [1; 0] [1; 1] 1 sR2_step); try lra; try lia; try reflexivity; try (rewrite I; reflexivity)|].
  split; [exact B|]. rewrite Cf. change (@nzero R _) with 0. rewrite !G. split; [unfold cnorm2; cbn; lra|].
  rewrite F by (unfold cnorm2; cbn; lra). intros H. apply (f_equal fst) in H.
  assert (P : 0 < pico). { unfold pico. cbn. lra. }
  revert H P. generalize (@pico R _). intros y H P. unfold cdiv, cnorm2 in H. cbn in H. lra.
Qed.
Print Assumptions C81_refuted.
