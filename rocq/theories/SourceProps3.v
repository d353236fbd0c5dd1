(** Refutations for C59, C65, C66, C83, C86, C90, and cases meeting the hypotheses of the source properties. *)
From Coq Require Import List Arith ZArith Bool String Lia Reals Lra QArith Qcanon.
From Verif Require Import Num Vec FieldModel FieldSpec FieldProofs FieldProofs2 GridModel GridProofs GridProofs2 SolverModel SolverKern SolverCons SolverKit
  SolverProps4 MpiModel MpiSolverModel MpiTiles WakeModel WakeNum WakeProofs WakeCells WakeRun WakeTotal WakeWin SourceModel SourceProofs SourceProofs2 SourceProofs3
  SourceReal SourceProps SourceProps2.
Import ListNotations.
Open Scope nat_scope.

(** ** Real boxes *)
Lemma nabs_R (x : R) : nabs x = Rabs x.
Proof.
  unfold nabs. destruct (nltb x nzero) eqn:E.
  - apply R_ltb in E. rewrite Rabs_left by exact E. reflexivity.
  - apply R_ltb_f in E. rewrite Rabs_pos_eq by exact E. reflexivity.
Qed.
Lemma nearest_at (v : list R) p i : i < List.length v -> get v i = p -> (forall l, l < List.length v -> l <> i -> get v l <> p) -> nearest v p = Ok i.
Proof.
  intros Hi Ei Ho. destruct (nearest_ok v p) as (m & Hm & _); [lia|]. rewrite Hm. f_equal.
  destruct (nearest_spec v p m Hm) as [Lm N]. destruct (Nat.eq_dec m i) as [->|D]; [reflexivity|]. exfalso.
  specialize (N i Hi). rewrite !nabs_R in N. apply R_ltb_f in N. rewrite Ei in N. cbn [nsub Num_R] in N.
  replace (p - p)%R with 0%R in N by ring. rewrite Rabs_R0 in N. pose proof (Rabs_pos (get v m - p)) as Q.
  apply (Ho m Lm D). destruct (Req_dec (get v m - p) 0) as [Z|Z]; [lra|]. apply Rabs_pos_lt in Z. lra.
Qed.
(** cells [a, a+1], [a+1, a+2], ... *)
Definition axis (a : R) (n : nat) : list R := tab (S n) (fun i => a + INR i)%R.
Lemma axis_len a n : List.length (axis a n) = S n.
Proof. apply tab_length. Qed.
Lemma axis_inc a n : increasing (axis a n).
Proof. intros i Hi. rewrite axis_len in Hi. unfold axis. rewrite !get_tab by lia. rewrite plus_INR. cbn. lra. Qed.
Lemma axis_cell a n k : k < n -> get (centres (axis a n)) k = (a + INR k + / 2)%R /\ get (widths (axis a n)) k = 1%R.
Proof.
  intros H. unfold centres, widths. rewrite !get_tab by (rewrite axis_len; lia). unfold axis. rewrite !get_tab by lia.
  rewrite S_INR, n2. cbn [nadd nsub ndiv Num_R]. split; field.
Qed.
Lemma axis_centres a n : List.length (centres (axis a n)) = n.
Proof. rewrite centres_length, axis_len. lia. Qed.
Lemma axis_near a n k : k < n -> nearest (centres (axis a n)) (a + INR k + / 2)%R = Ok k.
Proof.
  intros H. apply nearest_at; rewrite ?axis_centres; [exact H|apply axis_cell; exact H|].
  intros l Hl D. destruct (axis_cell a n l Hl) as [-> _]. intros E. apply D. apply INR_eq. lra.
Qed.
Lemma axis_min a n : 0 < n -> np_min (centres (axis a n)) = Ok (a + / 2)%R.
Proof.
  intros H. rewrite (uniform_min (axis a n) n a 1%R).
  - f_equal. rewrite n2. cbn. field.
  - rewrite axis_len. lia.
  - intros i Hi. unfold axis. rewrite get_tab by lia. rewrite nofnat_INR. cbn. ring.
  - exact H.
  - apply R_ltb. cbn. lra.
Qed.
Lemma boxR a b c l m n : 0 < l -> 0 < m -> 0 < n -> exists g g' s, made envR g g' (box_args (1 / 4)%R) s /\
  gx g = axis a l /\ gy g = axis b m /\ gz g = axis c n /\ gNx g = l /\ gNy g = m /\ gNz g = n /\ sdt s = (1 / 4)%R /\ scond s = false /\
  (forall d i j k, d < 3 -> i < l -> j < m -> k < n -> entry (sJ s) d i j k = 0%R).
Proof.
  intros Hl Hm Hn. destruct (box_made envR (axis a l) (axis b m) (axis c n) (1 / 4)%R) as (g & g' & s & M & Ex & Ey & Ez & D & C & J); [rewrite axis_len; lia..|].
  exists g, g', s. do 4 (split; [assumption|]).
  assert (Nx : gNx g = l) by (unfold gNx; rewrite Ex, axis_len; lia).
  assert (Ny : gNy g = m) by (unfold gNy; rewrite Ey, axis_len; lia).
  assert (Nz : gNz g = n) by (unfold gNz; rewrite Ez, axis_len; lia).
  do 5 (split; [assumption|]). rewrite Nx, Ny, Nz in J. exact J.
Qed.
(** a bunch on the axis of cell (k, l) *)
Definition bunchR (k l : nat) : Beam R := beam_init envR 8%R (INR k + / 2)%R (INR l + / 2)%R 1%R 1%R 1%R None.

Example C63_C64_C89_case : exists g g' ar s b, made envR g g' ar s /\ bm_first b = None /\ scond s = false /\ e_sqrt envR = sqrt /\
  (0 < bm_sigmaz b)%R /\ (0 < bm_q b * bm_v b)%R /\ increasing (gx g) /\ increasing (gy g) /\
  nearest (centres (gx g)) (bm_x b) = Ok 1 /\ nearest (centres (gy g)) (bm_y b) = Ok 0 /\ np_min (centres (gz g)) = Ok (/ 2)%R /\
  exists b' J, beam_update envR g None b s 8%R = Ok (b', with_fields s (sE s) (sH s) J) /\
    (forall k, k < 4 -> (0 < entry J 2 1 0 k)%R) /\ (entry J 2 1 0 3 < entry J 2 1 0 0)%R /\ entry J 2 0 1 2 = 0%R.
Proof.
  destruct (boxR 0 0 0 3 2 4) as (g & g' & s & M & Ex & Ey & Ez & Nx & Ny & Nz & D & C & J0); [lia..|].
  exists g, g', (box_args (1 / 4)%R), s, (bunchR 1 0). split; [exact M|]. split; [reflexivity|]. split; [exact C|]. split; [reflexivity|].
  split; [cbn; lra|]. split; [cbn; lra|]. rewrite Ex, Ey, Ez. split; [apply axis_inc|]. split; [apply axis_inc|].
  assert (N1 : nearest (centres (axis 0 3)) (bm_x (bunchR 1 0)) = Ok 1).
  { cbn [bunchR beam_init bm_x]. rewrite <- (Rplus_0_l (INR 1)). apply axis_near. lia. }
  assert (N2 : nearest (centres (axis 0 2)) (bm_y (bunchR 1 0)) = Ok 0).
  { cbn [bunchR beam_init bm_y]. rewrite <- (Rplus_0_l (INR 0)). apply axis_near. lia. }
  assert (N3 : np_min (centres (axis 0 4)) = Ok (/ 2)%R) by (rewrite axis_min by lia; f_equal; ring).
  split; [exact N1|]. split; [exact N2|]. split; [exact N3|].
  assert (F : beam_first (bunchR 1 0) g None = Ok (1, 0, (/ 2)%R)).
  { unfold beam_first. cbn [bm_first bunchR beam_init]. rewrite Ex, Ey, Ez. change (beam_init _ _ _ _ _ _ _ _) with (bunchR 1 0). rewrite N1, N2. cbn [bind]. rewrite N3. reflexivity. }
  destruct (beam_update_spec envR g None (bunchR 1 0) s 8%R 1 0 (/ 2)%R F ltac:(lia) ltac:(lia) (proj2 (proj2 (made_sized _ _ _ _ _ M))))
    as (b' & J & U & _ & _ & _ & _ & _ & A).
  exists b', J. split; [exact U|]. rewrite Nx, Ny, Nz in A.
  assert (V : forall k, k < 4 -> entry J 2 1 0 k = bell 1 (/ 2) (INR k + / 2)).
  { intros k Hk. rewrite A by lia. cbn [Nat.eqb andb]. rewrite profile_density, density_bell by reflexivity. rewrite Ex, Ey, Ez.
    destruct (axis_cell 0 4 k Hk) as [-> _]. destruct (axis_cell 0 3 1 ltac:(lia)) as [_ ->]. destruct (axis_cell 0 2 0 ltac:(lia)) as [_ ->].
    cbn [bunchR beam_init bm_q bm_v bm_ti bm_sigmaz envR e_c nadd nsub nmul ndiv Num_R].
    replace (/ 2 + 1 * 1 * (8 - 8 * 1 / (1 * 1)))%R with (/ 2)%R by field. replace (0 + INR k + / 2)%R with (INR k + / 2)%R by ring. field. }
  split. { intros k Hk. rewrite V by exact Hk. apply bell_pos. lra. }
  split. { rewrite !V by lia. apply bell_cmp; [lra|]. cbn. lra. }
  rewrite A by lia. cbn [Nat.eqb andb]. apply J0; lia.
Qed.

(** ** C86: a source used with a second solver keeps the first solver's indices. *)
Theorem C86_reuse_refuted : exists g1 g1' g2 g2' s1 s2 (b b' : Beam R) s1' J Jf b2 bf,
  made envR g1 g1' (box_args (1 / 4)%R) s1 /\ made envR g2 g2' (box_args (1 / 4)%R) s2 /\
  beam_update envR g1 None b s1 0%R = Ok (b', s1') /\
  nearest (centres (gx g2)) (bm_x b') = Ok 1 /\ nearest (centres (gy g2)) (bm_y b') = Ok 0 /\
  beam_update envR g2 None b' s2 0%R = Ok (b2, with_fields s2 (sE s2) (sH s2) J) /\
  beam_update envR g2 None b s2 0%R = Ok (bf, with_fields s2 (sE s2) (sH s2) Jf) /\
  (entry J 2 1 0 0 = 0 /\ 0 < entry J 2 0 0 0 /\ 0 < entry Jf 2 1 0 0)%R.
Proof.
  destruct (boxR 0 0 0 2 1 1) as (g1 & g1' & s1 & M1 & Ex1 & Ey1 & Ez1 & Nx1 & Ny1 & Nz1 & _ & _ & _); [lia..|].
  destruct (boxR (-1) 0 0 2 1 1) as (g2 & g2' & s2 & M2 & Ex2 & Ey2 & Ez2 & Nx2 & Ny2 & Nz2 & _ & _ & J0); [lia..|].
  set (b := bunchR 0 0).
  assert (B1 : nearest (centres (gx g1)) (bm_x b) = Ok 0).
  { rewrite Ex1. cbn [b bunchR beam_init bm_x]. rewrite <- (Rplus_0_l (INR 0)). apply axis_near. lia. }
  assert (B2 : nearest (centres (gy g1)) (bm_y b) = Ok 0).
  { rewrite Ey1. cbn [b bunchR beam_init bm_y]. rewrite <- (Rplus_0_l (INR 0)). apply axis_near. lia. }
  assert (C1 : nearest (centres (gx g2)) (bm_x b) = Ok 1).
  { rewrite Ex2. cbn [b bunchR beam_init bm_x]. replace (INR 0 + / 2)%R with (-1 + INR 1 + / 2)%R by (cbn; ring). apply axis_near. lia. }
  assert (C2 : nearest (centres (gy g2)) (bm_y b) = Ok 0).
  { rewrite Ey2. cbn [b bunchR beam_init bm_y]. rewrite <- (Rplus_0_l (INR 0)). apply axis_near. lia. }
  assert (F1 : beam_first b g1 None = Ok (0, 0, (0 + / 2)%R)).
  { unfold beam_first. change (bm_first b) with (@None (nat * nat * R)). rewrite B1, B2. cbn [bind]. rewrite Ez1, axis_min by lia. reflexivity. }
  assert (F2 : beam_first b g2 None = Ok (1, 0, (0 + / 2)%R)).
  { unfold beam_first. change (bm_first b) with (@None (nat * nat * R)). rewrite C1, C2. cbn [bind]. rewrite Ez2, axis_min by lia. reflexivity. }
  destruct (beam_update_spec envR g1 None b s1 0%R _ _ _ F1 ltac:(lia) ltac:(lia) (proj2 (proj2 (made_sized _ _ _ _ _ M1)))) as (b' & J1 & U1 & G1 & Pr & Q1 & V1 & _).
  assert (X : bm_x b' = bm_x b /\ bm_y b' = bm_y b /\ bm_sigmaz b' = bm_sigmaz b).
  { unfold beam_update in U1. rewrite F1 in U1. cbn [bind] in U1.
    destruct (item (widths (gx g1)) 0); [|discriminate]. cbn [bind] in U1. destruct (item (widths (gy g1)) 0); [|discriminate]. cbn [bind] in U1.
    destruct (setitem _ _ _); [|discriminate]. cbn [bind] in U1. apply (f_equal (fun r => match r with Ok p => fst p | _ => b end)) in U1. cbn [fst] in U1. rewrite <- U1. auto. }
  destruct X as (X1 & X2 & X3).
  assert (F3 : beam_first b' g2 None = Ok (0, 0, (0 + / 2)%R)) by (unfold beam_first; rewrite G1; reflexivity).
  destruct (beam_update_spec envR g2 None b' s2 0%R _ _ _ F3 ltac:(lia) ltac:(lia) (proj2 (proj2 (made_sized _ _ _ _ _ M2)))) as (b2 & J & U2 & _ & _ & _ & _ & _ & A2).
  destruct (beam_update_spec envR g2 None b s2 0%R _ _ _ F2 ltac:(lia) ltac:(lia) (proj2 (proj2 (made_sized _ _ _ _ _ M2)))) as (bf & Jf & Uf & _ & _ & _ & _ & _ & Af).
  exists g1, g1', g2, g2', s1, s2, b, b', (with_fields s1 (sE s1) (sH s1) J1), J, Jf, b2, bf.
  rewrite X1, X2. do 7 (split; [assumption|]). rewrite A2, A2, Af by lia. cbn [Nat.eqb andb].
  split; [apply J0; lia|].
  assert (P : forall b z zc : R, (0 < bell b zc z -> 0 < 1 * 1 * bell b zc z / 1 / 1)%R) by (intros; lra).
  rewrite Q1, V1, Pr, !profile_density, !density_bell by reflexivity. rewrite Ex2, Ey2, Ez2.
  destruct (axis_cell (-1) 2 0 ltac:(lia)) as [_ ->]. destruct (axis_cell (-1) 2 1 ltac:(lia)) as [_ ->]. destruct (axis_cell 0 1 0 ltac:(lia)) as [_ ->].
  cbn [b bunchR beam_init bm_q bm_v envR e_c nmul ndiv Num_R]. rewrite !Rmult_1_l. unfold Rdiv. rewrite !Rinv_1, !Rmult_1_r.
  split; apply bell_pos; cbn; lra.
Qed.
Print Assumptions C86_reuse_refuted.

(** ** C59: half the speed of light, default injection time *)
Theorem C59_times_refuted : exists env k0 q sigmaz beta xs ys xt yt zmin t,
  real_env env /\ (0 < k0)%R /\ (0 < sigmaz)%R /\ (0 < beta < 1)%R /\
  let b := wake_beam env k0 xs ys beta q sigmaz in
  let w := wake_init env k0 q sigmaz beta xt yt None None 0 false false in
  (beam_profile env b zmin zmin (wk_ti w) < beam_profile env b zmin zmin t)%R.
Proof.
  exists envR, 8%R, 1%R, 1%R, (/ 2)%R, 0%R, 0%R, 0%R, 0%R, 0%R.
  assert (H := C59_exact_partial envR 8%R 1%R 1%R (/ 2)%R 0%R 0%R 0%R 0%R None None 0 false false 0%R realR ltac:(lra) ltac:(lra) ltac:(lra)).
  cbv zeta in H. set (b := wake_beam _ _ _ _ _ _ _) in *. set (w := wake_init _ _ _ _ _ _ _ _ _ _ _ _) in *.
  destruct (Rlt_dec (beam_profile envR b 0%R 0%R (wk_ti w)) (beam_profile envR b 0%R 0%R (bm_ti b))) as [L|L].
  - exists (bm_ti b). split; [exact realR|]. split; [lra|]. split; [lra|]. split; [lra|]. exact L.
  - exfalso. assert (N : (/ 2 <> 1)%R) by lra. apply N. apply H. intros t.
    assert (F : forall t, beam_profile envR b 0%R 0%R t = bell 1 (0 + bm_v b * (t - bm_ti b)) 0) by (intros u; rewrite profile_density, density_bell by reflexivity; reflexivity).
    apply Rnot_lt_le in L. eapply Rle_trans; [|exact L]. rewrite !F. replace (0 + bm_v b * (bm_ti b - bm_ti b))%R with 0%R by ring.
    rewrite (bell_shift 1 _ 0 0 (- (bm_v b * (t - bm_ti b)))) by (left; ring).
    destruct (Req_dec (- (bm_v b * (t - bm_ti b))) 0) as [->|Z]; [lra|]. left. apply bell_top; [lra|exact Z].
Qed.
Print Assumptions C59_times_refuted.
(** A user-supplied ti never reaches the beam. *)
Example C59_case : real_env envR /\ forall t, wk_ti (wake_init envR 8 1 1 1 0 0 (Some t) None 0 false false)%R = t /\ bm_ti (wake_beam envR 8 0 0 1 1 1)%R = 8%R.
Proof. split; [exact realR|]. intros t. split; [reflexivity|]. cbn. field. Qed.

(** ** C65 *)
Lemma key0 n : 0 < n -> key_ok n (KI 0).
Proof. intros H. cbn [key_ok]. lia. Qed.
Lemma whole n i : i < n -> exists p, selects n (krange 0 (Z.of_nat n)) i p.
Proof.
  intros H. exists i. cbn [krange selects]. unfold clip. cbn [Z.ltb Z.compare]. destruct (Z.ltb_spec (Z.of_nat n) 0); lia.
Qed.
Theorem C65_impedance_refuted : exists g g' s p p' E H, made envR g g' (box_args (1 / 4)%R) s /\
  pw_init envR None None (KI 0) None (Some (/ PI)%R) 1%R 1%R 0%R = Ok p /\ pw_update envR p s 0%R = Ok (p', with_fields s E H (sJ s)) /\
  entry H 1 0 0 0 = (-1)%R /\ entry E 0 0 0 0 = (/ 2)%R /\ Rabs (entry E 0 0 0 0)%R <> (e_mu0 envR * pw_vp p * Rabs (entry H 1 0 0 0))%R.
Proof.
  destruct (boxR 0 0 0 2 2 2) as (g & g' & s & M & _ & _ & _ & Nx & Ny & Nz & _); [lia..|].
  destruct (pw_init envR None None (KI 0) None (Some (/ PI)%R) 1%R 1%R 0%R) as [p|] eqn:Ep; [|discriminate].
  pose proof PI_RGT_0 as PP.
  assert (W : (nofnat 2 * npi * / PI)%num = 2%R) by (rewrite n2; cbn [nmul npi NumTr_R Num_R]; field; lra).
  destruct (C65_ratio_partial R _ _ _ _ _ _ envR g g' _ s 0%R None None (KI 0) None (/ PI)%R 1%R 1%R 0%R p M Ep) as (p' & E & H & U & _ & A & _).
  - cbn; lra.
  - cbn; lra.
  - cbn; lra.
  - rewrite W. cbn. lra.
  - rewrite Nx, Ny, Nz. repeat split; try apply key0; try lia; discriminate.
  - exists g, g', s, p, p', E, H. split; [exact M|]. split; [reflexivity|]. split; [exact U|].
    rewrite Nx, Ny, Nz in A. destruct (A 0 0 0) as [A1 A2].
    { repeat split; try apply whole; try lia. exists 0. cbn [selects]. unfold pyindex. lia. }
    assert (HH : entry H 1 0 0 0 = (-1)%R).
    { rewrite A2. change (- (1) * cos ((nofnat 2 * npi * / PI)%num * 0 + 0) = -1)%R. rewrite W. replace (2 * 0 + 0)%R with 0%R by ring. rewrite cos_0. ring. }
    rewrite W in A1. clear A2.
    rewrite HH in *. assert (EE : entry E 0 0 0 0 = (/ 2)%R).
    { cbn [nmul nopp Num_R envR e_mu0 e_c] in A1. lra. }
    split; [reflexivity|]. split; [exact EE|]. rewrite EE. assert (V : pw_vp p = 1%R) by (injection Ep as <-; cbn; ring). rewrite V.
    rewrite (Rabs_left (-1)) by lra. rewrite Rabs_pos_eq by lra. cbn. lra.
Qed.
Print Assumptions C65_impedance_refuted.

(** ** C66: a delayed Harris pulse is at full height before its delay has passed. *)
Theorem C66_before_delay_refuted : exists L delay t, (0 < L)%R /\ (0 <= t * e_c envR < delay)%R /\ harris envR L delay t = 1%R.
Proof.
  exists 2%R, 1%R, 0%R. split; [lra|]. split; [cbn; lra|]. rewrite harris_form by lra. cbv zeta. cbn [envR e_c].
  destruct (Rlt_dec _ _); [|lra]. unfold pulse6. replace (PI * (0 * 1 - 1) / 2)%R with (- (PI / 2))%R by field. rewrite sin_neg, sin_PI2. ring.
Qed.
Print Assumptions C66_before_delay_refuted.

(** ** C83: unequal axes with as many cells in x as in y *)
Definition packetR : WavePacket R :=
  {| wp_xs := None; wp_ys := None; wp_zs := KI (Z.of_nat 0); wp_sigmaz := Some 1%R; wp_sigmaxy := Some 1%R; wp_tinj := Some 0%R;
     wp_amp := 1%R; wp_phase := 0%R; wp_beta := 1%R; wp_w := 1%R |}.
Theorem C83_transposed_refuted : exists g g' s p' E H, made envR g g' (box_args (1 / 4)%R) s /\
  wp_update envR g packetR s 0%R = Ok (p', with_fields s E H (sJ s)) /\
  let x := get (centres (gx g)) in let y := get (centres (gy g)) in
  (entry H 1 1 0 0 <> - exp (- (x 1%nat * x 1%nat + y 0%nat * y 0%nat) / 2) /\ entry H 1 1 0 0 = - exp (- (x 0%nat * x 0%nat + y 1%nat * y 1%nat) / 2))%R.
Proof.
  destruct (boxR 0 1 0 2 2 2) as (g & g' & s & M & Ex & Ey & Ez & Nx & Ny & Nz & _); [lia..|].
  destruct (wp_square envR g g' _ packetR s 0%R 0 1%R 1%R 0%R 2 M Nx Ny eq_refl eq_refl eq_refl ltac:(lia) eq_refl eq_refl eq_refl)
    as (p' & E & H & U & _ & A).
  exists g, g', s, p', E, H. split; [exact M|]. split; [exact U|]. cbv zeta in A |- *.
  destruct (A 1 1 0 0 ltac:(lia) ltac:(lia) ltac:(lia) ltac:(lia)) as [V _]. cbn [Nat.eqb andb] in V. rewrite V. rewrite Ex, Ey.
  destruct (axis_cell 0 2 0 ltac:(lia)) as [-> _]. destruct (axis_cell 0 2 1 ltac:(lia)) as [-> _].
  destruct (axis_cell 1 2 0 ltac:(lia)) as [-> _]. destruct (axis_cell 1 2 1 ltac:(lia)) as [-> _].
  cbn [packetR wp_amp wp_w wp_phase wp_beta envR e_c nexp ncos NumTr_R nadd nsub nmul ndiv nopp Num_R]. rewrite !n2. cbn [INR].
  assert (Z : forall a : R, (- (1) * cos (1 * 0 + 0) * exp (- a / (2 * (1 * 1))) * exp (- ((0 - 1 * 1 * 0) * (0 - 1 * 1 * 0)) / (2 * (1 * 1))) = - exp (- a / 2))%R).
  { intros a. replace (1 * 0 + 0)%R with 0%R by ring. rewrite cos_0.
    replace (- ((0 - 1 * 1 * 0) * (0 - 1 * 1 * 0)) / (2 * (1 * 1)))%R with 0%R by field. rewrite exp_0.
    replace (- a / (2 * (1 * 1)))%R with (- a / 2)%R by field. ring. }
  rewrite Z. split; [|reflexivity]. intros Q. apply Ropp_eq_compat in Q. rewrite !Ropp_involutive in Q. apply exp_inv in Q. lra.
Qed.
Print Assumptions C83_transposed_refuted.

(** ** C90: the bunch current replaces the conduction current of the cells it passes. *)
Definition args90 : Args Qc := argsQ (bcs "pec") (bcs "pec") (MList (Fin (q 1 1)) (Fin (q 1 1)) (Some (q 1 2))) [].
Theorem C90_conduction_lost_refuted : exists g' s0 s, made envQ gridQ g' args90 s0 /\ run s0 [OWriteE (ramp 3); OStep] = Ok s /\ made envQ gridQ g' args90 s /\
  entry (sE s) 2 1 1 1 = q (-13) 8 /\ entry (sJ s) 2 1 1 1 = (q 1 2 * q (-13) 8)%Qc /\
  forall (TR : NumTr Qc) (b : Beam Qc) t, bm_first b = None -> bm_x b = q 2 1 -> bm_y b = q 5 2 ->
    exists b' J current, beam_update envQ gridQ None b s t = Ok (b', with_fields s (sE s) (sH s) J) /\
      (forall s' b'' J', made envQ gridQ g' args90 s' -> beam_update envQ gridQ None b s' t = Ok (b'', with_fields s' (sE s') (sH s') J') -> entry J' 2 1 1 1 = current) /\
      entry J 2 1 1 1 = current /\ entry J 2 1 1 1 <> Qcplus current (entry (sJ s) 2 1 1 1).
Proof.
  assert (H : simulate envQ gridQ args90 [([OWriteE (ramp 3); OStep], [(0, (2, 1, 1, 1), q (-13) 8); (2, (2, 1, 1, 1), (q 1 2 * q (-13) 8)%Qc)])] = true) by (vm_compute; reflexivity).
  destruct (simulated _ _ _ _ gridQ_obj H) as (s0 & g' & Hc & Hm & F). inversion F as [|? ? (s & R & O) _]; subst. cbn [fst snd] in R, O.
  inversion O as [|? ? O1 O2]; subst. inversion O2 as [|? ? O3 _]; subst. cbn [holds sel] in O1, O3.
  destruct (made_run _ _ _ _ _ s0 s Hm R) as [Ms _].
  exists g', s0, s. split; [exact Hm|]. split; [exact R|]. split; [exact Ms|]. split; [assumption|]. split; [assumption|]. intros TR b t Hf Hx Hy.
  assert (D : gNx gridQ = 3 /\ gNy gridQ = 3 /\ gNz gridQ = 3) by (vm_compute; auto). destruct D as (D1 & D2 & D3).
  destruct (beam_first_ok b gridQ Hf ltac:(lia) ltac:(lia) ltac:(lia)) as (ix & iy & zmin & E & Bx & By & N1 & N2 & _).
  assert (X : ix = 1). { rewrite Hx in N1. assert (Q : nearest (centres (gx gridQ)) (q 2 1) = Ok 1) by (vm_compute; reflexivity). congruence. }
  assert (Y : iy = 1). { rewrite Hy in N2. assert (Q : nearest (centres (gy gridQ)) (q 5 2) = Ok 1) by (vm_compute; reflexivity). congruence. }
  subst ix iy.
  assert (G : forall s', made envQ gridQ g' args90 s' -> exists b' J, beam_update envQ gridQ None b s' t = Ok (b', with_fields s' (sE s') (sH s') J) /\
     entry J 2 1 1 1 = (bm_q b * bm_v b * beam_profile envQ b zmin (get (centres (gz gridQ)) 1) t / get (widths (gx gridQ)) 1 / get (widths (gy gridQ)) 1)%num).
  { intros s' M'. destruct (beam_update_spec envQ gridQ None b s' t 1 1 zmin E Bx By (proj2 (proj2 (made_sized _ _ _ _ _ M')))) as (b' & J & U & _ & _ & _ & _ & _ & A).
    exists b', J. split; [exact U|]. rewrite A by lia. reflexivity. }
  destruct (G s Ms) as (b' & J & U & V). exists b', J. eexists. split; [exact U|]. split; [|split; [exact V|]].
  - intros s' b'' J' M' U'. destruct (G s' M') as (b3 & J3 & U3 & V3). rewrite U3 in U'. injection U' as _ EJ. subst J3. exact V3.
  - rewrite V. intros Q. assert (Z : entry (sJ s) 2 1 1 1 = 0%Qc).
    { set (c := (bm_q b * bm_v b * _ / _ / _)%num) in Q. apply (f_equal (fun x => x - c)%Qc) in Q.
      replace (c - c)%Qc with 0%Qc in Q by ring. replace (c + entry (sJ s) 2 1 1 1 - c)%Qc with (entry (sJ s) 2 1 1 1) in Q by ring. symmetry. exact Q. }
    rewrite O3 in Z. discriminate Z.
Qed.
Print Assumptions C90_conduction_lost_refuted.

(** ** Remaining cases *)
Example C88_case : exists g g' s, made envR g g' (box_args (1 / 4)%R) s /\ gNx g = 3 /\ gNy g = 2 /\ gNz g = 4 /\
  names_component (CStr "z") 2 /\ shape_of "Harris" = Some Harris /\ key_ok (gNz g) (KI (-1)) /\
  exists d' s', dp_update envR g (dp_init "E" "z" None None (Some (KI (-1))) 10%R (Some (1 / 4)%R) 5%R 0%R) s 1%R = Ok (d', s') /\
    entry (sE s') 2 1 1 3 = 5%R.
Proof.
  destruct (boxR 0 0 0 3 2 4) as (g & g' & s & M & _ & _ & _ & Nx & Ny & Nz & _); [lia..|].
  exists g, g', s. do 4 (split; [assumption|]). rewrite Nz. split; [right; right; auto|]. split; [reflexivity|].
  assert (K : key_ok 4 (KI (-1))) by (cbn [key_ok]; lia). split; [exact K|].
  destruct (C88_dipole R _ _ _ _ _ _ envR g g' _ s 1%R 0 2 "z" None None (Some (KI (-1))) 10%R (1 / 4)%R 5%R 0%R M ltac:(lia)) as (d' & s' & U & _ & A);
    try exact I; [right; right; auto|rewrite Nz; exact K|].
  exists d', s'. split; [exact U|]. destruct A as [(_ & A & _) _]. rewrite Nx, Ny, Nz in A. change (sE s') with (fld 0 s'). rewrite A.
  - rewrite n2. cbn [nsin npi NumTr_R nmul nadd Num_R]. replace (2 * PI * (1 / 4) * 1 + 0)%R with (PI / 2)%R by field. rewrite sin_PI2. ring.
  - cbn [Nat.div Nat.divmod fst]. split; [|split]; exists 0; cbn [selects]; unfold pyindex; cbn; lia.
Qed.

Theorem C83_wide_refuted : exists g g' s, made envR g g' (box_args (1 / 4)%R) s /\ wp_update envR g packetR s 0%R = Err ValueError.
Proof.
  destruct (boxR 0 0 0 3 2 4) as (g & g' & s & M & _ & _ & _ & Nx & Ny & Nz & _); [lia..|].
  exists g, g', s. split; [exact M|].
  apply (C83_nonsquare R _ _ _ _ _ _ envR g g' _ packetR s 0%R 0%Z M); [lia|reflexivity..|]. rewrite Nz. apply key0. lia.
Qed.
Print Assumptions C83_wide_refuted.
Example C83_case : exists g g' s, made envR g g' (box_args (1 / 4)%R) s /\ gx g = gy g /\ 0 < gNz g.
Proof. destruct (boxR 1 1 0 3 3 4) as (g & g' & s & M & Ex & Ey & _ & _ & _ & Nz & _); [lia..|]. exists g, g', s. split; [exact M|]. split; [congruence|lia]. Qed.

(** The default arguments: pw_init with f unset; wp_init with wavelength and frequency unset. *)
Theorem C84_refuted : exists (xs ys : option ikey) zs, pw_init envR xs ys zs None None 1%R 1%R 0%R = Err TypeError /\
  wp_init envR xs ys zs None None None None (Some 1%R) 1%R 1%R 0%R = Err TypeError.
Proof.
  destruct (C84_defaults R _ _ envR None None (KI 0) 1%R 1%R 0%R) as (A & _ & B). exists None, None, (KI 0). split; [apply A|apply B]. right. discriminate.
Qed.
Print Assumptions C84_refuted.

Definition fastR : Env R := {| e_eps0 := 1; e_mu0 := 1; e_c := 100; e_pml_lo := 0; e_pml_hi := 0; e_sqrt := sqrt; e_geom := e_geom envR |}%R.
Theorem C85_refuted : exists g g' s, made fastR g g' (box_args (1 / 4)%R) s /\ forall n, exists p' s',
  pu_update fastR (pu_init "E" "z" None None None "Harris" None 1%R 0%R) s (INR n * sdt s)%R = Ok (p', s') /\
  entry (sE s') 2 (gNx g / 2) (gNy g / 2) (gNz g / 2) = 0%R.
Proof.
  destruct (box_made fastR (axis 0 2) (axis 0 2) (axis 0 2) (1 / 4)%R) as (g & g' & s & M & _ & _ & _ & D & _); [rewrite axis_len; lia..|].
  exists g, g', s. split; [exact M|]. intros n.
  destruct (C85_default fastR g g' _ s n 0 2 "z" "Harris" 1%R None M ltac:(lia)) as (p' & s' & U & _ & A); [right; right; auto|cbn; lra|rewrite D; lra|left; reflexivity|left; reflexivity|].
  exists p', s'. split; [exact U|exact A].
Qed.
Print Assumptions C85_refuted.

(** two ranks, four layers of unit depth *)
Example C87_case : exists g g' gS gS' sl sg tl, made envR g g' (box_args (1 / 4)%R) sl /\ made envR gS gS' (box_args (1 / 4)%R) sg /\
  mpi_tile 0%R 4%R 4 2 1 = Ok tl /\ tl_NZ tl = 4 /\ gz g = tl_z tl /\ gNz g = 3 /\ gx g = gx gS /\ gy g = gy gS /\ gz gS = linspace 0%R 4%R (tl_NZ tl).
Proof.
  destruct (tile_spec 0%R 4%R 4 2 1 char0_T ltac:(lia) ltac:(lia)) as (tl & Et & T1 & T2 & T3 & _).
  assert (E4 : tl_NZ tl = 4) by (rewrite T1; reflexivity).
  assert (Lz : List.length (tl_z tl) = 4) by (rewrite T3; reflexivity).
  destruct (box_made envR (axis 0 3) (axis 0 2) (tl_z tl) (1 / 4)%R) as (g & g' & sl & M & Ex & Ey & Ez & _); [rewrite axis_len; lia..|lia|].
  destruct (box_made envR (axis 0 3) (axis 0 2) (linspace 0%R 4%R 4) (1 / 4)%R) as (gS & gS' & sg & MS & ExS & EyS & EzS & _);
    [rewrite axis_len; lia..|unfold linspace; rewrite tab_length; lia|].
  exists g, g', gS, gS', sl, sg, tl. split; [exact M|]. split; [exact MS|]. split; [exact Et|]. split; [exact E4|]. split; [exact Ez|].
  split; [unfold gNz; rewrite Ez, Lz; reflexivity|]. split; [congruence|]. split; [congruence|]. rewrite E4. exact EzS.
Qed.
