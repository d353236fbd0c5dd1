(** Properties C59, C64, C66, C85 and the refutations for C65, C83, C86, C90, over the reals. *)
From Coq Require Import List Arith ZArith Bool String Lia Reals Lra QArith Qcanon.
From Coquelicot Require Import Coquelicot.
From Verif Require Import Num Vec FieldModel FieldSpec FieldProofs FieldProofs2 GridModel GridProofs GridProofs2 SolverModel SolverKern SolverCons SolverKit
  SolverProps4 MpiModel MpiSolverModel MpiTiles WakeModel WakeNum WakeProofs WakeCells WakeRun WakeTotal WakeWin SourceModel SourceProofs SourceProofs2 SourceProofs3
  GaussInt SourceReal SourceProps.
Import ListNotations.
Open Scope nat_scope.

(** ** C64.  The line is the density rho at the cell centres; rho is positive, symmetric about the bunch
    centre, largest there, and carries the charge q: its integral over a long enough stretch, times the cell
    cross-section and divided by the velocity, is as close to q as wanted. *)
Theorem C64_bunch : forall env (g g' : Grid R) ar (b : Beam R) (s : Solver R) (t : R),
  made env g g' ar s -> bm_first b = None -> e_sqrt env = sqrt -> (0 < bm_sigmaz b)%R -> (0 < bm_q b * bm_v b)%R ->
  increasing (gx g) -> increasing (gy g) ->
  exists ix iy zmin b' J rho, beam_update env g None b s t = Ok (b', with_fields s (sE s) (sH s) J) /\
    (forall k, k < gNz g -> entry J 2 ix iy k = rho (get (centres (gz g)) k)) /\
    let zc := (zmin + bm_v b * (t - bm_ti b))%R in
    np_min (centres (gz g)) = Ok zmin /\ (forall z, 0 < rho z)%R /\ (forall u, rho (zc + u) = rho (zc - u))%R /\ (forall z, z <> zc -> rho z < rho zc)%R /\
    forall e, (0 < e)%R -> exists M, forall lo hi, (lo <= - M)%R -> (M <= hi)%R ->
      exists v, is_RInt rho lo hi v /\ (Rabs (v * (get (widths (gx g)) ix * get (widths (gy g)) iy) / bm_v b - bm_q b) < e)%R.
Proof.
  intros env g g' ar b s t M Hf Hq Hs Hp Ix Iy.
  destruct (made_dims _ _ _ _ _ M) as (_ & _ & _ & _ & _ & _ & P1 & P2 & P3).
  destruct (beam_first_ok b g Hf P1 P2 P3) as (ix & iy & zmin & E & Hx & Hy & N1 & N2 & N3).
  destruct (beam_update_spec env g None b s t ix iy zmin E Hx Hy (proj2 (proj2 (made_sized _ _ _ _ _ M)))) as (b' & J & U & _ & _ & _ & _ & SJ & A).
  set (zc := (zmin + bm_v b * (t - bm_ti b))%R). set (dx := get (widths (gx g)) ix). set (dy := get (widths (gy g)) iy).
  assert (Dx : (0 < dx)%R).
  { unfold dx, widths. rewrite get_tab by exact Hx. pose proof (Ix ix ltac:(unfold gNx in Hx; lia)) as I0. rewrite Nat.add_1_r in I0. cbn [nsub Num_R]. lra. }
  assert (Dy : (0 < dy)%R).
  { unfold dy, widths. rewrite get_tab by exact Hy. pose proof (Iy iy ltac:(unfold gNy in Hy; lia)) as I0. rewrite Nat.add_1_r in I0. cbn [nsub Num_R]. lra. }
  assert (V : (bm_v b <> 0)%R) by nra.
  set (a := (bm_q b * bm_v b / dx / dy)%R).
  assert (Pa : (0 < a)%R) by (unfold a; apply Rdiv_lt_0_compat; [apply Rdiv_lt_0_compat|]; assumption).
  exists ix, iy, zmin, b', J, (fun z => a * bell (bm_sigmaz b) zc z)%R. split; [exact U|]. split.
  { intros k Hk. rewrite A by (assumption || lia). rewrite !Nat.eqb_refl. cbn [andb]. rewrite profile_density, density_bell by exact Hq.
    fold dx dy. change (zmin + bm_v b * (t - bm_ti b))%num with zc. cbn [nmul ndiv Num_R]. unfold a. field. lra. }
  cbv zeta. fold zc. split; [exact N3|].
  split. { intros z. apply Rmult_lt_0_compat; [exact Pa|apply bell_pos; exact Hs]. }
  split. { intros u. rewrite (bell_sym _ zc u). reflexivity. }
  split. { intros z Hz. apply Rmult_lt_compat_l; [exact Pa|]. apply bell_top; assumption. }
  intros e He. set (Q := bm_q b) in *. 
  assert (HQ : (0 < Rabs Q)%R) by (apply Rabs_pos_lt; intros Z; rewrite Z in Hp; lra).
  destruct (density_total zc (bm_sigmaz b) (e / Rabs Q) Hs) as (M0 & HM); [apply Rdiv_lt_0_compat; assumption|].
  exists M0. intros lo hi Hlo Hhi. destruct (HM lo hi Hlo Hhi) as (v & Hv & Iv). exists (a * v)%R. split.
  - apply (is_RInt_scal (V := R_NormedModule)). exact Iv.
  - fold dx dy. replace (a * v * (dx * dy) / bm_v b - Q)%R with ((v - 1) * Q)%R by (unfold a; field; lra).
    rewrite Rabs_mult. replace e with (e / Rabs Q * Rabs Q)%R by (field; lra). apply Rmult_lt_compat_r; assumption.
Qed.
Print Assumptions C64_bunch.

(** ** C59.  The bunch wakesolve injects passes the first cell when its current there is greatest.
    That is the wake solver's ti in exactly these cases. *)
Theorem C59_exact_partial : forall env k0 q sigmaz beta xs ys xt yt ti len skip counter save zmin,
  real_env env -> (0 < k0)%R -> (0 < sigmaz)%R -> (0 < beta)%R ->
  let b := wake_beam env k0 xs ys beta q sigmaz in let w := wake_init env k0 q sigmaz beta xt yt ti len skip counter save in
  (forall t, beam_profile env b zmin zmin t <= beam_profile env b zmin zmin (wk_ti w))%R <->
  match ti with Some t => t = (k0 * sigmaz / (e_c env * beta))%R | None => beta = 1%R end.
Proof.
  intros env k0 q sigmaz beta xs ys xt yt ti len skip counter save zmin (Es & Hc & _) Hk Hs Hb b w.
  assert (V : (0 < bm_v b)%R) by (cbn; nra).
  assert (Eq : (forall t, beam_profile env b zmin zmin t <= beam_profile env b zmin zmin (wk_ti w))%R <-> wk_ti w = bm_ti b).
  { assert (F : forall t, beam_profile env b zmin zmin t = bell sigmaz (zmin + bm_v b * (t - bm_ti b)) zmin).
    { intros t. rewrite profile_density, density_bell by exact Es. reflexivity. }
    split.
    - intros H. specialize (H (bm_ti b)). rewrite !F in H. destruct (Req_dec (wk_ti w) (bm_ti b)) as [Z|Z]; [exact Z|]. exfalso.
      assert (X : (bell sigmaz (zmin + bm_v b * (wk_ti w - bm_ti b)) zmin < bell sigmaz (zmin + bm_v b * (bm_ti b - bm_ti b)) zmin)%R).
      { replace (zmin + bm_v b * (bm_ti b - bm_ti b))%R with zmin by ring.
        rewrite (bell_shift sigmaz _ zmin zmin (zmin - bm_v b * (wk_ti w - bm_ti b))) by (left; ring). apply bell_top; [exact Hs|].
        intros Y. assert (bm_v b * (wk_ti w - bm_ti b) = 0)%R by lra. apply Rmult_integral in H0. destruct H0; lra. }
      lra.
    - intros -> t. rewrite !F. replace (zmin + bm_v b * (bm_ti b - bm_ti b))%R with zmin by ring.
      rewrite (bell_shift sigmaz _ zmin zmin (zmin - bm_v b * (t - bm_ti b))) by (left; ring).
      destruct (Req_dec (zmin - bm_v b * (t - bm_ti b)) zmin) as [->|Z]; [lra|]. left. apply bell_top; assumption. }
  rewrite Eq. unfold w, b. cbn [wk_ti wake_init wake_beam beam_init bm_ti bm_v]. unfold wake_ti. destruct ti as [t|]; [reflexivity|].
  rewrite Es. cbn [ndiv nmul Num_R]. assert (S : (0 < sqrt beta)%R) by (apply sqrt_lt_R0; exact Hb).
  assert (S2 : (sqrt beta * sqrt beta = beta)%R) by (apply sqrt_sqrt; lra). split.
  - intros H. assert (X : (k0 * sigmaz * (e_c env * beta) = k0 * sigmaz * (sqrt beta * (beta * e_c env)))%R).
    { replace (k0 * sigmaz * (e_c env * beta))%R with (k0 * sigmaz / (sqrt beta * (beta * e_c env)) * (sqrt beta * (beta * e_c env)) * (e_c env * beta))%R
        by (field; repeat split; lra). rewrite H. field. split; lra. }
    assert (Y : (sqrt beta = 1)%R).
    { assert (P : (0 < k0 * sigmaz * (e_c env * beta))%R) by (apply Rmult_lt_0_compat; nra).
      apply (Rmult_eq_reg_l (k0 * sigmaz * (e_c env * beta))); [|lra]. rewrite Rmult_1_r. rewrite X at 2. ring. }
    rewrite <- S2, Y. ring.
  - intros H. subst beta. rewrite sqrt_1. f_equal. ring.
Qed.
Print Assumptions C59_exact_partial.

(** ** C66 *)
Theorem C66_harris_partial : forall env (L delay : R), (0 < L)%R -> (0 <= e_c env)%R ->
  continuity (fun t => harris env L delay t) /\
  (forall t, (0 <= harris env L delay t <= 1)%R) /\
  (forall t, (L <= t * e_c env - delay)%R -> harris env L delay t = 0%R) /\
  (forall t, (t * e_c env = delay)%R -> harris env L delay t = 0%R) /\
  (forall t, (t * e_c env = delay + L / 2)%R -> harris env L delay t = 1%R) /\
  (forall t, (t * e_c env - delay < L)%R -> harris env L delay t = (sin (PI * (t * e_c env - delay) / L) ^ 6)%R).
Proof.
  intros env L delay HL Hc. split; [apply harris_cont; assumption|]. destruct (pulse6_ends L HL) as (E0 & E1 & E2).
  assert (F := fun t => harris_form env L delay t HL). cbv zeta in F. split.
  { intros t. rewrite F. destruct (Rlt_dec _ _); [apply pulse6_01|lra]. }
  split. { intros t H. rewrite F. destruct (Rlt_dec _ _); [lra|reflexivity]. }
  split. { intros t H. rewrite F. replace (t * e_c env - delay)%R with 0%R by lra. destruct (Rlt_dec _ _); [exact E0|reflexivity]. }
  split. { intros t H. rewrite F. replace (t * e_c env - delay)%R with (L / 2)%R by lra. destruct (Rlt_dec _ _); [exact E2|lra]. }
  intros t H. rewrite F. destruct (Rlt_dec _ _); [reflexivity|lra].
Qed.
Print Assumptions C66_harris_partial.
(** The Gaussian pulse is positive, 1 at the middle of its window and only there, symmetric about it, and falls to
    exp(-1/2) at a tenth of the window from it. *)
Theorem C66_gaussian : forall env (L delay : R), (0 < L)%R ->
  (forall t, 0 < gaussian env L delay t <= 1)%R /\
  (forall t, gaussian env L delay t = 1%R <-> (t * e_c env - delay = L / 2)%R) /\
  (forall t t', (t * e_c env - delay - L / 2 = - (t' * e_c env - delay - L / 2))%R -> gaussian env L delay t = gaussian env L delay t') /\
  (forall t t', (Rabs (t * e_c env - delay - L / 2) < Rabs (t' * e_c env - delay - L / 2))%R -> gaussian env L delay t' < gaussian env L delay t)%R /\
  (forall t, (t * e_c env - delay = L / 2 + L / 10)%R -> gaussian env L delay t = exp (- 1 / 2)).
Proof.
  intros env L delay HL.
  assert (F : forall t, gaussian env L delay t = exp (- (((t * e_c env - delay) - L / 2) * ((t * e_c env - delay) - L / 2) * (50 / (L * L))))%R).
  { intros t. unfold gaussian. cbv zeta. rewrite !nofnat_INR. cbn [nsub nmul nopp ndiv Num_R]. change nexp with exp. f_equal.
    replace (INR 5) with 5%R by (cbn; lra). replace (INR 10) with 10%R by (cbn; lra). replace (INR 2) with 2%R by (cbn; lra). field. lra. }
  assert (K : (0 < 50 / (L * L))%R) by (apply Rdiv_lt_0_compat; nra).
  set (k := (50 / (L * L))%R) in *.
  assert (M : forall x y, (x < y)%R -> (exp (- y) < exp (- x))%R) by (intros x y H; apply exp_increasing; lra).
  assert (Z : forall u, (0 <= u * u * k)%R) by (intros u; apply Rmult_le_pos; [apply Rle_0_sqr|lra]).
  split. { intros t. rewrite F. split; [apply exp_pos|]. destruct (Req_dec (((t * e_c env - delay) - L / 2) * ((t * e_c env - delay) - L / 2) * k) 0) as [E|E].
    - rewrite E, Ropp_0, exp_0. lra.
    - pose proof (Z ((t * e_c env - delay) - L / 2)%R). left. rewrite <- exp_0 at 1. rewrite <- Ropp_0 at 1. apply M. lra. }
  split. { intros t. rewrite F. split.
    - intros E. destruct (Req_dec ((t * e_c env - delay) - L / 2) 0) as [E0|E0]; [lra|]. exfalso.
      assert (P : (0 < ((t * e_c env - delay) - L / 2) * ((t * e_c env - delay) - L / 2) * k)%R) by (apply Rmult_lt_0_compat; [apply Rsqr_pos_lt; exact E0|exact K]).
      apply M in P. rewrite E, Ropp_0, exp_0 in P. lra.
    - intros E. replace ((t * e_c env - delay) - L / 2)%R with 0%R by lra. rewrite Rmult_0_l, Rmult_0_l, Ropp_0. apply exp_0. }
  split. { intros t t' E. rewrite !F. f_equal. f_equal. f_equal. rewrite E. ring. }
  split. { intros t t' E. rewrite !F. apply M. apply Rmult_lt_compat_r; [exact K|].
    apply Rsqr_lt_abs_1 in E. unfold Rsqr in E. exact E. }
  intros t E. rewrite F. f_equal. replace ((t * e_c env - delay) - L / 2)%R with (L / 10)%R by lra. unfold k. field. lra.
Qed.
Print Assumptions C66_gaussian.
(** The rectangular pulse is 1 inside its window and 0 elsewhere. *)
Theorem C66_rectangular : forall env (L delay t : R),
  ((0 < t * e_c env - delay < L)%R -> rectangular env L delay t = 1%R) /\ (~ (0 < t * e_c env - delay < L)%R -> rectangular env L delay t = 0%R).
Proof.
  intros env L delay t. unfold rectangular. cbv zeta. cbn [nsub nmul nzero none_ Num_R]. split.
  - intros [A B]. apply R_ltb in A, B. rewrite A, B. reflexivity.
  - intros N. destruct (nltb _ L) eqn:A; [|reflexivity]. destruct (nltb 0%R _) eqn:B; [|reflexivity]. exfalso. apply N. apply R_ltb in A, B. split; assumption.
Qed.
Print Assumptions C66_rectangular.

(** ** C85.  L = 50 dt is compared with c t: with c > 50 m/s nothing is ever injected. *)
Theorem C85_default : forall env (g g' : Grid R) ar (s : Solver R) n f c comp name amp L,
  made env g g' ar s -> f < 3 -> names_component (CStr comp) c ->
  (50 < e_c env)%R -> (0 < sdt s)%R -> (lower name = "harris" \/ lower name = "rectangular")%string -> L = None \/ L = Some (50 * sdt s)%R ->
  exists p' s', pu_update env (pu_init (letter f) comp None None None name L amp 0%R) s (INR n * sdt s)%R = Ok (p', s') /\
    made env g g' ar s' /\ entry (fld f s') c (gNx g / 2) (gNy g / 2) (gNz g / 2) = 0%R.
Proof.
  intros env g g' ar s n f c comp name amp L M Hf Hc Hl Hd Hn HL.
  destruct (made_dims _ _ _ _ _ M) as (_ & _ & _ & _ & _ & _ & P1 & P2 & P3).
  assert (S : exists sh, shape_of name = Some sh /\ sh <> Gaussian).
  { unfold shape_of. destruct Hn as [-> | ->]; cbn; eexists; (split; [reflexivity|discriminate]). }
  destruct S as (sh & S1 & S2).
  destruct (C88_pulse R _ _ _ _ _ _ env g g' ar s (INR n * sdt s)%R f c comp None None None name sh L amp 0%R M Hf Hc S1 I I I) as (p' & s' & U & M' & (_ & V & _) & _).
  exists p', s'. split; [exact U|]. split; [exact M'|]. rewrite V.
  - set (L0 := match L with Some L => L | None => _ end). assert (EL : L0 = (50 * sdt s)%R).
    { unfold L0. destruct HL as [-> | ->]; [|reflexivity]. rewrite nofnat_INR. cbn. ring. }
    rewrite EL. assert (PL : (0 < 50 * sdt s)%R) by lra.
    assert (Z : tprofile env sh (50 * sdt s)%R 0%R (INR n * sdt s)%R = 0%R).
    { assert (Hu : n <> 0 -> (50 * sdt s < INR n * sdt s * e_c env)%R).
      { intros Hn0. assert (1 <= INR n)%R by (change 1%R with (INR 1); apply le_INR; lia).
        assert (sdt s <= INR n * sdt s)%R by nra. nra. }
      destruct sh; [| congruence |]; cbn [tprofile].
      - rewrite harris_form by exact PL. cbv zeta. destruct (Nat.eq_dec n 0) as [->|N].
        + replace (INR 0 * sdt s * e_c env - 0)%R with 0%R by (cbn; ring). destruct (pulse6_ends _ PL) as (E0 & _). destruct (Rlt_dec _ _); [exact E0|reflexivity].
        + specialize (Hu N). destruct (Rlt_dec _ _); [lra|reflexivity].
      - unfold rectangular. cbv zeta. destruct (Nat.eq_dec n 0) as [->|N].
        + replace (nltb nzero _) with false; [rewrite andb_false_r; reflexivity|]. symmetry. apply R_ltb_f. cbn. lra.
        + specialize (Hu N). replace (nltb _ (50 * sdt s)%R) with false; [reflexivity|]. symmetry. apply R_ltb_f. cbn [nmul nsub Num_R]. lra. }
    rewrite Z. cbn. ring.
  - assert (D : forall k, 0 < k -> exists p, selects k (KI (Z.of_nat (k / 2))) (k / 2) p).
    { intros k Hk. exists 0. pose proof (Nat.div_lt k 2 Hk ltac:(lia)). cbn [selects]. unfold pyindex. lia. }
    repeat split; apply D; assumption.
Qed.
Print Assumptions C85_default.
