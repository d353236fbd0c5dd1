(** The Gaussian integral, used for the total charge of an injected bunch. *)
From Coq Require Import Reals Lra Psatz.
From Coquelicot Require Import Coquelicot.
Open Scope R_scope.

Definition gI (x : R) : R := RInt (fun t => exp (- (t * t))) 0 x.
Definition gF (x t : R) : R := exp (- (x * x * (1 + t * t))) / (1 + t * t).
Definition gG (x : R) : R := RInt (fun t => gF x t) 0 1.

Lemma dcont (f : R -> R) x : ex_derive f x -> continuous f x.
Proof. apply (ex_derive_continuous (K := R_AbsRing) (V := R_NormedModule)). Qed.
Lemma ex_bell a b : ex_RInt (fun t => exp (- (t * t))) a b.
Proof. apply (ex_RInt_continuous (V := R_CompleteNormedModule)). intros z _. apply dcont. auto_derive. trivial. Qed.
Lemma gI_derive (x : R) : is_derive gI x (exp (- (x * x))).
Proof.
  unfold gI. apply (is_derive_RInt (fun t => exp (- (t * t))) _ 0 x).
  - exists (mkposreal 1 Rlt_0_1). intros y _. apply (RInt_correct (V := R_CompleteNormedModule)). apply ex_bell.
  - apply dcont. auto_derive. trivial.
Qed.
Lemma tt_pos t : 0 < 1 + t * t.
Proof. nra. Qed.
Lemma gF_dx (x t : R) : is_derive (fun u => gF u t) x (- 2 * x * exp (- (x * x * (1 + t * t)))).
Proof.
  unfold gF. pose proof (tt_pos t). auto_derive; [trivial|]. field. lra.
Qed.
Lemma gF_ex x a b : ex_RInt (fun t => gF x t) a b.
Proof.
  apply (ex_RInt_continuous (V := R_CompleteNormedModule)). intros z _. apply dcont.
  unfold gF. auto_derive. pose proof (tt_pos z). lra.
Qed.
Lemma cont2 x t : continuity_2d_pt (fun u v => - 2 * u * exp (- (u * u * (1 + v * v)))) x t.
Proof.
  apply continuity_2d_pt_mult.
  - apply continuity_2d_pt_mult; [apply continuity_2d_pt_const|apply continuity_2d_pt_id1].
  - apply (continuity_1d_2d_pt_comp exp (fun u v => - (u * u * (1 + v * v)))).
    + apply derivable_continuous_pt, derivable_pt_exp.
    + apply continuity_2d_pt_opp. apply continuity_2d_pt_mult.
      * apply continuity_2d_pt_mult; apply continuity_2d_pt_id1.
      * apply continuity_2d_pt_plus; [apply continuity_2d_pt_const|]. apply continuity_2d_pt_mult; apply continuity_2d_pt_id2.
Qed.
Lemma gG_derive (x : R) : is_derive gG x (- 2 * exp (- (x * x)) * gI x).
Proof.
  assert (D : is_derive gG x (RInt (fun t => Derive (fun u => gF u t) x) 0 1)).
  { unfold gG. apply is_derive_RInt_param.
    - exists (mkposreal 1 Rlt_0_1). intros y _ t _. eexists. apply gF_dx.
    - intros t _. apply (continuity_2d_pt_ext (fun u v => - 2 * u * exp (- (u * u * (1 + v * v))))); [|apply cont2].
      intros u v. symmetry. apply is_derive_unique. apply gF_dx.
    - exists (mkposreal 1 Rlt_0_1). intros y _. apply gF_ex. }
  replace (- 2 * exp (- (x * x)) * gI x) with (RInt (fun t => Derive (fun u => gF u t) x) 0 1); [exact D|].
  rewrite (RInt_ext _ (fun t => scal (- 2 * exp (- (x * x))) (scal x (exp (- ((x * t + 0) * (x * t + 0))))))).
  - rewrite (RInt_scal (V := R_CompleteNormedModule)).
    + unfold gI. pose proof (RInt_comp_lin (V := R_CompleteNormedModule) (fun t => exp (- (t * t))) x 0 0 1 (ex_bell _ _)) as L.
      rewrite Rmult_0_r, Rmult_1_r, !Rplus_0_r in L. unfold scal, mult. cbn. unfold mult. cbn.
      f_equal. exact L.
    + apply (ex_RInt_comp_lin (fun t => exp (- (t * t))) x 0 0 1). apply ex_bell.
  - intros t _. transitivity (- 2 * x * exp (- (x * x * (1 + t * t)))); [exact (is_derive_unique _ _ _ (gF_dx x t))|]. unfold scal. cbn. unfold mult. cbn.
    replace (- (x * x * (1 + t * t))) with (- (x * x) + - ((x * t + 0) * (x * t + 0))) by ring. rewrite exp_plus. ring.
Qed.
Lemma gG_0 : gG 0 = PI / 4.
Proof.
  unfold gG. rewrite (RInt_ext _ (fun t => / (1 + t * t))).
  - rewrite <- atan_1. replace (atan 1) with (minus (atan 1) (atan 0)) by (rewrite atan_0; unfold minus, plus, opp; cbn; ring).
    apply is_RInt_unique. apply (is_RInt_derive atan (fun t => / (1 + t * t))).
    + intros t _. exact (is_derive_atan t).
    + intros t _. apply dcont. auto_derive. pose proof (tt_pos t). lra.
  - intros t _. unfold gF. replace (- (0 * 0 * (1 + t * t))) with 0 by ring. rewrite exp_0. apply Rmult_1_l.
Qed.
Lemma gI_0 : gI 0 = 0.
Proof. exact (RInt_point (V := R_CompleteNormedModule) 0 _). Qed.
Lemma gauss_id x : gI x * gI x + gG x = PI / 4.
Proof.
  assert (D : forall y, is_derive (fun x => gI x * gI x + gG x) y 0).
  { intros y. apply (is_derive_ext_loc (fun x => plus (mult (gI x) (gI x)) (gG x))).
    { exists (mkposreal 1 Rlt_0_1). intros; reflexivity. }
    replace 0 with (plus (plus (mult (exp (- (y * y))) (gI y)) (mult (gI y) (exp (- (y * y))))) (- 2 * exp (- (y * y)) * gI y))
      by (unfold plus, mult; cbn; ring).
    apply (is_derive_plus (K := R_AbsRing) (V := R_NormedModule)); [|apply gG_derive].
    apply (is_derive_mult gI gI); try apply gI_derive. intros; apply Rmult_comm. }
  destruct (Req_dec x 0) as [->|Hx]; [rewrite gI_0, gG_0; ring|].
  replace (PI / 4) with (gI 0 * gI 0 + gG 0) by (rewrite gI_0, gG_0; ring).
  destruct (MVT_gen (fun x => gI x * gI x + gG x) 0 x (fun _ => 0)) as (c & _ & Hc).
  - intros y _. apply D.
  - intros y _. apply continuity_pt_filterlim. apply (dcont (fun x => gI x * gI x + gG x)). eexists. apply D.
  - assert (Z : forall a b : R, a - b = 0 * (x - 0) -> a = b) by (intros; lra). apply Z. exact Hc.
Qed.
Lemma gG_bound x : 0 <= gG x <= exp (- (x * x)).
Proof.
  unfold gG. split.
  - replace 0 with (RInt (fun _ : R => 0) 0 1) at 1 by (rewrite RInt_const; unfold scal; cbn; unfold mult; cbn; ring).
    apply RInt_le; [lra|apply ex_RInt_const|apply gF_ex|]. intros t _. unfold gF. apply Rlt_le. apply Rdiv_lt_0_compat; [apply exp_pos|apply tt_pos].
  - replace (exp (- (x * x))) with (RInt (fun _ : R => exp (- (x * x))) 0 1) by (rewrite RInt_const; unfold scal; cbn; unfold mult; cbn; ring).
    apply RInt_le; [lra|apply gF_ex|apply ex_RInt_const|]. intros t _. unfold gF.
    assert (exp (- (x * x * (1 + t * t))) <= exp (- (x * x))) by (destruct (Req_dec (x * x * (t * t)) 0) as [Z|Z];
      [right; f_equal; nra|left; apply exp_increasing; assert (0 <= x * x * (t * t)) by nra; nra]).
    pose proof (tt_pos t). pose proof (exp_pos (- (x * x * (1 + t * t)))).
    apply Rmult_le_reg_r with (1 + t * t); [assumption|]. unfold Rdiv. rewrite Rmult_assoc, Rinv_l by lra. rewrite Rmult_1_r. nra.
Qed.
Lemma gI_nonneg x : 0 <= x -> 0 <= gI x.
Proof.
  intros Hx. unfold gI. replace 0 with (RInt (fun _ : R => 0) 0 x) at 1 by (rewrite RInt_const; unfold scal; cbn; unfold mult; cbn; ring).
  apply RInt_le; [lra|apply ex_RInt_const|apply ex_bell|]. intros t _. left. apply exp_pos.
Qed.
Lemma gI_odd x : gI (- x) = - gI x.
Proof.
  unfold gI. pose proof (RInt_comp_lin (fun t => exp (- (t * t))) (-1) 0 0 x) as H.
  replace (-1 * 0 + 0) with 0 in H by ring. replace (-1 * x + 0) with (- x) in H by ring. rewrite <- H by apply ex_bell.
  rewrite (RInt_ext _ (fun t => scal (-1) (exp (- (t * t))))).
  - rewrite (RInt_scal (V := R_CompleteNormedModule)) by apply ex_bell. unfold scal. cbn. unfold mult. cbn. ring.
  - intros t _. do 3 f_equal. ring.
Qed.
(** |sqrt(pi)/2 - gI x| is at most 2 exp(-x²)/sqrt(pi) *)
Lemma gI_limit x : 0 <= x -> Rabs (gI x - sqrt PI / 2) <= 2 / sqrt PI * exp (- (x * x)).
Proof.
  intros Hx. pose proof (gauss_id x) as E. pose proof (gG_bound x) as B. pose proof (gI_nonneg x Hx) as P.
  assert (S : 0 < sqrt PI) by (apply sqrt_lt_R0; apply PI_RGT_0).
  assert (Q : sqrt PI * sqrt PI = PI) by (apply sqrt_sqrt; left; apply PI_RGT_0).
  assert (L : gI x <= sqrt PI / 2) by nra.
  rewrite Rabs_left1 by lra.
  apply Rmult_le_reg_r with (sqrt PI / 2); [lra|]. replace (2 / sqrt PI * exp (- (x * x)) * (sqrt PI / 2)) with (exp (- (x * x))) by (field; lra).
  nra.
Qed.
Lemma exp_small e : 0 < e -> exists M, 0 <= M /\ forall x, M <= x -> exp (- (x * x)) < e.
Proof.
  intros He. exists (1 + / e). assert (0 < / e) by (apply Rinv_0_lt_compat; exact He). split; [lra|]. intros x Hx.
  rewrite exp_Ropp. assert (G : / e < exp (x * x)).
  { pose proof (exp_ineq1 (x * x)). assert (0 < x * x) by nra. assert (1 + x * x < exp (x * x)) by (apply H0; lra). nra. }
  rewrite <- (Rinv_inv e). apply Rinv_lt_contravar; [|exact G]. apply Rmult_lt_0_compat; [assumption|apply exp_pos].
Qed.

(** A normal density with mean m and deviation sg > 0 integrates to one over the line. *)
Lemma density_form m sg a b : 0 < sg ->
  is_RInt (fun z => 1 / sqrt (2 * PI * (sg * sg)) * exp (- ((z - m) * (z - m)) / (2 * (sg * sg)))) a b
    (/ sqrt PI * (gI ((b - m) / (sg * sqrt 2)) - gI ((a - m) / (sg * sqrt 2)))).
Proof.
  intros Hs. assert (S2 : 0 < sqrt 2) by (apply sqrt_lt_R0; lra). assert (Q2 : sqrt 2 * sqrt 2 = 2) by (apply sqrt_sqrt; lra).
  assert (SP : 0 < sqrt PI) by (apply sqrt_lt_R0; apply PI_RGT_0). pose proof PI_RGT_0 as PP.
  set (u := / (sg * sqrt 2)). set (v := - m / (sg * sqrt 2)).
  assert (PS : 0 < sg * sqrt 2) by nra.
  assert (NV : sqrt (2 * PI * (sg * sg)) = sqrt PI * (sg * sqrt 2)).
  { rewrite sqrt_mult by nra. rewrite sqrt_mult by lra. rewrite sqrt_square by lra. ring. }
  apply (is_RInt_ext (fun z => scal (/ sqrt PI) (scal u (exp (- ((u * z + v) * (u * z + v))))))).
  - intros z _. rewrite NV. unfold scal. cbn. unfold mult. cbn.
    replace (- ((z - m) * (z - m)) / (2 * (sg * sg))) with (- ((u * z + v) * (u * z + v))).
    + unfold u. field. lra.
    + unfold u, v. rewrite <- Q2 at 5. field. lra.
  - apply (is_RInt_scal (V := R_NormedModule)). apply (is_RInt_comp_lin (fun t => exp (- (t * t))) u v a b).
    replace (u * a + v) with ((a - m) / (sg * sqrt 2)) by (unfold u, v; field; lra).
    replace (u * b + v) with ((b - m) / (sg * sqrt 2)) by (unfold u, v; field; lra).
    unfold gI. set (p := (a - m) / _). set (q := (b - m) / _).
    pose proof (RInt_Chasles (fun t => exp (- (t * t))) 0 p q (ex_bell _ _) (ex_bell _ _)) as C.
    replace (RInt (fun t => exp (- (t * t))) 0 q - RInt (fun t => exp (- (t * t))) 0 p) with (RInt (fun t => exp (- (t * t))) p q)
      by (rewrite <- C; unfold plus; cbn; ring).
    apply (RInt_correct (V := R_CompleteNormedModule)). apply ex_bell.
Qed.
Lemma density_total m sg e : 0 < sg -> 0 < e ->
  exists M, forall a b, a <= - M -> M <= b -> exists v, Rabs (v - 1) < e /\
    is_RInt (fun z => 1 / sqrt (2 * PI * (sg * sg)) * exp (- ((z - m) * (z - m)) / (2 * (sg * sg)))) a b v.
Proof.
  intros Hs He. assert (S2 : 0 < sqrt 2) by (apply sqrt_lt_R0; lra).
  assert (SP : 0 < sqrt PI) by (apply sqrt_lt_R0; apply PI_RGT_0). pose proof PI_RGT_0 as PP.
  assert (QP : sqrt PI * sqrt PI = PI) by (apply sqrt_sqrt; lra).
  destruct (exp_small (e * PI / 4)) as (M & HM & B); [nra|].
  assert (PS : 0 < sg * sqrt 2) by nra.
  exists (Rabs m + M * (sg * sqrt 2)). intros a b Ha Hb. eexists. split; [|apply density_form; exact Hs].
  set (q := (b - m) / (sg * sqrt 2)). set (p := (a - m) / (sg * sqrt 2)).
  pose proof (Rle_abs m) as A1. pose proof (Rle_abs (- m)) as A2. rewrite Rabs_Ropp in A2.
  assert (Hq : M <= q). { unfold q. apply Rmult_le_reg_r with (sg * sqrt 2); [exact PS|]. unfold Rdiv. rewrite Rmult_assoc, Rinv_l by lra. lra. }
  assert (Hp : M <= - p). { unfold p. apply Rmult_le_reg_r with (sg * sqrt 2); [exact PS|].
    replace (- ((a - m) / (sg * sqrt 2)) * (sg * sqrt 2)) with (m - a) by (field; lra). lra. }
  pose proof (gI_limit q ltac:(lra)) as L1. pose proof (gI_limit (- p) ltac:(lra)) as L2. rewrite gI_odd in L2.
  pose proof (B q Hq) as B1. pose proof (B (- p) Hp) as B2.
  set (x := exp (- (q * q))) in *. set (y := exp (- (- p * - p))) in *.
  assert (K : 2 / sqrt PI * (e * PI / 4) = e * sqrt PI / 2). { replace (e * PI / 4) with (e * (sqrt PI * sqrt PI) / 4) by (rewrite QP; reflexivity). field. lra. }
  assert (I : 0 < 2 / sqrt PI) by (apply Rdiv_lt_0_compat; lra).
  assert (L1' : Rabs (gI q - sqrt PI / 2) < e * sqrt PI / 2) by (rewrite <- K; nra).
  assert (L2' : Rabs (- gI p - sqrt PI / 2) < e * sqrt PI / 2) by (rewrite <- K; nra).
  apply Rabs_def2 in L1'. apply Rabs_def2 in L2'. apply Rabs_def1.
  - apply Rmult_lt_reg_r with (sqrt PI); [exact SP|]. replace ((/ sqrt PI * (gI q - gI p) - 1) * sqrt PI) with (gI q - gI p - sqrt PI) by (field; lra). lra.
  - apply Rmult_lt_reg_r with (sqrt PI); [exact SP|]. replace ((/ sqrt PI * (gI q - gI p) - 1) * sqrt PI) with (gI q - gI p - sqrt PI) by (field; lra). lra.
Qed.
