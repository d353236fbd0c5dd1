(** Lemmas: absorbing layers over the reals. *)
From Coq Require Import List Arith ZArith Bool String Lia Reals Lra Psatz.
From Verif Require Import Num Vec Index Matrix FieldModel FieldSpec FieldProofs FieldProofs2
  GridModel GridProofs SolverModel SolverPlanes SolverBuild SolverMaterials SolverKern SolverCons
  SolverSpec SolverFlux SolverEnergy SolverOps SolverFrozen SolverNames SolverTime SolverPmlSpec SolverPml SolverConstruct.
Import ListNotations.
Open Scope R_scope.

Lemma geomspace_length a b n : List.length (geomspace a b n) = n.
Proof. apply tab_length. Qed.

Lemma geom_get a b n i : (i < n)%nat -> get (geomspace a b n) i = a * Rpower (b / a) (INR i / INR (n - 1)).
Proof. intros H. unfold geomspace. rewrite get_tab by exact H. reflexivity. Qed.

Lemma ln_lt_0 x : 0 < x < 1 -> ln x < 0.
Proof. intros [A B]. rewrite <- ln_1. apply ln_increasing; lra. Qed.
Lemma ln_gt_0 x : 1 < x -> 0 < ln x.
Proof. intros B. rewrite <- ln_1. apply ln_increasing; lra. Qed.

Section Profile.
  Context (env : Env R) (n : nat) (a : nat).
  Context (Hg : e_geom env = geomspace) (Hlo : 0 < e_pml_lo env) (Hhi : e_pml_lo env < e_pml_hi env).
  Let lo := e_pml_lo env.
  Let hi := e_pml_hi env.

  Lemma profile_low p : (p < n)%nat -> profile env n (false, a) p = hi * exp (INR p / INR (n - 1) * ln (lo / hi)).
  Proof. intros H. unfold profile. cbn [fst]. rewrite Hg, geom_get by exact H. reflexivity. Qed.
  Lemma profile_high p : (p < n)%nat ->
    profile env n (true, a) p = lo * exp (INR (n - 1 - p) / INR (n - 1) * ln (hi / lo)).
  Proof. intros H. unfold profile. cbn [fst]. rewrite Hg, geom_get by lia. reflexivity. Qed.

  Lemma ratio_lt : ln (lo / hi) < 0.
  Proof.
    apply ln_lt_0. unfold lo, hi. split.
    - apply Rdiv_lt_0_compat; lra.
    - apply Rmult_lt_reg_r with (e_pml_hi env); [lra|]. unfold Rdiv. rewrite Rmult_assoc, Rinv_l; lra.
  Qed.
  Lemma ratio_opp : ln (hi / lo) = - ln (lo / hi).
  Proof.
    rewrite <- ln_Rinv; [|unfold lo, hi; apply Rdiv_lt_0_compat; lra]. f_equal. unfold lo, hi. field. split; lra.
  Qed.

  Lemma profile_pos f p : (p < n)%nat -> snd f = a -> 0 < profile env n f p.
  Proof.
    intros H E. destruct f as [[] b]; cbn in E; subst b.
    - rewrite profile_high by exact H. apply Rmult_lt_0_compat; [exact Hlo|apply exp_pos].
    - rewrite profile_low by exact H. apply Rmult_lt_0_compat; [unfold hi; lra|apply exp_pos].
  Qed.

  (** Both sides have the same profile as soon as there are two layers. *)
  Lemma profile_sym p : (2 <= n)%nat -> (p < n)%nat -> profile env n (true, a) p = profile env n (false, a) p.
  Proof.
    intros Hn H. rewrite profile_high, profile_low by exact H. rewrite ratio_opp.
    assert (N : INR (n - 1) <> 0) by (apply not_0_INR; lia).
    rewrite (minus_INR (n - 1) p) by lia.
    replace ((INR (n - 1) - INR p) / INR (n - 1) * - ln (lo / hi))
      with (- ln (lo / hi) + INR p / INR (n - 1) * ln (lo / hi)) by (field; exact N).
    rewrite exp_plus, exp_Ropp, exp_ln; [|unfold lo, hi; apply Rdiv_lt_0_compat; lra].
    rewrite <- Rmult_assoc. f_equal. unfold lo, hi. field. split; lra.
  Qed.

  (** Strictly larger nearer to the wall. *)
  Lemma profile_dec f p q : snd f = a -> (p < q)%nat -> (q < n)%nat -> profile env n f q < profile env n f p.
  Proof.
    intros E Hpq Hq. assert (Hl : profile env n (false, a) q < profile env n (false, a) p).
    { rewrite !profile_low by lia. apply Rmult_lt_compat_l; [unfold hi; lra|]. apply exp_increasing.
      assert (N : 0 < INR (n - 1)) by (apply lt_0_INR; lia).
      assert (L : INR p < INR q) by (apply lt_INR; exact Hpq).
      pose proof ratio_lt as Lr.
      assert (D : INR p / INR (n - 1) < INR q / INR (n - 1)).
      { unfold Rdiv. apply Rmult_lt_compat_r; [apply Rinv_0_lt_compat; exact N|exact L]. }
      nra. }
    destruct f as [[] b]; cbn in E; subst b; [|exact Hl]. rewrite !profile_sym by lia. exact Hl.
  Qed.
  Lemma profile_wall f : snd f = a -> (2 <= n)%nat -> profile env n f 0 = hi.
  Proof.
    intros E Hn. assert (Hl : profile env n (false, a) 0 = hi).
    { rewrite profile_low by lia. cbn [INR]. unfold Rdiv at 1. rewrite !Rmult_0_l, exp_0. ring. }
    destruct f as [[] b]; cbn in E; subst b; [|exact Hl]. rewrite profile_sym by lia. exact Hl.
  Qed.
  Lemma profile_inner f : snd f = a -> (2 <= n)%nat -> profile env n f (n - 1) = lo.
  Proof.
    intros E Hn. assert (Hl : profile env n (true, a) (n - 1) = lo).
    { rewrite profile_high by lia. rewrite Nat.sub_diag. cbn [INR]. unfold Rdiv at 1. rewrite !Rmult_0_l, exp_0. ring. }
    destruct f as [[] b]; cbn in E; subst b; [exact Hl|]. rewrite <- profile_sym by lia. exact Hl.
  Qed.
End Profile.

Lemma graded_R ref p : 0 < p -> ref < graded ref p.
Proof.
  intros H. unfold graded. cbn [nadd nmul none_ Num_R]. destruct (nltb ref 1) eqn:E; [lra|].
  assert (~ ref < 1) by (intros L; apply nltb_R in L; congruence). nra.
Qed.
Lemma graded_lt ref p q : p < q -> graded ref p < graded ref q.
Proof.
  intros H. unfold graded. cbn [nadd nmul none_ Num_R]. destruct (nltb ref 1) eqn:E; [lra|].
  assert (~ ref < 1) by (intros L; apply nltb_R in L; congruence). nra.
Qed.

Definition real_pml (env : Env R) : Prop :=
  e_geom env = geomspace /\ 0 < e_pml_lo env /\ e_pml_lo env < e_pml_hi env.
(** Positive permittivity (or a perfect conductor) and no negative conductivity. *)
Definition passive (m : material R) : Prop :=
  forall e, find_material m = Ok e ->
    match me_eps e with Fin r => 0 < r | Inf => True end /\
    match me_sigma e with Some x => 0 <= x | None => True end.

Lemma decided_depth n bl bh Nx Ny Nz f i j k : decided_by n bl bh Nx Ny Nz f i j k ->
  (depth Nx Ny Nz f i j k < n)%nat /\ In f pml_faces.
Proof.
  intros (l1 & l2 & E & (_ & H) & _). split; [exact H|]. rewrite E. apply in_or_app. right. left. reflexivity.
Qed.

(** Conductivity grows strictly toward the wall and exceeds the reference. *)
Lemma layers_grow env g g' ar (s : Solver R) g2' ar2 s2 : made env g g' ar s -> made env g g2' ar2 s2 ->
  ar_bg ar2 = ar_bg ar -> ar_solids ar2 = ar_solids ar -> spml s2 = false ->
  real_pml env -> (1 <= ar_npml ar)%nat ->
  (forall a, (a < 3)%nat -> (2 * ar_npml ar + 2 <= dim a (gNx g) (gNy g) (gNz g))%nat) ->
  forall f c i j k, in_box (gNx g) (gNy g) (gNz g) c i j k ->
  decided_by (ar_npml ar) (sbl s) (sbh s) (gNx g) (gNy g) (gNz g) f i j k ->
  entry3 (ssigma s2) c (ref_cell (ar_npml ar) (gNx g) (gNy g) (gNz g) f) < entry (ssigma s) c i j k /\
  forall i' j' k', in_box (gNx g) (gNy g) (gNz g) c i' j' k' ->
    decided_by (ar_npml ar) (sbl s) (sbh s) (gNx g) (gNy g) (gNz g) f i' j' k' ->
    (depth (gNx g) (gNy g) (gNz g) f i j k < depth (gNx g) (gNy g) (gNz g) f i' j' k')%nat ->
    entry (ssigma s) c i' j' k' < entry (ssigma s) c i j k.
Proof.
  intros Hm Hm2 Eb Es Hp (Hg & Hlo & Hhi) Hn Hr f c i j k (Hc & Hi & Hj & Hk) Hd.
  assert (Rm : room_for env (ar_npml ar) (gNx g) (gNy g) (gNz g)).
  { split; [intros; rewrite Hg; apply geomspace_length|]. split; assumption. }
  destruct (decided_depth _ _ _ _ _ _ _ _ _ _ Hd) as [D1 _].
  destruct (made_layers _ _ _ _ _ _ _ _ Hm Hm2 Eb Es Hp Rm c i j k Hc Hi Hj Hk) as [_ L].
  destruct (L f Hd) as [_ ->]. split.
  - apply graded_R. eapply profile_pos; eauto.
  - intros i' j' k' (_ & Hi' & Hj' & Hk') Hd' Hlt. destruct (decided_depth _ _ _ _ _ _ _ _ _ _ Hd') as [D2 _].
    destruct (made_layers _ _ _ _ _ _ _ _ Hm Hm2 Eb Es Hp Rm c i' j' k' Hc Hi' Hj' Hk') as [_ L'].
    destruct (L' f Hd') as [_ ->]. apply graded_lt. eapply profile_dec; eauto.
Qed.

(** Mirror image of a cell in direction a. *)
Definition mirror (a Nx Ny Nz i j k : nat) : nat * nat * nat :=
  set_coord a (dim a Nx Ny Nz - 1 - coord a i j k) i j k.

Lemma layers_mirror env g g' ar (s : Solver R) g2' ar2 s2 a : made env g g' ar s -> made env g g2' ar2 s2 ->
  ar_bg ar2 = ar_bg ar -> ar_solids ar2 = ar_solids ar -> spml s2 = false ->
  real_pml env -> (2 <= ar_npml ar)%nat -> (a < 3)%nat ->
  (forall a, (a < 3)%nat -> (2 * ar_npml ar + 2 <= dim a (gNx g) (gNy g) (gNz g))%nat) ->
  (forall c, (c < 3)%nat ->
     entry3 (sieps s2) c (ref_cell (ar_npml ar) (gNx g) (gNy g) (gNz g) (false, a)) =
     entry3 (sieps s2) c (ref_cell (ar_npml ar) (gNx g) (gNy g) (gNz g) (true, a)) /\
     entry3 (ssigma s2) c (ref_cell (ar_npml ar) (gNx g) (gNy g) (gNz g) (false, a)) =
     entry3 (ssigma s2) c (ref_cell (ar_npml ar) (gNx g) (gNy g) (gNz g) (true, a))) ->
  forall c i j k, in_box (gNx g) (gNy g) (gNz g) c i j k ->
  decided_by (ar_npml ar) (sbl s) (sbh s) (gNx g) (gNy g) (gNz g) (false, a) i j k ->
  (let '(i', j', k') := mirror a (gNx g) (gNy g) (gNz g) i j k in
   decided_by (ar_npml ar) (sbl s) (sbh s) (gNx g) (gNy g) (gNz g) (true, a) i' j' k') ->
  entry (sieps s) c i j k = entry3 (sieps s) c (mirror a (gNx g) (gNy g) (gNz g) i j k) /\
  entry (ssigma s) c i j k = entry3 (ssigma s) c (mirror a (gNx g) (gNy g) (gNz g) i j k).
Proof.
  intros Hm Hm2 Eb Es Hp (Hg & Hlo & Hhi) Hn Ha Hr Href c i j k (Hc & Hi & Hj & Hk) Hd Hd'.
  assert (Rm : room_for env (ar_npml ar) (gNx g) (gNy g) (gNz g)).
  { split; [intros; rewrite Hg; apply geomspace_length|]. split; [lia|assumption]. }
  destruct (decided_depth _ _ _ _ _ _ _ _ _ _ Hd) as [D1 _]. unfold depth in D1. cbn [fst snd] in D1.
  destruct (made_layers _ _ _ _ _ _ _ _ Hm Hm2 Eb Es Hp Rm c i j k Hc Hi Hj Hk) as [_ L].
  destruct (L _ Hd) as [-> ->]. destruct (Href c Hc) as [-> ->].
  assert (B : let '(i', j', k') := mirror a (gNx g) (gNy g) (gNz g) i j k in
    (i' < gNx g)%nat /\ (j' < gNy g)%nat /\ (k' < gNz g)%nat /\
    depth (gNx g) (gNy g) (gNz g) (true, a) i' j' k' = coord a i j k).
  { unfold mirror, depth. cbn [fst snd]. destruct a as [|[|[|a]]]; [| | |lia]; cbn [set_coord dim coord]; lia. }
  destruct (mirror a (gNx g) (gNy g) (gNz g) i j k) as [[i' j'] k']. destruct B as (Hi' & Hj' & Hk' & Ed).
  cbn [entry3]. destruct (made_layers _ _ _ _ _ _ _ _ Hm Hm2 Eb Es Hp Rm c i' j' k' Hc Hi' Hj' Hk') as [_ L'].
  destruct (L' _ Hd') as [-> ->]. rewrite Ed. unfold depth. cbn [fst snd]. split; [reflexivity|].
  rewrite profile_sym by (auto; lia). reflexivity.
Qed.

(** Passive materials give no negative entries. *)
Definition nonneg (F : Field R) (Nx Ny Nz : nat) : Prop :=
  forall c i j k, (c < 3)%nat -> (i < Nx)%nat -> (j < Ny)%nat -> (k < Nz)%nat -> 0 <= entry F c i j k.

Lemma over_nonneg x e0 : 0 < e0 -> match x with Fin r => 0 < r | Inf => True end ->
  0 <= over_ext (none_ : R) x e0.
Proof.
  intros H0 Hx. destruct x as [r|]; cbn; [|lra]. unfold Rdiv. rewrite Rmult_1_l.
  apply Rlt_le, Rinv_0_lt_compat, Rmult_lt_0_compat; assumption.
Qed.

Lemma build_nonneg env Nx Ny Nz bg c0 solids M : 0 < e_eps0 env -> passive bg ->
  (forall so, In so solids -> passive (so_mat so)) ->
  build_materials env Nx Ny Nz bg c0 solids = Ok M -> nonneg (mt_ieps M) Nx Ny Nz /\ nonneg (mt_sigma M) Nx Ny Nz.
Proof.
  intros H0 Hb Hs H. unfold build_materials in H. binv H e He. binv H ie H1. binv H im H2. binv H sg H3.
  destruct (uniform_field_spec Nx Ny Nz (over_ext (none_ : R) (me_eps e) (e_eps0 env))) as [F1 [E1 [S1 A1]]].
  destruct (uniform_field_spec Nx Ny Nz (over_ext (none_ : R) (me_mu e) (e_mu0 env))) as [F2 [E2 [S2 A2]]].
  destruct (uniform_field_spec Nx Ny Nz (match me_sigma e with Some s => s | None => (nzero : R) end)) as [F3 [E3 [S3 A3]]].
  rewrite H1 in E1. rewrite H2 in E2. rewrite H3 in E3.
  injection E1 as <-. injection E2 as <-. injection E3 as <-.
  assert (P : mats_sized M Nx Ny Nz /\ nonneg (mt_ieps M) Nx Ny Nz /\ nonneg (mt_sigma M) Nx Ny Nz); [|apply P].
  revert H. apply (seq_upd_inv (fun M => mats_sized M Nx Ny Nz /\ nonneg (mt_ieps M) Nx Ny Nz /\ nonneg (mt_sigma M) Nx Ny Nz)).
  - split; [repeat split; first [apply S1|apply S2|apply S3]|]. destruct (Hb e He) as [B1 B2]. split; intros c i j k Hc Hi Hj Hk; cbn.
    + rewrite A1 by assumption. apply over_nonneg; assumption.
    + rewrite A3 by assumption. destruct (me_sigma e); [exact B2|cbn; lra].
  - intros M0 so M1 Hin (SM & N1 & N2) E. destruct (apply_solid_spec _ _ _ _ _ _ _ _ SM E) as [S' [e1 [F1 [_ V]]]].
    destruct (Hs so Hin e1 F1) as [B1 B2].
    split; [exact S'|]. split; intros c i j k Hc Hi Hj Hk; destruct (V c i j k Hc Hi Hj Hk) as (V1 & _ & V3).
    + rewrite V1. destruct (cell_mask _ _ _ _ _ _); [apply over_nonneg; assumption|apply N1; assumption].
    + rewrite V3. destruct (me_sigma e1).
      * destruct (cell_mask _ _ _ _ _ _); [exact B2|apply N2; assumption].
      * destruct (_ && _); [cbn; lra|apply N2; assumption].
Qed.

Lemma all_faces_dec n bl bh Nx Ny Nz i j k :
  outside n bl bh Nx Ny Nz i j k \/ exists f, decided_by n bl bh Nx Ny Nz f i j k.
Proof.
  assert (A : forall l, (forall f, In f l -> ~ covers n bl bh Nx Ny Nz f i j k) \/
     exists f l1 l2, l = l1 ++ f :: l2 /\ covers n bl bh Nx Ny Nz f i j k /\
       forall f', In f' l2 -> ~ covers n bl bh Nx Ny Nz f' i j k).
  { induction l as [|f l IH]; [left; intros f []|].
    destruct IH as [IH|(f' & l1 & l2 & -> & H)]; [|right; exists f', (f :: l1), l2; auto].
    assert (D : covers n bl bh Nx Ny Nz f i j k \/ ~ covers n bl bh Nx Ny Nz f i j k).
    { unfold covers. destruct (String.string_dec (lower (wall_name bl bh f)) "pml"); [|right; tauto].
      destruct (lt_dec (depth Nx Ny Nz f i j k) n); [left; auto|right; tauto]. }
    destruct D as [D|D]; [right; exists f, [], l; auto|].
    left. intros g [<- | Hg]; [exact D|apply IH, Hg]. }
  destruct (A pml_faces) as [H|(f & l1 & l2 & H)]; [left; exact H|right; exists f, l1, l2; exact H].
Qed.

Lemma fill_nonneg env n bl bh Nx Ny Nz ie sg ie' sg' : real_pml env -> (1 <= n)%nat ->
  (forall a, (a < 3)%nat -> (2 * n + 2 <= dim a Nx Ny Nz)%nat) ->
  sized ie Nx Ny Nz -> sized sg Nx Ny Nz -> nonneg ie Nx Ny Nz -> nonneg sg Nx Ny Nz ->
  fill_pml env n bl bh ie sg = Ok (ie', sg') -> nonneg ie' Nx Ny Nz /\ nonneg sg' Nx Ny Nz.
Proof.
  intros (Hg & Hlo & Hhi) Hn Hr S1 S2 N1 N2 H.
  assert (Gl : forall a b m, List.length (e_geom env a b m) = m) by (intros; rewrite Hg; apply geomspace_length).
  destruct (fill_spec env n bl bh Nx Ny Nz Gl Hn Hr ie sg S1 S2) as (i1 & s1 & E & _ & _ & A).
  rewrite H in E. injection E as <- <-.
  assert (P : forall c i j k, (c < 3)%nat -> (i < Nx)%nat -> (j < Ny)%nat -> (k < Nz)%nat ->
            0 <= entry ie' c i j k /\ 0 <= entry sg' c i j k).
  { intros c i j k Hc Hi Hj Hk. destruct (A c i j k Hc Hi Hj Hk) as [A1 A2].
    destruct (all_faces_dec n bl bh Nx Ny Nz i j k) as [Ho|[f Hd]].
    - destruct (A1 Ho) as [-> ->]. split; [apply N1|apply N2]; assumption.
    - destruct (A2 f Hd) as [-> ->]. destruct (decided_depth _ _ _ _ _ _ _ _ _ _ Hd) as [Dp Hin].
      assert (Hs : (snd f < 3)%nat) by (cbn in Hin; repeat (destruct Hin as [<- | Hin]; [cbn; lia|]); destruct Hin).
      pose proof (ref_outside n bl bh Nx Ny Nz Hn Hr f f Hs Hs) as Rf.
      destruct (ref_cell n Nx Ny Nz f) as [[ri rj] rk]. destruct Rf as (Ri & Rj & Rk & _). cbn [entry3].
      split; [apply N1; assumption|]. specialize (N2 c ri rj rk Hc Ri Rj Rk).
      pose proof (graded_R (entry sg c ri rj rk) _ (profile_pos env n (snd f) Hg Hlo Hhi f _ Dp eq_refl)). lra. }
  split; intros c i j k Hc Hi Hj Hk; apply (P c i j k Hc Hi Hj Hk).
Qed.

Lemma nonneg_get (F : Field R) Nx Ny Nz : sized F Nx Ny Nz -> nonneg F Nx Ny Nz -> forall r, 0 <= get (farr F) r.
Proof.
  intros S N r. destruct (lt_dec r (3 * (Nx * Ny * Nz))) as [H|H].
  - destruct (ix_surj _ _ _ _ H) as (c & i & j & k & Hc & Hi & Hj & Hk & ->).
    rewrite <- (entry_ix F Nx Ny Nz) by exact S. apply N; assumption.
  - right. symmetry. unfold get. apply nth_overflow. destruct S as [W [X [Y Z]]]. unfold wf in W. rewrite W. unfold fN.
    rewrite X, Y, Z. lia.
Qed.

Lemma made_nonneg env g g' ar (s : Solver R) : made env g g' ar s -> 0 < e_eps0 env -> passive (ar_bg ar) ->
  (forall so, In so (ar_solids ar) -> passive (so_mat so)) ->
  (spml s = true -> real_pml env /\ (1 <= ar_npml ar)%nat /\
     forall a, (a < 3)%nat -> (2 * ar_npml ar + 2 <= dim a (gNx g) (gNy g) (gNz g))%nat) ->
  (forall r, 0 <= get (farr (sieps s)) r) /\ (forall r, 0 <= get (farr (ssigma s)) r).
Proof.
  intros Hm H0 Hb Hs Hp. destruct (made_conf _ _ _ _ _ Hm) as (s0 & Hg & Hco & A1 & _ & A3 & _ & _ & A6 & A7 & A8 & _).
  destruct (construct_spec env g ar s0 g' (grid_obj_ok env g Hg) Hco) as
    (bo & M & Hbo & Hbc & HM & (S1 & _ & S3) & Hms & _ & _ & _ & _ & _ & _ & _ & _ & _ & _ & _ & _ & Ep & Sie & _ & Ssg & _).
  destruct (build_nonneg _ _ _ _ _ _ _ _ H0 Hb Hs HM) as [N1 N2]. rewrite A1, A3. rewrite A8, Ep in Hp.
  assert (P : nonneg (sieps s0) (gNx g) (gNy g) (gNz g) /\ nonneg (ssigma s0) (gNx g) (gNy g) (gNz g)).
  { destruct (bo_pml bo).
    - destruct (Hp eq_refl) as (Rp & Hn & Hr). exact (fill_nonneg _ _ _ _ _ _ _ _ _ _ _ Rp Hn Hr S1 S3 N1 N2 Hms).
    - injection Hms as <- <-. auto. }
  split; eapply nonneg_get; try eassumption; apply P.
Qed.

(** With absorbing walls the solver is built whenever the last of them finds a permittivity. *)
Lemma construct_pml env (g : Grid R) ar ebg bl bh f l1 l2 m e r : grid_obj env g ->
  find_material (ar_bg ar) = Ok ebg -> valid_solids (gNx g) (gNy g) (gNz g) (ar_solids ar) ->
  mpi_bc (ar_mpi ar) (ar_bl ar) (ar_bh ar) = (bl, bh) -> real_pml env -> (1 <= ar_npml ar)%nat ->
  (forall a, (a < 3)%nat -> (2 * ar_npml ar + 2 <= dim a (gNx g) (gNy g) (gNz g))%nat) ->
  0 < e_eps0 env -> passive (ar_bg ar) -> (forall so, In so (ar_solids ar) -> passive (so_mat so)) ->
  pml_faces = l1 ++ f :: l2 -> lower (wall_name bl bh f) = "pml"%string ->
  (forall f', In f' l2 -> lower (wall_name bl bh f') <> "pml"%string) ->
  (let '(i, j, k) := ref_cell (ar_npml ar) (gNx g) (gNy g) (gNz g) f in
   decides (gNy g) (gNz g) (ar_bg ar) (ar_solids ar) i j k m) ->
  find_material m = Ok e -> me_eps e = Fin r -> 0 < r ->
  exists s g', construct env g ar = Ok (s, g').
Proof.
  intros Hgo Hb Hv Hmp (Hg & Hlo & Hhi) Hn Hr H0 Pb Ps Ef Hf Hl Hd He Hep Hr0.
  assert (Gl : forall a b m, List.length (e_geom env a b m) = m) by (intros; rewrite Hg; apply geomspace_length).
  eapply construct_ok; try eassumption.
  - apply grid_obj_ok with env. exact Hgo.
  - intros _. split; [exact Gl|]. split; assumption.
  - intros M ie sg HM Hms _.
    pose proof (build_materials_sized _ _ _ _ _ _ _ _ HM) as (S1 & _ & S3).
    assert (Fin : In f pml_faces) by (rewrite Ef; apply in_or_app; right; left; reflexivity).
    assert (Hs : (snd f < 3)%nat) by (cbn in Fin; repeat (destruct Fin as [<- | Fin]; [cbn; lia|]); destruct Fin).
    assert (Hp : has_pml bl bh = true).
    { cbn in Fin. unfold wall_name in Hf. unfold has_pml, any_bc, named, axes. cbn [existsb].
      repeat (destruct Fin as [<- | Fin]; [cbn [fst snd] in Hf; rewrite Hf, String.eqb_refl, ?orb_true_r; reflexivity|]).
      destruct Fin. }
    rewrite Hp in Hms, HM.
    destruct (fill_spec env (ar_npml ar) bl bh _ _ _ Gl Hn Hr _ _ S1 S3) as (ie' & sg' & E & U1 & U2 & A).
    rewrite Hms in E. injection E as <- <-.
    destruct (build_nonneg _ _ _ _ _ _ _ _ H0 Pb Ps HM) as [_ N2].
    pose proof (ref_outside (ar_npml ar) bl bh _ _ _ Hn Hr f f Hs Hs) as Rf.
    set (w := set_coord (snd f) (if fst f then dim (snd f) (gNx g) (gNy g) (gNz g) - 1 else 0)%nat 0 0 0).
    assert (B : let '(i, j, k) := w in (i < gNx g)%nat /\ (j < gNy g)%nat /\ (k < gNz g)%nat /\
      depth (gNx g) (gNy g) (gNz g) f i j k = 0%nat).
    { pose proof (Hr 0%nat ltac:(lia)) as D0. pose proof (Hr 1%nat ltac:(lia)) as D1. pose proof (Hr 2%nat ltac:(lia)) as D2.
      cbn [dim] in D0, D1, D2. unfold w, depth. destruct f as [[] [|[|[|a]]]]; cbn [fst snd set_coord dim coord] in *; lia. }
    clearbody w. destruct w as [[i j] k]. destruct B as (Hi & Hj & Hk & Dp).
    destruct (A 0%nat i j k ltac:(lia) Hi Hj Hk) as [_ Af].
    destruct (Af f) as [V1 V2].
    { exists l1, l2. split; [exact Ef|]. split; [split; [exact Hf|lia]|]. intros f' Hf' [C _]. exact (Hl f' Hf' C). }
    destruct (ref_cell (ar_npml ar) (gNx g) (gNy g) (gNz g) f) as [[ri rj] rk]. destruct Rf as (Ri & Rj & Rk & _).
    cbn [entry3] in V1, V2.
    assert (P1 : entry (mt_ieps M) 0 ri rj rk <> 0).
    { destruct (build_values _ _ _ _ _ _ _ _ HM ri rj rk Ri Rj Rk) as (e' & He' & V).
      rewrite (cell_material_decides _ _ _ _ _ _ _ _ Hd), He in He'. injection He' as <-.
      destruct (V 0%nat ltac:(lia)) as [-> _]. rewrite Hep. cbn. unfold Rdiv. rewrite Rmult_1_l.
      apply Rgt_not_eq, Rinv_0_lt_compat, Rmult_lt_0_compat; assumption. }
    assert (P2 : 0 < entry sg 0 i j k).
    { rewrite V2. specialize (N2 0%nat ri rj rk ltac:(lia) Ri Rj Rk).
      assert (Dn : (depth (gNx g) (gNy g) (gNz g) f i j k < ar_npml ar)%nat) by lia.
      pose proof (graded_R (entry (mt_sigma M) 0 ri rj rk) _ (profile_pos env (ar_npml ar) (snd f) Hg Hlo Hhi f _ Dn eq_refl)). lra. }
    rewrite (entry_ix ie (gNx g) (gNy g) (gNz g)) in V1 by exact U1. rewrite (entry_ix sg (gNx g) (gNy g) (gNz g)) in P2 by exact U2.
    refine (taus_nonempty _ _ (ix (gNx g) (gNy g) (gNz g) 0 i j k) _ _ _).
    + apply cell_index; [exact U2|lia|assumption..].
    + apply Rgt_not_eq. exact P2.
    + rewrite V1. exact P1.
Qed.
