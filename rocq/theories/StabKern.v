(** Lemmas: a solver on an evenly spaced grid with one background material meets the kernel bounds. *)
From Coq Require Import List Arith Bool Lia Reals Lra String.
From Verif Require Import Num Vec Index Matrix FieldModel FieldSpec FieldProofs FieldProofs2 GridModel GridProofs SolverModel SolverSpec SolverPlanes
  SolverBuild SolverMaterials SolverKern SolverCons SolverEnergy SolverFlux SolverFrozen SolverTime SolverPmlR SolverProps4 StabSum Stab StabGrid.
Import ListNotations.
Open Scope nat_scope.

(** Unit system in which light moves at the speed the time step assumes. *)
Definition light_env (env : Env R) : Prop :=
  real_env env /\ (0 < e_mu0 env)%R /\ (e_c env * e_c env * (e_eps0 env * e_mu0 env) = 1)%R.
(** Evenly spaced nodes, one lossless background no faster than vacuum, default time step. *)
Definition even_setup (env : Env R) (g : Grid R) (ar : Args R) (hx hy hz er mr : R) : Prop :=
  evenly (gx g) hx /\ evenly (gy g) hy /\ evenly (gz g) hz /\ ar_solids ar = [] /\
  find_material (ar_bg ar) = Ok {| me_eps := Fin er; me_mu := Fin mr; me_sigma := None |} /\
  (0 < er)%R /\ (0 < mr)%R /\ (1 <= er * mr)%R /\ ar_dt ar = None /\ (0 < ar_cfln ar < 1)%R.

Lemma even_values env g g' ar (s : Solver R) hx hy hz er mr : made env g g' ar s -> even_setup env g ar hx hy hz er mr -> spml s = false ->
  scond s = false /\ forall d i j k, in_box (gNx g) (gNy g) (gNz g) d i j k ->
    (entry (sieps s) d i j k = / (er * e_eps0 env))%R /\ (entry (simu s) d i j k = / (mr * e_mu0 env))%R.
Proof.
  intros Hm (_ & _ & _ & Hs & Hf & _) Hp. destruct (made_values _ _ _ _ _ Hm) as (M & bo & _ & HM & _ & Emu & Eco & Epm & _ & Eie).
  destruct (Eie Hp) as [Ei _]. rewrite Hp in Epm. rewrite <- Epm in HM. unfold build_materials in HM. rewrite Hs, Hf in HM. cbn [bind me_eps me_mu me_sigma] in HM.
  binv HM ie A. binv HM im B. binv HM sg HC. cbn [seq_upd] in HM. injection HM as <-. cbn [mt_ieps mt_imu mt_cond] in *.
  split; [exact Eco|]. intros d i j k (Hd & Hi & Hj & Hk). rewrite Ei, Emu.
  destruct (uniform_field_spec (gNx g) (gNy g) (gNz g) (over_ext (@none_ R _) (Fin er) (e_eps0 env))) as (F & EF & _ & VF). rewrite A in EF. injection EF as <-.
  destruct (uniform_field_spec (gNx g) (gNy g) (gNz g) (over_ext (@none_ R _) (Fin mr) (e_mu0 env))) as (F2 & EF2 & _ & VF2). rewrite B in EF2. injection EF2 as <-.
  rewrite VF, VF2 by assumption. cbn [over_ext ndiv nmul none_ Num_R]. unfold Rdiv. rewrite !Rmult_1_l. auto.
Qed.

Lemma evenly_inc x h : evenly x h -> increasing x.
Proof. intros [P H] i Hi. pose proof (H i Hi). lra. Qed.
Lemma evenly_diff x h : 2 <= List.length x -> evenly x h -> In h (diff x).
Proof.
  intros Hl [P H]. unfold diff, tab. apply in_map_iff. exists 0. split; [cbn [nsub Num_R]; apply H; lia|]. apply in_seq. lia.
Qed.

Lemma even_dt env g g' ar (s : Solver R) hx hy hz er mr : made env g g' ar s -> light_env env -> even_setup env g ar hx hy hz er mr -> spml s = false ->
  (sdt s * sdt s * (/ hx * / hx + / hy * / hy + / hz * / hz) <= ar_cfln ar * ar_cfln ar * (er * e_eps0 env * (mr * e_mu0 env)))%R.
Proof.
  intros Hm ((Hs & Hc & H0) & Hmu & Hl) He Hp. pose proof (even_values _ _ _ _ _ _ _ _ _ _ Hm He Hp) as [Hco _].
  destruct He as (Ux & Uy & Uz & Eso & Ef & Pe & Pm & Pem & Edt & Pc).
  destruct (made_conf _ _ _ _ _ Hm) as (s0 & Hg & Hcc & _). pose proof (grid_obj_ok env g Hg) as (GX & GY & GZ & _).
  assert (Pas : passive (ar_bg ar)). { intros e Ee. rewrite Ef in Ee. injection Ee as <-. cbn. lra. }
  assert (PS : passive_setup env g ar).
  { split; [exact Pas|]. split; [rewrite Eso; intros so []|]. split; [rewrite Edt; discriminate|]. split; [lra|].
    split; [eapply evenly_inc; eassumption|]. split; eapply evenly_inc; eassumption. }
  destruct (C33_time_step _ _ _ _ _ Hm (conj Hs (conj Hc H0)) PS ltac:(congruence)) as (_ & B & _).
  unfold gNx, gNy, gNz in GX, GY, GZ.
  specialize (B Edt hx hy hz (evenly_diff (gx g) hx ltac:(lia) Ux) (evenly_diff (gy g) hy ltac:(lia) Uy) (evenly_diff (gz g) hz ltac:(lia) Uz)).
  rewrite <- !Rinv_mult in *.
  set (q := (/ (hx * hx) + / (hy * hy) + / (hz * hz))%R) in *.
  assert (E : (er * e_eps0 env * (mr * e_mu0 env) = er * mr * (e_eps0 env * e_mu0 env))%R) by ring. rewrite E.
  assert (Pz : (0 < e_eps0 env * e_mu0 env)%R) by (apply Rmult_lt_0_compat; assumption).
  assert (B2 := Rmult_le_compat_r (e_eps0 env * e_mu0 env) _ _ (Rlt_le _ _ Pz) B).
  replace (sdt s * sdt s * (e_c env * e_c env) * q * (e_eps0 env * e_mu0 env))%R with (sdt s * sdt s * q * (e_c env * e_c env * (e_eps0 env * e_mu0 env)))%R in B2 by ring.
  rewrite Hl, Rmult_1_r in B2. eapply Rle_trans; [exact B2|].
  assert (0 <= ar_cfln ar * ar_cfln ar * (e_eps0 env * e_mu0 env))%R by (apply Rmult_le_pos; [apply Rle_0_sqr|lra]).
  assert (ar_cfln ar * ar_cfln ar * (e_eps0 env * e_mu0 env) * 1 <= ar_cfln ar * ar_cfln ar * (e_eps0 env * e_mu0 env) * (er * mr))%R by (apply Rmult_le_compat_l; assumption). lra.
Qed.

Section Kernel.
  Context (env : Env R) (g g' : Grid R) (ar : Args R) (s : Solver R) (hx hy hz er mr : R).
  Context (Hm : made env g g' ar s) (Hl : light_env env) (He : even_setup env g ar hx hy hz er mr) (Hp : spml s = false).
  Notation K := (kern_of g g' s).
  Notation eps := (er * e_eps0 env)%R.
  Notation mu := (mr * e_mu0 env)%R.
  Notation nu := (ar_cfln ar).

  Lemma ev_pos : (0 < hx)%R /\ (0 < hy)%R /\ (0 < hz)%R /\ (0 < eps)%R /\ (0 < mu)%R /\ (0 < nu < 1)%R.
  Proof.
    destruct He as ((Px & _) & (Py & _) & (Pz & _) & _ & _ & Pe & Pm & _ & _ & Pc). destruct Hl as ((_ & _ & H0) & Hmu & _).
    repeat split; try assumption; try (apply Rmult_lt_0_compat; assumption); apply Pc.
  Qed.
  Lemma ev_dims : 0 < gNx g /\ 0 < gNy g /\ 0 < gNz g /\ 0 < kN K.
  Proof.
    destruct (made_conf _ _ _ _ _ Hm) as (s0 & Hg & _). pose proof (grid_obj_ok env g Hg) as (GX & GY & GZ & _).
    repeat split; try assumption. change (kN K) with (gNx g * gNy g * gNz g). nia.
  Qed.
  Lemma ev_grids : prim_even g hx hy hz /\ dual_even g' hx hy hz /\ gNx g' = gNx g /\ gNy g' = gNy g /\ gNz g' = gNz g.
  Proof.
    destruct He as (Ux & Uy & Uz & _). destruct (made_conf _ _ _ _ _ Hm) as (s0 & Hg & Hc & _). pose proof (grid_obj_ok env g Hg) as Gk.
    destruct (grid_even env g hx hy hz Hg Ux Uy Uz) as [P D]. destruct (used_even env g ar s0 g' hx hy hz Gk Hc P D) as (A & B & C & _ & D').
    split; [exact P|]. split; [exact D'|]. unfold gNx, gNy, gNz. rewrite A, B, C. auto.
  Qed.
  Lemma flat_ix d m : d < 3 -> m < kN K -> exists i j k, in_box (gNx g) (gNy g) (gNz g) d i j k /\ d * kN K + m = ix (gNx g) (gNy g) (gNz g) d i j k.
  Proof.
    intros Hd Hm0. change (kN K) with (gNx g * gNy g * gNz g) in *. destruct (cell_decode _ _ _ _ Hm0) as [Hi [Hj [Hk Ec]]].
    eexists _, _, _. split; [split; [exact Hd|split; [exact Hi|split; [exact Hj|exact Hk]]]|]. unfold ix. rewrite Ec. reflexivity.
  Qed.
  Lemma ev_L d m : d < 3 -> m < kN K -> kL K (d * kN K + m) = ds hx hy hz d.
  Proof.
    intros Hd Hm0. destruct (flat_ix d m Hd Hm0) as (i & j & k & Hb & ->). destruct (SolverEnergy.made_sized env g g' ar s Hm) as (_ & _ & _ & SL & _).
    change (kL K) with (get (farr (gL g))). rewrite <- (entry_ix (gL g)) by exact SL. apply ev_grids. exact Hb.
  Qed.
  Lemma ev_tL d m : d < 3 -> m < kN K -> ktL K (d * kN K + m) = ds hx hy hz d \/ ktL K (d * kN K + m) = 0%R.
  Proof.
    intros Hd Hm0. destruct (flat_ix d m Hd Hm0) as (i & j & k & Hb & ->). destruct (SolverEnergy.made_sized env g g' ar s Hm) as (_ & _ & _ & _ & _ & St & _).
    destruct ev_grids as (_ & D & X & Y & Z).
    change (ktL K) with (get (farr (gtL g'))). rewrite <- (entry_ix (gtL g')) by exact St. unfold dual_even in D. rewrite X, Y, Z in D. destruct (D d i j k Hb) as [[A|[A _]] _]; auto.
  Qed.
  Lemma tr_vol d : d < 3 -> (/ (ds hx hy hz (tr1 d) * ds hx hy hz (tr2 d)) = ds hx hy hz d / (hx * hy * hz))%R.
  Proof. destruct ev_pos as (Px & Py & Pz & _). destruct d as [|[|[|d]]]; intros Hd; [cbn; field; lra..|lia]. Qed.
  Lemma ev_A d m : d < 3 -> m < kN K -> (kiA K (d * kN K + m) * kimu K (d * kN K + m) = ds hx hy hz d / (hx * hy * hz * mu))%R.
  Proof.
    intros Hd Hm0. destruct (flat_ix d m Hd Hm0) as (i & j & k & Hb & ->). destruct (SolverEnergy.made_sized env g g' ar s Hm) as (_ & Si & _ & _ & SA & _ & _).
    change (kiA K) with (get (farr (giA g))). change (kimu K) with (get (farr (simu s))). rewrite <- (entry_ix (giA g)) by exact SA. rewrite <- (entry_ix (simu s)) by exact Si.
    destruct ev_grids as (P & _). destruct (P d i j k Hb) as [_ ->]. destruct (even_values _ _ _ _ _ _ _ _ _ _ Hm He Hp) as [_ Q]. destruct (Q d i j k Hb) as [_ ->].
    rewrite tr_vol by exact Hd. destruct ev_pos as (Px & Py & Pz & _ & Pm & _). destruct Hl as (_ & Q1 & _). destruct He as (_ & _ & _ & _ & _ & _ & Q2 & _). field. lra.
  Qed.
  Lemma mask01 f n : (forall d i j k, f d i j k = 0%R \/ f d i j k = 1%R) -> on_ix f (gNx g) (gNy g) (gNz g) n = 0%R \/ on_ix f (gNx g) (gNy g) (gNz g) n = 1%R.
  Proof. intros H. unfold on_ix. apply H. Qed.
  Lemma maskv01 (a b : nat -> R) Nx Ny Nz d i j k : (forall n, a n = 0%R \/ a n = 1%R) -> (forall n, b n = 0%R \/ b n = 1%R) ->
    maskv a b Nx Ny Nz d i j k = 0%R \/ maskv a b Nx Ny Nz d i j k = 1%R.
  Proof.
    intros Ha Hb. unfold maskv. cbn [none_ Num_R].
    repeat match goal with |- context [if ?c then _ else _] => destruct c end; auto.
  Qed.
  Lemma ev_col n : kcol K n = 0%R \/ kcol K n = 1%R.
  Proof. apply mask01. intros. apply maskv01; intros a; unfold plo; destruct (is_pec _); cbn; auto. Qed.
  Lemma ev_row n : krow K n = 0%R \/ krow K n = 1%R.
  Proof.
    apply mask01. intros. unfold rowv. destruct (pmc_any _ _); [|right; reflexivity].
    apply maskv01; intros a; unfold rlo, plo; destruct (is_pmc_face _); cbn; auto; destruct (is_pec _); cbn; auto.
  Qed.
  Lemma ev_edge r : r < 3 * kN K ->
    (forall d i j k, in_box (gNx g) (gNy g) (gNz g) d i j k -> entry (gitA g') d i j k = 0%R ->
       entry (sE s) d i j k = 0%R \/ electric_wall (sbl s) (sbh s) (gNx g) (gNy g) (gNz g) d i j k) ->
    edge_ok K (wE hx hy hz eps) (te (abs s)) r.
  Proof.
    intros Hr Hdead. destruct (comp_decode _ _ Hr) as (Hd & Hm0 & Er). set (d := r / kN K) in *. set (m := r mod kN K) in *. clearbody d m. subst r.
    pose proof (ev_L d m Hd Hm0) as EL. destruct (flat_ix d m Hd Hm0) as (i & j & k & Hb & E). rewrite E in *.
    destruct (SolverEnergy.made_sized env g g' ar s Hm) as (Sie & _ & _ & _ & _ & _ & StA). pose proof (made_good env g g' ar s Hm) as G.
    destruct ev_grids as (_ & D & X & Y & Z). unfold dual_even in D. rewrite X, Y, Z in D.
    destruct (even_values _ _ _ _ _ _ _ _ _ _ Hm He Hp) as [_ Q]. destruct (Q d i j k Hb) as [QE _].
    destruct ev_pos as (Px & Py & Pz & Pe & Pm & _).
    unfold edge_ok, wE. cbn [nmul nzero Num_R]. change (kieps K) with (get (farr (sieps s))). change (kitA K) with (get (farr (gitA g'))). cbn [abs te].
    rewrite <- (entry_ix (sieps s)) by exact Sie. rewrite <- (entry_ix (gitA g')) by exact StA. rewrite <- (entry_ix (sE s)) by exact (gd_E _ _ G). rewrite QE, EL.
    destruct (D d i j k Hb) as [_ [A|[A _]]].
    - left. rewrite A, tr_vol by exact Hd. assert (er <> 0 /\ e_eps0 env <> 0)%R by (split; intros N; rewrite N in Pe; lra). field. repeat split; try lra; apply H.
    - right. rewrite A. split; [ring|]. destruct (Hdead d i j k Hb A) as [-> | W]; [ring|].
      change (kcol K) with (on_ix (@colv R Num_R (sbl s) (sbh s) (gNx g) (gNy g) (gNz g)) (gNx g) (gNy g) (gNz g)).
      destruct Hb as (_ & Hi & Hj & Hk). rewrite on_ix_ix by assumption. rewrite (colv_wall _ _ _ _ _ _ _ _ _ W). cbn [nzero Num_R]. ring.
  Qed.
End Kernel.
