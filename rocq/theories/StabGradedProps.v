(** Property C118: the default time step on graded meshes with solids, conductors and absorbing layers. *)
From Coq Require Import List Arith ZArith Bool Lia Reals Lra String.
From Verif Require Import Num Vec Index Matrix FieldModel FieldSpec FieldProofs FieldProofs2 GridModel GridProofs SolverModel SolverSpec SolverPlanes
  SolverBuild SolverMaterials SolverKern SolverCons SolverEnergy SolverFlux SolverFrozen SolverTime SolverPmlSpec SolverConstruct SolverPmlR SolverKit SolverProps4 MpiConf
  StabSum Stab StabGrid StabKern StabProps StabGraded StabBox StabGradedGrid.
Import ListNotations.
Open Scope nat_scope.

(** Increasing nodes, materials no faster than vacuum, default time step. *)
Definition graded_setup (g : Grid R) (ar : Args R) (er mr : R) : Prop :=
  increasing (gx g) /\ increasing (gy g) /\ increasing (gz g) /\ slow er mr (ar_bg ar) /\ (forall so, In so (ar_solids ar) -> slow er mr (so_mat so)) /\
  (0 < er)%R /\ (0 < mr)%R /\ (1 <= er * mr)%R /\ ar_dt ar = None /\ (0 < ar_cfln ar)%R.

Section Run.
  Context (env : Env R) (g g' : Grid R) (ar : Args R) (s : Solver R) (er mr : R).
  Context (Hm : made env g g' ar s) (Hl : light_env env) (He : graded_setup g ar er mr) (Hp : spml s = true -> layers_fit env g ar).
  Context (Hw : forall a, a < 3 -> electric (bc_at (sbl s) a) /\ electric (bc_at (sbh s) a)).
  Notation K := (kern_of g g' s).
  Notation e0 := (er * e_eps0 env)%R.
  Notation m0 := (mr * e_mu0 env)%R.
  Notation l := (fun d => len_at (axis g d)).
  Notation t := (fun d => dual_at (axis g d)).

  Lemma inc_axis d : increasing (axis g d).
  Proof. destruct He as (A & B & C & _). destruct d as [|[|d]]; assumption. Qed.
  Lemma gr_passive : passive_setup env g ar.
  Proof.
    destruct He as (A & B & C & S1 & S2 & P1 & P2 & _ & Ed & Pc).
    split; [exact (slow_passive er mr _ P1 S1)|]. split; [intros so Hso; exact (slow_passive er mr _ P1 (S2 so Hso))|]. split; [rewrite Ed; discriminate|]. auto.
  Qed.
  Lemma gr_metric : prim_graded g /\ dual_graded g' /\ (forall d, axis g' d = axis g d) /\ gNx g' = gNx g /\ gNy g' = gNy g /\ gNz g' = gNz g.
  Proof.
    destruct (made_conf _ _ _ _ _ Hm) as (s0 & Hg & Hc & _). pose proof (grid_obj_ok env g Hg) as Gk.
    destruct (grid_graded env g Hg inc_axis) as [P D]. destruct (used_graded env g ar s0 g' Gk Hc inc_axis P D) as (A & B & C & _ & D').
    split; [exact P|]. split; [exact D'|]. unfold axis, gNx, gNy, gNz. rewrite A, B, C. auto.
  Qed.
  Lemma gr_dims : 2 <= List.length (gx g) /\ 2 <= List.length (gy g) /\ 2 <= List.length (gz g).
  Proof.
    destruct (made_conf _ _ _ _ _ Hm) as (s0 & Hg & _). pose proof (grid_obj_ok env g Hg) as (GX & GY & GZ & _). unfold gNx, gNy, gNz in *. lia.
  Qed.
  Lemma gr_axis2 d : 2 <= List.length (axis g d).
  Proof. destruct gr_dims as (A & B & C). destruct d as [|[|d]]; assumption. Qed.
  Lemma gr_dt hx hy hz : In hx (diff (gx g)) -> In hy (diff (gy g)) -> In hz (diff (gz g)) ->
    (sdt s * sdt s * (/ hx * / hx + / hy * / hy + / hz * / hz) <= ar_cfln ar * ar_cfln ar * (e0 * m0))%R.
  Proof.
    intros Hx Hy Hz. destruct Hl as (Re & Hmu & Hlight). pose proof Re as (_ & _ & H0). destruct He as (_ & _ & _ & _ & _ & Pe & Pm & Pem & Edt & Pc).
    destruct (C33_time_step _ _ _ _ _ Hm Re gr_passive Hp) as (_ & B & _). specialize (B Edt hx hy hz Hx Hy Hz).
    rewrite <- !Rinv_mult in *.
    set (q := (/ (hx * hx) + / (hy * hy) + / (hz * hz))%R) in *.
    assert (E : (e0 * m0 = er * mr * (e_eps0 env * e_mu0 env))%R) by ring. rewrite E.
    assert (Pz : (0 < e_eps0 env * e_mu0 env)%R) by (apply Rmult_lt_0_compat; assumption).
    assert (B2 := Rmult_le_compat_r (e_eps0 env * e_mu0 env) _ _ (Rlt_le _ _ Pz) B).
    replace (sdt s * sdt s * (e_c env * e_c env) * q * (e_eps0 env * e_mu0 env))%R with (sdt s * sdt s * q * (e_c env * e_c env * (e_eps0 env * e_mu0 env)))%R in B2 by ring.
    rewrite Hlight, Rmult_1_r in B2. eapply Rle_trans; [exact B2|].
    assert (0 <= ar_cfln ar * ar_cfln ar * (e_eps0 env * e_mu0 env))%R by (apply Rmult_le_pos; [apply Rle_0_sqr|lra]).
    assert (ar_cfln ar * ar_cfln ar * (e_eps0 env * e_mu0 env) * 1 <= ar_cfln ar * ar_cfln ar * (e_eps0 env * e_mu0 env) * (er * mr))%R by (apply Rmult_le_compat_l; assumption). lra.
  Qed.
  Lemma gr_range r : r < 3 * kN K -> (0 <= kieps K r <= / e0)%R /\ (0 < kimu K r <= / m0)%R.
  Proof.
    intros Hr. destruct Hl as ((_ & _ & H0) & Hmu & _). destruct He as (_ & _ & _ & S1 & S2 & Pe & Pm & _).
    destruct (made_range env g g' ar s er mr Hm H0 Hmu Pe Pm S1 S2 Hp) as [A B].
    destruct (ix_surj _ _ _ _ Hr) as [d [i [j [k [Hd [Hi [Hj [Hk ->]]]]]]]]. destruct (SolverEnergy.made_sized env g g' ar s Hm) as (Sie & Si & _).
    change (kimu K) with (get (farr (simu s))). change (kieps K) with (get (farr (sieps s))).
    change (kNx K) with (gNx g) in *. change (kNy K) with (gNy g) in *. change (kNz K) with (gNz g) in *.
    rewrite <- (entry_ix (sieps s)) by exact Sie. rewrite <- (entry_ix (simu s)) by exact Si. split; [apply A|apply B]; assumption.
  Qed.
  Lemma gr_loss r : r < 3 * kN K -> (0 <= kdt K * (kieps K r * (if kcond K then ksig K r else 0)) <= 1)%R.
  Proof.
    intros Hr. destruct Hl as (Re & _). pose proof Re as (_ & _ & H0). destruct (C33_time_step _ _ _ _ _ Hm Re gr_passive Hp) as (Pd & _ & _ & B).
    pose proof gr_passive as (Q1 & Q2 & _). destruct (made_nonneg _ _ _ _ _ Hm H0 Q1 Q2 Hp) as [N1 N2].
    change (kdt K) with (sdt s). change (kcond K) with (scond s). destruct (scond s) eqn:Ec; [|split; lra].
    destruct (gr_range r Hr) as [[A _] _].
    destruct (ix_surj _ _ _ _ Hr) as [d [i [j [k [Hd [Hi [Hj [Hk ->]]]]]]]]. destruct (SolverEnergy.made_sized env g g' ar s Hm) as (Sie & _ & Ssg & _).
    change (kieps K) with (get (farr (sieps s))) in *. change (ksig K) with (get (farr (ssigma s))) in *.
    change (kNx K) with (gNx g) in *. change (kNy K) with (gNy g) in *. change (kNz K) with (gNz g) in *.
    specialize (N2 (ix (gNx g) (gNy g) (gNz g) d i j k)). specialize (B eq_refl d i j k ltac:(repeat split; assumption)).
    rewrite (entry_ix (ssigma s) (gNx g) (gNy g) (gNz g)) in B by exact Ssg. rewrite (entry_ix (sieps s) (gNx g) (gNy g) (gNz g)) in B by exact Sie.
    set (u := get (farr (sieps s)) _) in *. set (v := get (farr (ssigma s)) _) in *.
    split; [apply Rmult_le_pos; [lra|apply Rmult_le_pos; assumption]|].
    destruct (Rle_lt_or_eq_dec _ _ A) as [A'|A']; [|rewrite <- A'; lra]. destruct (Rle_lt_or_eq_dec _ _ N2) as [N'|N']; [|rewrite <- N'; lra].
    specialize (B N' A'). lra.
  Qed.

  Context (HJ : forall d i j k, in_box (gNx g) (gNy g) (gNz g) d i j k -> entry (sJ s) d i j k = 0%R).
  Context (HD : forall d i j k, in_box (gNx g) (gNy g) (gNz g) d i j k -> entry (sieps s) d i j k = 0%R ->
     entry (sE s) d i j k = 0%R \/ electric_wall (sbl s) (sbh s) (gNx g) (gNy g) (gNz g) d i j k).
  Context (Hcfl : (scond s = false /\ (ar_cfln ar < 1)%R) \/ (2 * (ar_cfln ar * ar_cfln ar) < 1)%R).

  Lemma gr_quiet r : r < 3 * kN K -> (kieps K r * kitA K r = 0)%R -> (kcol K r * te (abs s) r = 0)%R.
  Proof.
    intros Hr Z. destruct (ix_surj _ _ _ _ Hr) as [d [i [j [k [Hd [Hi [Hj [Hk ->]]]]]]]]. destruct (SolverEnergy.made_sized env g g' ar s Hm) as (Sie & _ & _ & _ & _ & _ & StA).
    pose proof (made_good env g g' ar s Hm) as G.
    change (kieps K) with (get (farr (sieps s))) in *. change (kitA K) with (get (farr (gitA g'))) in *. cbn [abs te].
    change (kNx K) with (gNx g) in *. change (kNy K) with (gNy g) in *. change (kNz K) with (gNz g) in *.
    rewrite <- (entry_ix (sieps s)) in Z by exact Sie. rewrite <- (entry_ix (gitA g')) in Z by exact StA.
    assert (Col : electric_wall (sbl s) (sbh s) (gNx g) (gNy g) (gNz g) d i j k -> (kcol K (ix (gNx g) (gNy g) (gNz g) d i j k) = 0)%R).
    { intros W. change (kcol K) with (on_ix (@colv R Num_R (sbl s) (sbh s) (gNx g) (gNy g) (gNz g)) (gNx g) (gNy g) (gNz g)).
      rewrite on_ix_ix by assumption. exact (colv_wall _ _ _ _ _ _ _ _ _ W). }
    apply Rmult_integral in Z. destruct Z as [Z|Z].
    - destruct (HD d i j k ltac:(repeat split; assumption) Z) as [Q|Q]; [|rewrite (Col Q); ring].
      rewrite <- (entry_ix (sE s)) by exact (gd_E _ _ G). rewrite Q. ring.
    - destruct gr_metric as (_ & D & Ax & X & Y & Z1). unfold dual_graded in D. rewrite X, Y, Z1 in D. destruct (D d i j k ltac:(repeat split; assumption)) as (_ & _ & _ & D4).
      assert (T1 : tr1 d < 3 /\ tr1 d <> d /\ tr2 d < 3 /\ tr2 d <> d) by (destruct d as [|[|[|d]]]; cbn; lia). destruct T1 as (T1 & T1' & T2 & T2').
      assert (Cd : forall c, c < 3 -> coord c i j k < dim c (gNx g) (gNy g) (gNz g)) by (intros [|[|[|c]]] Hc; cbn; lia).
      pose proof (Cd _ T1) as C1. pose proof (Cd _ T2) as C2.
      destruct (Nat.eq_dec (coord (tr1 d) i j k + 1) (dim (tr1 d) (gNx g) (gNy g) (gNz g))) as [E1|E1].
      { rewrite Col; [ring|]. apply (all_wall g s Hw d (tr1 d) i j k T1 T1'). right. lia. }
      destruct (Nat.eq_dec (coord (tr2 d) i j k + 1) (dim (tr2 d) (gNx g) (gNy g) (gNz g))) as [E2|E2].
      { rewrite Col; [ring|]. apply (all_wall g s Hw d (tr2 d) i j k T2 T2'). right. lia. }
      exfalso. rewrite D4, !Ax in Z by lia.
      assert (P : forall c, c < 3 -> coord c i j k + 1 <> dim c (gNx g) (gNy g) (gNz g) -> (0 < dual_at (axis g c) (coord c i j k))%R).
      { intros c Hc Q. apply dual_pos; [apply inc_axis|]. pose proof (axis_len g c Hc). specialize (Cd c Hc). lia. }
      pose proof (Rinv_0_lt_compat _ (Rmult_lt_0_compat _ _ (P _ T1 E1) (P _ T2 E2))). lra.
  Qed.

  Lemma gr_bounded : exists B, forall n r, r < 3 * kN K -> (Rabs (te (Nat.iter n (kstep K) (abs s)) r) <= B)%R /\ (Rabs (th (Nat.iter n (kstep K) (abs s)) r) <= B)%R.
  Proof.
    destruct (least_len (gx g) (proj1 gr_dims) (inc_axis 0)) as (hx & Ix & Px & Lx & Tx).
    destruct (least_len (gy g) (proj1 (proj2 gr_dims)) (inc_axis 1)) as (hy & Iy & Py & Ly & Ty).
    destruct (least_len (gz g) (proj2 (proj2 gr_dims)) (inc_axis 2)) as (hz & Iz & Pz & Lz & Tz).
    set (h := fun d => match d with 0 => hx | 1 => hy | _ => hz end).
    destruct gr_dims as (G1 & G2 & G3). destruct Hl as ((_ & _ & H0) & Hmu & _). pose proof He as (_ & _ & _ & S1 & S2 & Pe & Pm & _ & _ & Pc).
    destruct (SolverEnergy.made_sized env g g' ar s Hm) as (_ & _ & _ & SL & SA & StL & StA). destruct gr_metric as (Pr & Du & Ax & NX & NY & NZ).
    unfold dual_graded in Du. rewrite NX, NY, NZ in Du.
    assert (Cc : exists c ct, (0 < c < 1)%R /\ (0 < ct)%R /\ (ar_cfln ar * ar_cfln ar <= c * c * ct)%R /\
      forall r, r < 3 * kN K -> (ct <= 1 - (kdt K * (kieps K r * (if kcond K then ksig K r else 0))) / 2)%R).
    { destruct Hcfl as [[Ec Lc]|Lc].
      - exists (ar_cfln ar), 1%R. split; [lra|]. split; [lra|]. split; [lra|]. intros r Hr. change (kcond K) with (scond s). rewrite Ec. lra.
      - assert (Q : (0 < 2 * (ar_cfln ar * ar_cfln ar))%R) by (pose proof (Rmult_lt_0_compat _ _ Pc Pc); lra).
        exists (sqrt (2 * (ar_cfln ar * ar_cfln ar))), (1 / 2)%R. split; [split; [apply sqrt_lt_R0, Q|]|].
        { rewrite <- sqrt_1. apply sqrt_lt_1; lra. }
        split; [lra|]. split; [rewrite sqrt_sqrt by lra; lra|]. intros r Hr. pose proof (gr_loss r Hr). lra. }
    destruct Cc as (c & ct & P1 & P2 & P3 & P4).
    refine (bounded_run K l t h e0 m0 (ar_cfln ar) _ _ _ _ _ _ Pc _ _ _ _ _ _ _ _ _ (ev_row g g' s) (ev_col g g' s) _ _ gr_loss c ct P1 P2 P3 P4 (abs s) _ gr_quiet).
    - unfold kNx, kern_of, gNx. lia.
    - unfold kNy, kern_of, gNy. lia.
    - unfold kNz, kern_of, gNz. lia.
    - intros [|[|d]]; assumption.
    - apply Rmult_lt_0_compat; assumption.
    - apply Rmult_lt_0_compat; assumption.
    - intros d i Hd Hi. change (dim d (kNx K) (kNy K) (kNz K)) with (dim d (gNx g) (gNy g) (gNz g)) in Hi. rewrite axis_len in Hi by exact Hd.
      destruct d as [|[|[|d]]]; [apply Lx|apply Ly|apply Lz|]; cbn [axis] in Hi; lia.
    - intros d i Hd Hi. change (dim d (kNx K) (kNy K) (kNz K)) with (dim d (gNx g) (gNy g) (gNz g)) in Hi. rewrite axis_len in Hi by exact Hd.
      destruct d as [|[|[|d]]]; [apply Tx|apply Ty|apply Tz|]; cbn [axis] in Hi; lia.
    - intros d i Hd Hi. change (dim d (kNx K) (kNy K) (kNz K)) with (dim d (gNx g) (gNy g) (gNz g)) in Hi. rewrite axis_len in Hi by exact Hd.
      unfold dual_at. destruct (Nat.ltb_spec (i + 2) (List.length (axis g d))); [lia|reflexivity].
    - intros d i j k Hb. change (kL K) with (get (farr (gL g))). rewrite <- (entry_ix (gL g)) by exact SL. apply (Pr d i j k Hb).
    - intros d i j k Hb. change (ktL K) with (get (farr (gtL g'))). rewrite <- (entry_ix (gtL g')) by exact StL. destruct (Du d i j k Hb) as (D1 & D2 & _).
      rewrite Ax in D2. split; [exact D1|exact D2].
    - intros d i j k Hb. change (kiA K) with (get (farr (giA g))). rewrite <- (entry_ix (giA g)) by exact SA. apply (Pr d i j k Hb).
    - intros d i j k Hb. change (kitA K) with (get (farr (gitA g'))). rewrite <- (entry_ix (gitA g')) by exact StA. destruct (Du d i j k Hb) as (_ & _ & D3 & D4).
      rewrite !Ax in D4. split; [exact D3|exact D4].
    - intros r Hr. apply (gr_range r Hr).
    - intros r Hr. apply (gr_range r Hr).
    - intros c0 a i j k (Hc0 & Hi & Hj & Hk) Ha Hac Hen. change (kNx K) with (gNx g) in *. change (kNy K) with (gNy g) in *. change (kNz K) with (gNz g) in *.
      change (kcol K) with (on_ix (@colv R Num_R (sbl s) (sbh s) (gNx g) (gNy g) (gNz g)) (gNx g) (gNy g) (gNz g)).
      rewrite on_ix_ix by assumption.
      assert (W : electric_wall (sbl s) (sbh s) (gNx g) (gNy g) (gNz g) c0 i j k) by (apply (all_wall g s Hw c0 a i j k Ha Hac); unfold ends in Hen; lia).
      exact (colv_wall _ _ _ _ _ _ _ _ _ W).
    - apply gr_dt; assumption.
    - intros r Hr. destruct (ix_surj _ _ _ _ Hr) as [d [i [j [k [Hd [Hi [Hj [Hk ->]]]]]]]]. cbn [abs tj].
      rewrite <- (entry_ix (sJ s)) by exact (gd_J _ _ (made_good env g g' ar s Hm)). apply HJ. repeat split; assumption.
  Qed.
End Run.

(** C118.  Full claim: in a box of electric or absorbing walls, on any increasing nodes, with any
    solids, conductors and absorbing layers no faster than vacuum, the default time step with
    cfln < 1 keeps every entry of E and H below one bound for all time.  False for conductors, see
    [C118_conductor_refuted].  It holds without conductivity, and for any conductivity when
    2 cfln^2 < 1, which the default cfln = 0.5 meets.  Cells of infinite permittivity must start
    with no E (they keep it). *)
Theorem C118_bounded_partial : forall env g g' ar (s : Solver R) er mr,
  made env g g' ar s -> light_env env -> graded_setup g ar er mr -> (spml s = true -> layers_fit env g ar) ->
  (forall a, a < 3 -> electric (bc_at (sbl s) a) /\ electric (bc_at (sbh s) a)) ->
  (scond s = false /\ (ar_cfln ar < 1)%R) \/ (2 * (ar_cfln ar * ar_cfln ar) < 1)%R ->
  (forall d i j k, in_box (gNx g) (gNy g) (gNz g) d i j k -> entry (sJ s) d i j k = 0%R) ->
  (forall d i j k, in_box (gNx g) (gNy g) (gNz g) d i j k -> entry (sieps s) d i j k = 0%R ->
     entry (sE s) d i j k = 0%R \/ electric_wall (sbl s) (sbh s) (gNx g) (gNy g) (gNz g) d i j k) ->
  exists bound, forall n s', steps s n = Ok s' -> forall d i j k, in_box (gNx g) (gNy g) (gNz g) d i j k ->
    (Rabs (entry (sE s') d i j k) <= bound)%R /\ (Rabs (entry (sH s') d i j k) <= bound)%R.
Proof.
  intros env g g' ar s er mr Hm Hl He Hp Hw Hcfl HJ HD.
  destruct (gr_bounded env g g' ar s er mr Hm Hl He Hp Hw HJ HD Hcfl) as [B HB]. exists B. intros n s' Hs d i j k (Hd & Hi & Hj & Hk).
  destruct (steps_good _ s n (made_good env g g' ar s Hm)) as [t [E [_ [B1 _]]]]. rewrite Hs in E. injection E as <-.
  pose proof (proj1 (made_run env g g' ar _ s s' Hm Hs)) as Hm'. pose proof (made_good env g g' ar s' Hm') as G.
  rewrite (entry_ix (sE s') (gNx g) (gNy g) (gNz g)) by exact (gd_E _ _ G). rewrite (entry_ix (sH s') (gNx g) (gNy g) (gNz g)) by exact (gd_H _ _ G).
  pose proof (ix_lt (gNx g) (gNy g) (gNz g) d i j k Hd Hi Hj Hk) as Hlt.
  destruct (B1 _ Hlt) as (X & Y & _). cbn [abs te th] in X, Y. change (@te R (abs s')) with (get (farr (sE s'))) in X. rewrite X, Y. apply HB. exact Hlt.
Qed.
Print Assumptions C118_bounded_partial.

(** ** A conductor and a time step between 1/sqrt 2 and 1 of the vacuum limit *)
Definition axh (n : nat) (h : R) : list R := tab (S n) (fun i => (INR i * h)%R).
Lemma axh_even n h : (0 < h)%R -> evenly (axh n h) h.
Proof.
  intros P. split; [exact P|]. intros i Hi. unfold axh in *. rewrite tab_length in Hi. rewrite !get_tab by lia. rewrite plus_INR. cbn [INR]. lra.
Qed.
Lemma evenly_all x h v : evenly x h -> In v (diff x) -> v = h.
Proof. intros [_ H] Hv. destruct (diff_len x v Hv) as (i & Hi & ->). apply H, Hi. Qed.
Definition conductorR : material R := MList (Fin 1%R) (Fin 1%R) (Some 10%R).
Definition hotR : Args R :=
  {| ar_bl := bcs "pec"; ar_bh := bcs "pec"; ar_bg := conductorR; ar_solids := []; ar_npml := 1; ar_cfln := (9 / 10)%R; ar_dt := None; ar_mpi := None |}.
Definition pairR : list R := tab 36 (fun m => if m =? 29 then 1%R else if m =? 30 then (-1)%R else 0%R).
Definition zeroR : list R := tab 36 (fun _ => 0%R).

Lemma hot_made : exists g g' s, made envR g g' hotR s /\ gNx g = 4 /\ gNy g = 3 /\ gNz g = 1 /\
  evenly (gx g) (/ 8) /\ evenly (gy g) (/ 4) /\ evenly (gz g) 1 /\ sbl s = bcs "pec" /\ sbh s = bcs "pec" /\ sstep0 s = false /\
  scond s = true /\ spml s = false /\ sdt s = (/ 10)%R /\
  (forall d i j k, in_box 4 3 1 d i j k -> entry (sieps s) d i j k = 1%R /\ entry (simu s) d i j k = 1%R /\ entry (ssigma s) d i j k = 10%R) /\
  (forall d i j k, in_box 4 3 1 d i j k -> entry (sJ s) d i j k = 0%R /\ entry (sH s) d i j k = 0%R /\ entry (sE s) d i j k = get pairR (ix 4 3 1 d i j k)).
Proof.
  destruct (compute_grid_spec (axh 4 (/ 8)) (axh 3 (/ 4)) (axh 1 1)) as (g & Hc & Ex & Ey & Ez & _); [unfold axh; rewrite tab_length; lia..|].
  assert (Nx : gNx g = 4) by (unfold gNx; rewrite Ex; unfold axh; rewrite tab_length; reflexivity).
  assert (Ny : gNy g = 3) by (unfold gNy; rewrite Ey; unfold axh; rewrite tab_length; reflexivity).
  assert (Nz : gNz g = 1) by (unfold gNz; rewrite Ez; unfold axh; rewrite tab_length; reflexivity).
  assert (Hg : grid_obj envR g) by exact (go_axes envR _ _ _ _ Hc).
  destruct (construct_conductive envR g hotR {| me_eps := Fin 1%R; me_mu := Fin 1%R; me_sigma := Some 10%R |} (bcs "pec") (bcs "pec") Hg eq_refl) as (s & g' & Hk).
  { intros so []. }
  { reflexivity. }
  { discriminate. }
  { right. exists 0, 0, 0, conductorR, {| me_eps := Fin 1%R; me_mu := Fin 1%R; me_sigma := Some 10%R |}, 10%R, 1%R. rewrite Nx, Ny, Nz. do 3 (split; [lia|]).
    split. { intros f Hf [Q _]. cbn in Hf. repeat (destruct Hf as [<- | Hf]; [discriminate Q|]). destruct Hf. }
    split; [right; split; [intros t []|reflexivity]|]. split; [reflexivity|]. split; [reflexivity|]. split; [cbn; lra|]. split; [reflexivity|]. cbn. lra. }
  assert (Hm : made envR g g' hotR s) by (constructor; assumption).
  set (ops := [OStep; OWriteE pairR; OWriteH zeroR; OWriteJ zeroR]).
  assert (Hr : exists t, run s ops = Ok t /\ made envR g g' hotR t).
  { apply (run_total envR g g' hotR s ops Hm). rewrite Nx, Ny, Nz. repeat constructor; unfold pairR, zeroR; apply tab_length. }
  destruct Hr as (t & Hr & Ht). exists g, g', t. split; [exact Ht|]. do 3 (split; [assumption|]).
  rewrite Ex, Ey, Ez. assert (Ux := axh_even 4 (/ 8) ltac:(lra)). assert (Uy := axh_even 3 (/ 4) ltac:(lra)). assert (Uz := axh_even 1 1 ltac:(lra)).
  do 3 (split; [assumption|]).
  destruct (made_walls _ _ _ _ _ Ht) as [W Wp]. injection W as W1 W2. split; [exact W1|]. split; [exact W2|].
  destruct (made_run_abs _ _ _ _ _ _ _ Hm Hr) as (G & Gt & _ & [B Bf]).
  split; [exact Bf|].
  assert (Sp : spml t = false) by (rewrite Wp, W1, W2; reflexivity).
  destruct (made_values _ _ _ _ _ Ht) as (M & bo & _ & HM & _ & Emu & Eco & Epm & _ & Eie). destruct (Eie Sp) as [Ei Es].
  assert (Mats : scond t = true /\ forall d i j k, in_box 4 3 1 d i j k -> entry (sieps t) d i j k = 1%R /\ entry (simu t) d i j k = 1%R /\ entry (ssigma t) d i j k = 10%R).
  { unfold build_materials in HM. cbn [hotR ar_bg conductorR find_material bind ar_solids me_eps me_mu me_sigma] in HM.
    binv HM ie Q1. binv HM im Q2. binv HM sgm Q3. cbn [seq_upd] in HM. injection HM as <-. cbn [mt_ieps mt_imu mt_sigma mt_cond] in *.
    split; [exact Eco|]. rewrite Nx, Ny, Nz in Q1, Q2, Q3. intros d i j k (Hd & Hi & Hj & Hkk). rewrite Ei, Emu, Es.
    destruct (uniform_field_spec 4 3 1 (over_ext (@none_ R _) (Fin 1%R) (e_eps0 envR))) as (F1 & EF1 & _ & V1). rewrite Q1 in EF1. injection EF1 as <-.
    destruct (uniform_field_spec 4 3 1 (over_ext (@none_ R _) (Fin 1%R) (e_mu0 envR))) as (F2 & EF2 & _ & V2). rewrite Q2 in EF2. injection EF2 as <-.
    destruct (uniform_field_spec 4 3 1 10%R) as (F3 & EF3 & _ & V3). rewrite Q3 in EF3. injection EF3 as <-.
    rewrite V1, V2, V3 by assumption. cbn. repeat split; lra. }
  destruct Mats as [Mc Mv]. split; [exact Mc|]. split; [exact Sp|].
  split.
  { destruct (made_conf _ _ _ _ _ Ht) as (s0 & Hg0 & Hk0 & B1 & _ & B3 & B4 & B5 & _).
    destruct (construct_spec envR g hotR s0 g' (grid_obj_ok _ _ Hg0) Hk0) as (bo0 & M0 & _ & _ & _ & _ & _ & [dt0 [Hd0 Hd]] & _ & _ & _ & _ & _ & _ & _ & _ & _ & C1 & _ & _ & Sie & _ & Ssg & _).
    cbn [ar_dt hotR] in Hd0. rewrite <- C1, <- B5, Mc in Hd. rewrite B4.
    assert (E0 : dt0 = (/ 10)%R).
    { unfold cfl_dt in Hd0. binv Hd0 mx H1. binv Hd0 my H2. binv Hd0 mz H3. injection Hd0 as <-.
      rewrite Ex in H1. rewrite Ey in H2. rewrite Ez in H3.
      rewrite (evenly_all _ _ _ Ux (proj1 (np_min_R _ _ H1))), (evenly_all _ _ _ Uy (proj1 (np_min_R _ _ H2))), (evenly_all _ _ _ Uz (proj1 (np_min_R _ _ H3))).
      cbn [e_c e_sqrt envR ar_cfln hotR]. unfold inv_sq. cbn [ndiv nmul nadd none_ Num_R].
      replace (1 / (/ 8 * / 8) + 1 / (/ 4 * / 4) + 1 / (1 * 1))%R with (9 * 9)%R by field. rewrite sqrt_square by lra. field. }
    unfold relax_dt in Hd. binv Hd tau Htau. injection Hd as Hd. rewrite <- Hd. destruct (np_min_R _ _ Htau) as [Ht1 _].
    assert (E1 : tau = (/ 10)%R).
    { unfold taus, toarray in Ht1. apply in_flat_map in Ht1. destruct Ht1 as (n & Hn & Ht1). apply in_seq in Hn. cbn zeta in Ht1.
      rewrite <- B1, <- B3 in *. pose proof Ssg as (Wf & X & Y & Z). unfold wf in Wf. rewrite Wf in Hn. unfold fN in Hn. rewrite X, Y, Z, Nx, Ny, Nz in Hn.
      assert (Hn' : n < 3 * (4 * 3 * 1)) by lia. destruct (ix_surj 4 3 1 n Hn') as [d [i [j [k [Hdd [Hi [Hj [Hkk ->]]]]]]]].
      rewrite Nx, Ny, Nz in Sie, Ssg.
      rewrite <- (entry_ix (sieps t) 4 3 1), <- (entry_ix (ssigma t) 4 3 1) in Ht1 by assumption.
      destruct (Mv d i j k ltac:(repeat split; assumption)) as (V1 & _ & V3). rewrite V1, V3 in Ht1.
      destruct (negb _ && negb _)%bool; [|destruct Ht1]. destruct Ht1 as [<- | []]. cbn [ndiv none_ Num_R]. field. }
    rewrite E0, E1. destruct (Rlt_dec (/ 10) (/ 10)); reflexivity. }
  split; [exact Mv|].
  intros d i j k (Hd & Hi & Hj & Hk2).
  pose proof (ix_lt 4 3 1 d i j k Hd Hi Hj Hk2) as Hlt.
  assert (Hlt' : ix 4 3 1 d i j k < 3 * kN (kern_of g g' s)) by (change (kN (kern_of g g' s)) with (gNx g * gNy g * gNz g); rewrite Nx, Ny, Nz; exact Hlt).
  destruct (B _ Hlt') as (B1 & B2 & B3). unfold ops in B1, B2, B3. cbn [krun fold_left kop abs te th tj] in B1, B2, B3.
  pose proof (gd_E _ _ Gt) as SE. pose proof (gd_H _ _ Gt) as SH. pose proof (gd_J _ _ Gt) as SJ. cbn [kNx kNy kNz kern_of] in SE, SH, SJ. rewrite Nx, Ny, Nz in SE, SH, SJ.
  rewrite (entry_ix (sJ t) 4 3 1) by exact SJ. rewrite (entry_ix (sH t) 4 3 1) by exact SH. rewrite (entry_ix (sE t) 4 3 1) by exact SE.
  rewrite B1, B2, B3. unfold fill. change (kN (kern_of g g' s)) with (gNx g * gNy g * gNz g). rewrite Nx, Ny, Nz. unfold zeroR, pairR. rewrite !tab_length. cbn [Nat.eqb Nat.mul Nat.add].
  rewrite !get_tab by exact Hlt. auto.
Qed.

(** Cells 1/8 x 1/4 x 1 filled with a conductor of eps = 1, sigma = 10, cfln = 0.9: the default time
    step is 1/10, and E_z = 1, -1 on the two inner edges is multiplied by -1.24 in every step. *)
Theorem C118_conductor_refuted : exists env g g' ar s er mr,
  made env g g' ar s /\ light_env env /\ graded_setup g ar er mr /\ spml s = false /\
  (forall a, a < 3 -> electric (bc_at (sbl s) a) /\ electric (bc_at (sbh s) a)) /\ (ar_cfln ar < 1)%R /\
  (forall d i j k, in_box (gNx g) (gNy g) (gNz g) d i j k -> entry (sJ s) d i j k = 0%R /\ entry (sieps s) d i j k <> 0%R) /\
  forall bound, exists n s', steps s n = Ok s' /\ (bound < Rabs (entry (sE s') 2 1 1 0))%R.
Proof.
  destruct hot_made as (g & g' & s & Hm & Nx & Ny & Nz & Ux & Uy & Uz & Wl & Wh & Hf & Hco & Hp & Hdt & Mv & F).
  exists envR, g, g', hotR, s, 1%R, 1%R. split; [exact Hm|]. split; [exact lightR|].
  assert (Sl : slow 1 1 conductorR) by (intros e Ee; injection Ee as <-; cbn; lra).
  split. { split; [eapply evenly_inc; exact Ux|]. split; [eapply evenly_inc; exact Uy|]. split; [eapply evenly_inc; exact Uz|]. split; [exact Sl|].
    split; [intros so []|]. cbn [ar_dt ar_cfln hotR]. repeat split; lra. }
  split; [exact Hp|]. split. { rewrite Wl, Wh. intros [|[|[|a]]] Ha; [..|lia]; split; unfold electric; cbn; auto. }
  split; [cbn; lra|]. split. { rewrite Nx, Ny, Nz. intros d i j k Hb. destruct (F d i j k Hb) as (A & _). destruct (Mv d i j k Hb) as (B & _). split; [exact A|rewrite B; lra]. }
  destruct (made_conf _ _ _ _ _ Hm) as (s0 & Hg & Hk & _). pose proof (grid_obj_ok _ _ Hg) as Gk.
  destruct (grid_even envR g (/ 8) (/ 4) 1 Hg Ux Uy Uz) as [P D]. destruct (used_even envR g hotR s0 g' (/ 8) (/ 4) 1 Gk Hk P D) as (X1 & Y1 & Z1 & _ & D').
  assert (Nx' : gNx g' = 4) by (unfold gNx in *; rewrite X1; exact Nx). assert (Ny' : gNy g' = 3) by (unfold gNy in *; rewrite Y1; exact Ny).
  assert (Nz' : gNz g' = 1) by (unfold gNz in *; rewrite Z1; exact Nz).
  unfold prim_even in P. unfold dual_even in D'. rewrite Nx, Ny, Nz in P. rewrite Nx', Ny', Nz' in D'. clear D X1 Y1 Z1 Nx' Ny' Nz'.
  pose proof (made_good _ _ _ _ _ Hm) as G. destruct (SolverEnergy.made_sized _ _ _ _ _ Hm) as (Sie & Smu & Ssg & SL & SA & StL & StA).
  rewrite Nx, Ny, Nz in Sie, Smu, Ssg, SL, SA, StL, StA.
  set (K := kern_of g g' s) in *. set (b := fun n => Nat.iter n (kstep K) (abs s)).
  assert (KX : kNx K = 4) by exact Nx. assert (KY : kNy K = 3) by exact Ny. assert (KZ : kNz K = 1) by exact Nz.
  assert (KN : kN K = 12) by (unfold kN; rewrite KX, KY, KZ; reflexivity).
  assert (Bx : forall d i j, d < 3 -> i < 4 -> j < 3 -> in_box 4 3 1 d i j 0) by (intros; repeat split; lia).
  (* masks, metric and materials at the entries used *)
  assert (Col : forall d i j, i < 4 -> j < 3 -> kcol K (ix 4 3 1 d i j 0) = colv (bcs "pec") (bcs "pec") 4 3 1 d i j 0).
  { intros d i j Hi Hj. unfold K, kern_of. cbn [kcol]. rewrite Nx, Ny, Nz, Wl, Wh. apply on_ix_ix; [assumption..|lia]. }
  assert (Row : forall r, krow K r = 1%R) by (intros r; unfold K, kern_of; cbn [krow]; rewrite Nx, Ny, Nz, Wl, Wh; reflexivity).
  assert (KL : forall i j, i < 4 -> j < 3 -> kL K (ix 4 3 1 2 i j 0) = 1%R).
  { intros i j Hi Hj. transitivity (entry (gL g) 2 i j 0); [symmetry; apply (entry_ix (gL g)); exact SL|]. apply (P 2 i j 0). apply Bx; lia. }
  assert (KA : forall d i j, d < 2 -> i < 4 -> j < 3 -> (kiA K (ix 4 3 1 d i j 0) * kimu K (ix 4 3 1 d i j 0) = match d with 0 => 4 | _ => 8 end)%R).
  { intros d i j Hd Hi Hj. transitivity (entry (giA g) d i j 0 * entry (simu s) d i j 0)%R; [f_equal; symmetry; apply entry_ix; assumption|].
    destruct (P d i j 0 ltac:(apply Bx; lia)) as [_ ->]. destruct (Mv d i j 0 ltac:(apply Bx; lia)) as (_ & -> & _). destruct d as [|[|d]]; [..|lia]; cbn; field. }
  assert (Ke : forall i j, i < 4 -> j < 3 -> kieps K (ix 4 3 1 2 i j 0) = 1%R /\ ksig K (ix 4 3 1 2 i j 0) = 10%R).
  { intros i j Hi Hj. destruct (Mv 2 i j 0 ltac:(apply Bx; lia)) as (A & _ & B). rewrite (entry_ix (sieps s) 4 3 1) in A by exact Sie. rewrite (entry_ix (ssigma s) 4 3 1) in B by exact Ssg. auto. }
  assert (KT : forall d i j, d < 2 -> i < 4 -> j < 3 -> match d with 0 => i < 3 | _ => j < 2 end -> ktL K (ix 4 3 1 d i j 0) = match d with 0 => (/ 8)%R | _ => (/ 4)%R end).
  { intros d i j Hd Hi Hj Hin. transitivity (entry (gtL g') d i j 0); [symmetry; apply (entry_ix (gtL g')); exact StL|].
    destruct (D' d i j 0 ltac:(apply Bx; lia)) as [[A|[_ A]] _]; [rewrite A; destruct d as [|[|d]]; [reflexivity..|lia]|]. destruct d as [|[|d]]; [..|lia]; cbn [coord dim] in A; lia. }
  assert (KtA : forall i, i < 3 -> kitA K (ix 4 3 1 2 i 1 0) = 32%R).
  { intros i Hi. transitivity (entry (gitA g') 2 i 1 0); [symmetry; apply (entry_ix (gitA g')); exact StA|].
    destruct (D' 2 i 1 0 ltac:(apply Bx; lia)) as [_ [A|[_ (a & Ha & Ha2 & A)]]]; [rewrite A; cbn; field|]. destruct a as [|[|[|a]]]; [..|lia|lia]; cbn [coord dim] in A; lia. }
  assert (Zx : forall m, m < 24 -> kcol K m = 0%R).
  { intros m Hm0. destruct (ix_surj 4 3 1 m ltac:(lia)) as [d [i [j [k [Hd [Hi [Hj [Hk3 ->]]]]]]]]. assert (k = 0) by lia. subst k. rewrite Col by assumption.
    assert (d < 2) by (destruct d as [|[|d]]; [lia|lia|]; unfold ix in Hm0; lia).
    destruct d as [|[|d]]; [..|lia]; destruct i as [|[|[|[|i]]]]; try lia; destruct j as [|[|[|j]]]; try lia; reflexivity. }
  assert (C29 : kcol K 29 = 1%R) by exact (Col 2 1 1 ltac:(lia) ltac:(lia)). assert (C30 : kcol K 30 = 1%R) by exact (Col 2 2 1 ltac:(lia) ltac:(lia)).
  assert (C25 : kcol K 25 = 0%R) by exact (Col 2 1 0 ltac:(lia) ltac:(lia)). assert (C26 : kcol K 26 = 0%R) by exact (Col 2 2 0 ltac:(lia) ltac:(lia)).
  assert (C33 : kcol K 33 = 0%R) by exact (Col 2 1 2 ltac:(lia) ltac:(lia)). assert (C34 : kcol K 34 = 0%R) by exact (Col 2 2 2 ltac:(lia) ltac:(lia)).
  assert (C28 : kcol K 28 = 0%R) by exact (Col 2 0 1 ltac:(lia) ltac:(lia)). assert (C31 : kcol K 31 = 0%R) by exact (Col 2 3 1 ltac:(lia) ltac:(lia)).
  assert (L29 : kL K 29 = 1%R) by exact (KL 1 1 ltac:(lia) ltac:(lia)). assert (L30 : kL K 30 = 1%R) by exact (KL 2 1 ltac:(lia) ltac:(lia)).
  assert (Cu : forall e, kcurl K e 1 = e 29 /\ kcurl K e 2 = e 30 /\ kcurl K e 5 = (- e 29%nat)%R /\ kcurl K e 6 = (- e 30%nat)%R /\
     kcurl K e 16 = (- e 29%nat)%R /\ kcurl K e 17 = (e 29%nat - e 30%nat)%R /\ kcurl K e 18 = e 30).
  { intros e. unfold kcurl. rewrite KN, KX, KY. unfold curl_at, Sh, ext, comp.
    change (1 / 12) with 0. change (1 mod 12) with 1. change (2 / 12) with 0. change (2 mod 12) with 2. change (5 / 12) with 0. change (5 mod 12) with 5. change (6 / 12) with 0. change (6 mod 12) with 6.
    change (16 / 12) with 1. change (16 mod 12) with 4. change (17 / 12) with 1. change (17 mod 12) with 5. change (18 / 12) with 1. change (18 mod 12) with 6.
    cbn [Nat.mul Nat.add Nat.ltb Nat.leb nsub nmul nzero Num_R]. rewrite C29, C30, C25, C26, C33, C34, C28, C31, L29, L30, !Zx by lia. repeat split; ring. }
  assert (T1 : ktL K 1 = (/ 8)%R) by exact (KT 0 1 0 ltac:(lia) ltac:(lia) ltac:(lia) ltac:(cbn; lia)). assert (T2 : ktL K 2 = (/ 8)%R) by exact (KT 0 2 0 ltac:(lia) ltac:(lia) ltac:(lia) ltac:(cbn; lia)).
  assert (T5 : ktL K 5 = (/ 8)%R) by exact (KT 0 1 1 ltac:(lia) ltac:(lia) ltac:(lia) ltac:(cbn; lia)). assert (T6 : ktL K 6 = (/ 8)%R) by exact (KT 0 2 1 ltac:(lia) ltac:(lia) ltac:(lia) ltac:(cbn; lia)).
  assert (T16 : ktL K 16 = (/ 4)%R) by exact (KT 1 0 1 ltac:(lia) ltac:(lia) ltac:(lia) ltac:(cbn; lia)). assert (T17 : ktL K 17 = (/ 4)%R) by exact (KT 1 1 1 ltac:(lia) ltac:(lia) ltac:(lia) ltac:(cbn; lia)).
  assert (T18 : ktL K 18 = (/ 4)%R) by exact (KT 1 2 1 ltac:(lia) ltac:(lia) ltac:(lia) ltac:(cbn; lia)).
  assert (CuT : forall h, kcurlT K h 29 = ((h 17%nat - h 16%nat) * / 4 - (h 5%nat - h 1%nat) * / 8)%R /\ kcurlT K h 30 = ((h 18%nat - h 17%nat) * / 4 - (h 6%nat - h 2%nat) * / 8)%R).
  { intros h. unfold kcurlT. rewrite KN, KX, KY. unfold curlT_at, ShT, comp. change (29 / 12) with 2. change (29 mod 12) with 5. change (30 / 12) with 2. change (30 mod 12) with 6.
    cbn [Nat.mul Nat.add Nat.sub Nat.ltb Nat.leb nsub nmul nzero Num_R]. rewrite !Row, T1, T2, T5, T6, T16, T17, T18. split; ring. }
  assert (Ef : forall a, tfresh a = false -> effE K a = te a /\ effH K a = th a) by (intros a Ha; unfold effE, effH; rewrite Ha; auto).
  (* one step of the pair *)
  set (like := fun (a : St R) (x y : R) => tfresh a = false /\ te a 29%nat = x /\ te a 30%nat = (- x)%R /\
    th a 1%nat = (- (4 / 10) * y)%R /\ th a 5%nat = (4 / 10 * y)%R /\ th a 2%nat = (4 / 10 * y)%R /\ th a 6%nat = (- (4 / 10) * y)%R /\
    th a 16%nat = (8 / 10 * y)%R /\ th a 17%nat = (- (16 / 10) * y)%R /\ th a 18%nat = (8 / 10 * y)%R).
  assert (Step : forall a x y z, like a x y -> tj a 29%nat = z -> tj a 30%nat = (- z)%R ->
     like (kstep K a) (x - (56 / 25) * (y + x) - / 10 * z)%R (y + x)%R /\
     tj (kstep K a) 29%nat = (10 * (x - (56 / 25) * (y + x) - / 10 * z))%R /\ tj (kstep K a) 30%nat = (- (10 * (x - (56 / 25) * (y + x) - / 10 * z)))%R).
  { intros a x y z (Q0 & Q1 & Q2 & Q3 & Q4 & Q5 & Q6 & Q7 & Q8 & Q9) Z1 Z2. destruct (Ef a Q0) as [E1 E2].
    assert (HH : forall r, th (kstep K a) r = (th a r - / 10 * (kiA K r * kimu K r * kcurl K (te a) r))%R).
    { intros r. cbn [kstep th]. rewrite E1, E2. unfold kH. rewrite Row. change (kdt K) with (sdt s). rewrite Hdt. cbn [nsub nmul Num_R]. ring. }
    destruct (Cu (te a)) as (U1 & U2 & U5 & U6 & U16 & U17 & U18).
    assert (V1 : (kiA K 1 * kimu K 1 = 4)%R) by exact (KA 0 1 0 ltac:(lia) ltac:(lia) ltac:(lia)). assert (V2 : (kiA K 2 * kimu K 2 = 4)%R) by exact (KA 0 2 0 ltac:(lia) ltac:(lia) ltac:(lia)).
    assert (V5 : (kiA K 5 * kimu K 5 = 4)%R) by exact (KA 0 1 1 ltac:(lia) ltac:(lia) ltac:(lia)). assert (V6 : (kiA K 6 * kimu K 6 = 4)%R) by exact (KA 0 2 1 ltac:(lia) ltac:(lia) ltac:(lia)).
    assert (V16 : (kiA K 16 * kimu K 16 = 8)%R) by exact (KA 1 0 1 ltac:(lia) ltac:(lia) ltac:(lia)). assert (V17 : (kiA K 17 * kimu K 17 = 8)%R) by exact (KA 1 1 1 ltac:(lia) ltac:(lia) ltac:(lia)).
    assert (V18 : (kiA K 18 * kimu K 18 = 8)%R) by exact (KA 1 2 1 ltac:(lia) ltac:(lia) ltac:(lia)).
    assert (H1 : th (kstep K a) 1%nat = (- (4 / 10) * (y + x))%R) by (rewrite HH, U1, V1, Q1, Q3; lra).
    assert (H5 : th (kstep K a) 5%nat = (4 / 10 * (y + x))%R) by (rewrite HH, U5, V5, Q1, Q4; lra).
    assert (H2 : th (kstep K a) 2%nat = (4 / 10 * (y + x))%R) by (rewrite HH, U2, V2, Q2, Q5; lra).
    assert (H6 : th (kstep K a) 6%nat = (- (4 / 10) * (y + x))%R) by (rewrite HH, U6, V6, Q2, Q6; lra).
    assert (H16 : th (kstep K a) 16%nat = (8 / 10 * (y + x))%R) by (rewrite HH, U16, V16, Q1, Q7; lra).
    assert (H17 : th (kstep K a) 17%nat = (- (16 / 10) * (y + x))%R) by (rewrite HH, U17, V17, Q1, Q2, Q8; lra).
    assert (H18 : th (kstep K a) 18%nat = (8 / 10 * (y + x))%R) by (rewrite HH, U18, V18, Q2, Q9; lra).
    assert (EE : forall r, te (kstep K a) r = (te a r + / 10 * (kieps K r * kitA K r * kcol K r * kcurlT K (th (kstep K a)) r - kieps K r * tj a r))%R).
    { intros r. cbn [kstep te th]. rewrite E1. unfold kE. change (kdt K) with (sdt s). rewrite Hdt. reflexivity. }
    destruct (CuT (th (kstep K a))) as [W29 W30].
    destruct (Ke 1 1 ltac:(lia) ltac:(lia)) as [P29 G29]. destruct (Ke 2 1 ltac:(lia) ltac:(lia)) as [P30 G30].
    change (ix 4 3 1 2 1 1 0) with 29 in P29, G29. change (ix 4 3 1 2 2 1 0) with 30 in P30, G30.
    assert (A29 : kitA K 29 = 32%R) by exact (KtA 1 ltac:(lia)). assert (A30 : kitA K 30 = 32%R) by exact (KtA 2 ltac:(lia)).
    assert (E29 : te (kstep K a) 29%nat = (x - (56 / 25) * (y + x) - / 10 * z)%R) by (rewrite EE, W29, P29, A29, C29, Q1, Z1, H17, H16, H5, H1; lra).
    assert (E30 : te (kstep K a) 30%nat = (- (x - (56 / 25) * (y + x) - / 10 * z))%R) by (rewrite EE, W30, P30, A30, C30, Q2, Z2, H17, H18, H6, H2; lra).
    assert (JJ : forall r, tj (kstep K a) r = (ksig K r * te (kstep K a) r)%R).
    { intros r. cbn [kstep tj te]. unfold kJ. change (kcond K) with (scond s). rewrite Hco. reflexivity. }
    split; [|rewrite !JJ, E29, E30, G29, G30; split; ring].
    unfold like. repeat (split; [first [assumption|reflexivity]|]). assumption. }
  assert (Start : like (b 0) 1%R 0%R /\ tj (b 0) 29%nat = 0%R /\ tj (b 0) 30%nat = 0%R).
  { pose proof (gd_E _ _ G) as SE. pose proof (gd_H _ _ G) as SH. pose proof (gd_J _ _ G) as SJ. rewrite KX, KY, KZ in SE, SH, SJ.
    assert (V : forall r, r < 36 -> tj (b 0) r = 0%R /\ th (b 0) r = 0%R /\ te (b 0) r = get pairR r).
    { intros r Hr. destruct (ix_surj 4 3 1 r Hr) as [d [i [j [k [Hd [Hi [Hj [Hk3 ->]]]]]]]]. unfold b. cbn [Nat.iter nat_rect abs te th tj].
      rewrite <- (entry_ix (sJ s) 4 3 1) by exact SJ. rewrite <- (entry_ix (sH s) 4 3 1) by exact SH. rewrite <- (entry_ix (sE s) 4 3 1) by exact SE. apply F. repeat split; assumption. }
    split; [|split; [apply V; lia|apply V; lia]]. unfold like. split; [exact Hf|].
    split; [destruct (V 29 ltac:(lia)) as (_ & _ & ->); unfold pairR; rewrite get_tab by lia; reflexivity|].
    split; [destruct (V 30 ltac:(lia)) as (_ & _ & ->); unfold pairR; rewrite get_tab by lia; cbn [Nat.eqb]; lra|].
    repeat split; match goal with |- th (b 0) ?r = _ => destruct (V r ltac:(lia)) as (_ & -> & _) end; ring. }
  assert (Inv : forall n, like (b (S (S n))) (56 / 25 * (6 / 25) * (- (31 / 25)) ^ n)%R (- (6 / 25) * (- (31 / 25)) ^ n)%R /\
     tj (b (S (S n))) 29%nat = (10 * (56 / 25 * (6 / 25) * (- (31 / 25)) ^ n))%R /\ tj (b (S (S n))) 30%nat = (- (10 * (56 / 25 * (6 / 25) * (- (31 / 25)) ^ n)))%R).
  { induction n as [|n (I1 & I2 & I3)].
    - destruct Start as (S0 & J1 & J2). destruct (Step (b 0) 1%R 0%R 0%R S0 J1 ltac:(rewrite J2; ring)) as (S1 & J3 & J4).
      destruct (Step (b 1) _ _ _ S1 J3 J4) as (S2 & J5 & J6).
      match type of S2 with like _ ?x ?y => assert (Ex : x = (56 / 25 * (6 / 25) * (- (31 / 25)) ^ 0)%R) by (cbn [pow]; lra); assert (Ey : y = (- (6 / 25) * (- (31 / 25)) ^ 0)%R) by (cbn [pow]; lra) end.
      rewrite Ex, Ey in S2. rewrite Ex in J5, J6. auto.
    - destruct (Step (b (S (S n))) _ _ _ I1 I2 I3) as (S2 & J5 & J6).
      match type of S2 with like _ ?x ?y => assert (Ex : x = (56 / 25 * (6 / 25) * (- (31 / 25)) ^ (S n))%R) by (cbn [pow]; field); assert (Ey : y = (- (6 / 25) * (- (31 / 25)) ^ (S n))%R) by (cbn [pow]; field) end.
      rewrite Ex, Ey in S2. rewrite Ex in J5, J6. auto. }
  intros bound. destruct (Pow_x_infinity (- (31 / 25))%R ltac:(rewrite Rabs_Ropp, Rabs_pos_eq; lra) ((Rabs bound + 1) / (56 / 25 * (6 / 25)))%R) as [n Hn].
  specialize (Hn n ltac:(lia)).
  destruct (steps_good _ s (S (S n)) G) as (s' & Es & G' & [B _]). fold K in B, G'. exists (S (S n)), s'. split; [exact Es|].
  pose proof (gd_E _ _ G') as SE. rewrite KX, KY, KZ in SE. rewrite (entry_ix (sE s') 4 3 1) by exact SE.
  destruct (B (ix 4 3 1 2 1 1 0)) as (B1 & _); [rewrite KN; vm_compute; lia|]. change (te (abs s') (ix 4 3 1 2 1 1 0)) with (get (farr (sE s')) (ix 4 3 1 2 1 1 0)) in B1. rewrite B1.
  fold (b (S (S n))). destruct (Inv n) as ((_ & I1 & _) & _). change (ix 4 3 1 2 1 1 0) with 29. rewrite I1.
  rewrite Rabs_mult, (Rabs_pos_eq (56 / 25 * (6 / 25))) by lra.
  set (c := (56 / 25 * (6 / 25))%R) in *. assert (Pc : (0 < c)%R) by (unfold c; lra).
  apply Rge_le, (Rmult_le_compat_l c) in Hn; [|lra]. replace (c * ((Rabs bound + 1) / c))%R with (Rabs bound + 1)%R in Hn by (field; lra).
  pose proof (Rle_abs bound). lra.
Qed.
Print Assumptions C118_conductor_refuted.

(** ** Case: nodes at 0, 1, 4, 9, 16, a conducting background, a perfectly conducting cell, absorbing
    layers at both z ends and the default cfln, with a magnetic field to start from. *)
Definition sqR : list R := tab 5 (fun i => (INR i * INR i)%R).
Definition zpml : bc3 := {| bcx := "pec"; bcy := "electric"; bcz := "pml" |}.
Definition gradedR : Args R :=
  {| ar_bl := zpml; ar_bh := zpml; ar_bg := conductorR; ar_solids := [{| so_key := "block"; so_mask := tab 64 (fun m => m =? 21); so_mat := MName "pec" |}];
     ar_npml := 1; ar_cfln := (1 / 2)%R; ar_dt := None; ar_mpi := None |}.
Definition oneR : list R := tab 192 (fun m => if m =? 21 then 1%R else 0%R).
Example C118_case : exists g g' ar s, made envR g g' ar s /\ light_env envR /\ graded_setup g ar 1 1 /\ spml s = true /\ layers_fit envR g ar /\
  (forall a, a < 3 -> electric (bc_at (sbl s) a) /\ electric (bc_at (sbh s) a)) /\ (2 * (ar_cfln ar * ar_cfln ar) < 1)%R /\ (forall h, ~ evenly (gx g) h) /\
  scond s = true /\ ar_solids ar <> [] /\ (forall d i j k, in_box (gNx g) (gNy g) (gNz g) d i j k -> entry (sJ s) d i j k = 0%R /\ entry (sE s) d i j k = 0%R) /\
  entry (sH s) 0 1 1 1 = 1%R /\
  exists bound, forall n s', steps s n = Ok s' -> forall d i j k, in_box (gNx g) (gNy g) (gNz g) d i j k ->
    (Rabs (entry (sE s') d i j k) <= bound)%R /\ (Rabs (entry (sH s') d i j k) <= bound)%R.
Proof.
  assert (Ls : List.length sqR = 5) by apply tab_length.
  destruct (compute_grid_spec sqR sqR sqR) as (g & Hc & Ex & Ey & Ez & _); [rewrite Ls; lia..|].
  assert (Nx : gNx g = 4) by (unfold gNx; rewrite Ex, Ls; reflexivity). assert (Ny : gNy g = 4) by (unfold gNy; rewrite Ey, Ls; reflexivity).
  assert (Nz : gNz g = 4) by (unfold gNz; rewrite Ez, Ls; reflexivity).
  assert (Hg : grid_obj envR g) by exact (go_axes envR _ _ _ _ Hc).
  destruct (construct_conductive envR g gradedR {| me_eps := Fin 1%R; me_mu := Fin 1%R; me_sigma := Some 10%R |} zpml zpml Hg eq_refl) as (s & g' & Hk).
  { intros so [<- | []]. rewrite Nx, Ny, Nz. split; [eexists; reflexivity|apply tab_length]. }
  { reflexivity. }
  { intros _. split; [intros; apply geomspace_length|]. cbn [ar_npml gradedR]. split; [lia|]. rewrite Nx, Ny, Nz. intros [|[|[|a]]] Ha; cbn; lia. }
  { right. exists 2, 2, 2, conductorR, {| me_eps := Fin 1%R; me_mu := Fin 1%R; me_sigma := Some 10%R |}, 10%R, 1%R. rewrite Nx, Ny, Nz. do 3 (split; [lia|]).
    split. { intros f Hf [Q Q2]. cbn in Hf. repeat (destruct Hf as [<- | Hf]; [first [discriminate Q|cbn in Q2; lia]|]). destruct Hf. }
    split; [right; split; [intros t [<- | []] Q; discriminate Q|reflexivity]|]. split; [reflexivity|]. split; [reflexivity|]. split; [cbn; lra|]. split; [reflexivity|]. cbn. lra. }
  assert (Hm : made envR g g' gradedR s) by (constructor; assumption).
  assert (Hr : exists t, run s [OWriteH oneR] = Ok t /\ made envR g g' gradedR t).
  { apply (run_total envR g g' gradedR s _ Hm). rewrite Nx, Ny, Nz. repeat constructor; unfold oneR; apply tab_length. }
  destruct Hr as (t & Hr & Ht). exists g, g', gradedR, t.
  assert (Inc : increasing sqR).
  { intros i Hi. rewrite Ls in Hi. unfold sqR. rewrite !get_tab by lia. rewrite plus_INR. cbn [INR]. pose proof (pos_INR i). nra. }
  assert (Gs : graded_setup g gradedR 1 1).
  { unfold graded_setup. rewrite Ex, Ey, Ez. do 3 (split; [exact Inc|]). split; [intros e Ee; injection Ee as <-; cbn; lra|].
    split; [intros so [<- | []] e Ee; injection Ee as <-; cbn; repeat split; lra|]. cbn [ar_dt ar_cfln gradedR]. repeat split; lra. }
  assert (Lf : layers_fit envR g gradedR).
  { split; [exact pmlR|]. cbn [ar_npml gradedR]. split; [lia|]. rewrite Nx, Ny, Nz. intros [|[|[|a]]] Ha; cbn; lia. }
  destruct (made_walls _ _ _ _ _ Ht) as [W Wp]. injection W as W1 W2.
  assert (Hw : forall a, a < 3 -> electric (bc_at (sbl t) a) /\ electric (bc_at (sbh t) a)).
  { rewrite W1, W2. intros [|[|[|a]]] Ha; [..|lia]; split; unfold electric; cbn; auto. }
  assert (Hcf : (2 * (ar_cfln gradedR * ar_cfln gradedR) < 1)%R) by (cbn; lra).
  destruct (made_run_abs _ _ _ _ _ _ _ Hm Hr) as (G & Gt & _ & [B Bf]).
  destruct (construct_spec envR g _ s g' (grid_obj_ok _ _ Hg) Hk) as (bo & M & _ & _ & HM & _ & _ & _ & _ & _ & _ & EE & EH & EJ & _ & _ & _ & Sc & _).
  assert (F : forall d i j k, in_box 4 4 4 d i j k -> entry (sJ t) d i j k = 0%R /\ entry (sE t) d i j k = 0%R /\ entry (sH t) d i j k = get oneR (ix 4 4 4 d i j k)).
  { intros d i j k (Hd & Hi & Hj & Hk2). pose proof (ix_lt 4 4 4 d i j k Hd Hi Hj Hk2) as Hlt.
    assert (Hlt' : ix 4 4 4 d i j k < 3 * kN (kern_of g g' s)) by (change (kN (kern_of g g' s)) with (gNx g * gNy g * gNz g); rewrite Nx, Ny, Nz; exact Hlt).
    destruct (B _ Hlt') as (B1 & B2 & B3). cbn [krun fold_left kop abs te th tj] in B1, B2, B3.
    pose proof (gd_E _ _ Gt) as SE. pose proof (gd_H _ _ Gt) as SH. pose proof (gd_J _ _ Gt) as SJ. cbn [kNx kNy kNz kern_of] in SE, SH, SJ. rewrite Nx, Ny, Nz in *.
    rewrite (entry_ix (sJ t) 4 4 4) by exact SJ. rewrite (entry_ix (sH t) 4 4 4) by exact SH. rewrite (entry_ix (sE t) 4 4 4) by exact SE.
    rewrite B1, B2, B3, EE, EJ. unfold field_zeros. cbn [farr]. rewrite !get_tab by exact Hlt.
    unfold fill. change (kN (kern_of g g' s)) with (gNx g * gNy g * gNz g). rewrite Nx, Ny, Nz. unfold oneR. rewrite tab_length. cbn [Nat.eqb Nat.mul Nat.add]. auto. }
  assert (HJ : forall d i j k, in_box (gNx g) (gNy g) (gNz g) d i j k -> entry (sJ t) d i j k = 0%R /\ entry (sE t) d i j k = 0%R).
  { rewrite Nx, Ny, Nz. intros d i j k Hb. destruct (F d i j k Hb) as (Q1 & Q2 & _). auto. }
  split; [exact Ht|]. split; [exact lightR|]. split; [exact Gs|]. split; [rewrite Wp, W1, W2; reflexivity|]. split; [exact Lf|]. split; [exact Hw|]. split; [exact Hcf|].
  split. { rewrite Ex. intros h [_ H]. pose proof (H 0 ltac:(rewrite Ls; lia)) as Q1. pose proof (H 1 ltac:(rewrite Ls; lia)) as Q2. unfold sqR in Q1, Q2. rewrite !get_tab in Q1, Q2 by lia. cbn [INR Nat.add] in *. lra. }
  split.
  { destruct (made_values _ _ _ _ _ Ht) as (M1 & bo1 & _ & HM1 & _ & _ & Eco & Epm & _). rewrite Eco.
    assert (Pb : bo_pml bo1 = true) by (rewrite <- Epm, Wp, W1, W2; reflexivity). rewrite Pb in HM1.
    unfold build_materials in HM1. cbn [gradedR ar_bg conductorR find_material bind ar_solids me_eps me_mu me_sigma] in HM1.
    binv HM1 ie Q1. binv HM1 im Q2. binv HM1 sgm Q3. cbn [seq_upd] in HM1. binv HM1 M2 Q4. injection HM1 as <-.
    destruct (uniform_field_spec (gNx g) (gNy g) (gNz g) (over_ext (@none_ R _) (Fin 1%R) (e_eps0 envR))) as (F1 & EF1 & SF1 & _). rewrite Q1 in EF1. injection EF1 as <-.
    destruct (uniform_field_spec (gNx g) (gNy g) (gNz g) (over_ext (@none_ R _) (Fin 1%R) (e_mu0 envR))) as (F2 & EF2 & SF2 & _). rewrite Q2 in EF2. injection EF2 as <-.
    destruct (uniform_field_spec (gNx g) (gNy g) (gNz g) 10%R) as (F3 & EF3 & SF3 & _). rewrite Q3 in EF3. injection EF3 as <-.
    match type of Q4 with apply_solid _ _ _ _ _ ?M0 _ = _ => assert (SM : mats_sized M0 (gNx g) (gNy g) (gNz g)) by (split; [exact SF1|split; [exact SF2|exact SF3]]) end.
    destruct (apply_solid_spec _ _ _ _ _ _ _ _ SM Q4) as (_ & e1 & He1 & -> & _). injection He1 as <-. reflexivity. }
  split; [discriminate|]. split; [exact HJ|].
  split; [destruct (F 0 1 1 1 ltac:(repeat split; lia)) as (_ & _ & ->); unfold oneR; rewrite get_tab by (vm_compute; lia); reflexivity|].
  apply (C118_bounded_partial envR g g' gradedR t 1 1 Ht lightR Gs (fun _ => Lf) Hw (or_intror Hcf)).
  - intros d i j k Hb. apply (HJ d i j k Hb).
  - intros d i j k Hb _. left. apply (HJ d i j k Hb).
Qed.
