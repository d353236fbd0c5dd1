(** Property C20: the default time step keeps the fields bounded. *)
From Coq Require Import List Arith ZArith Bool Lia Reals Lra String.
From Verif Require Import Num Vec Index Matrix FieldModel FieldSpec FieldProofs FieldProofs2 GridModel GridProofs SolverModel SolverSpec SolverPlanes
  SolverBuild SolverMaterials SolverKern SolverCons SolverEnergy SolverFlux SolverFrozen SolverTime SolverPmlSpec SolverConstruct SolverPmlR SolverKit SolverProps4 MpiConf
  StabSum Stab StabGrid StabKern.
Import ListNotations.
Open Scope nat_scope.

(** Sum over the box of eps E^2 + mu H^2, and the same without the faces of dual length 0. *)
Definition field_size (Nx Ny Nz : nat) (eps mu : R) (s : Solver R) : R :=
  sum3 Nx Ny Nz (fun d i j k => eps * (entry (sE s) d i j k * entry (sE s) d i j k) + mu * (entry (sH s) d i j k * entry (sH s) d i j k))%R.
Definition live_size (g' : Grid R) (eps mu : R) (s : Solver R) : R :=
  sum3 (gNx g') (gNy g') (gNz g') (fun d i j k => eps * (entry (sE s) d i j k * entry (sE s) d i j k) +
    (if Req_EM_T (entry (gtL g') d i j k) 0 then 0 else mu * (entry (sH s) d i j k * entry (sH s) d i j k)))%R.

  Lemma all_wall (g : Grid R) (s : Solver R) (Hw : forall a, a < 3 -> electric (bc_at (sbl s) a) /\ electric (bc_at (sbh s) a)) c a i j k : a < 3 -> a <> c -> coord a i j k = 0 \/ coord a i j k = dim a (gNx g) (gNy g) (gNz g) - 1 ->
    electric_wall (sbl s) (sbh s) (gNx g) (gNy g) (gNz g) c i j k.
  Proof.
    intros Ha Hac H. unfold electric_wall, deciding_wall.
    pose proof (Hw 0 ltac:(lia)) as [A0 B0]. pose proof (Hw 1 ltac:(lia)) as [A1 B1]. pose proof (Hw 2 ltac:(lia)) as [A2 B2].
    assert (E : (c =? a) = false) by (apply Nat.eqb_neq; lia).
    assert (F : (coord a i j k =? dim a (gNx g) (gNy g) (gNz g) - 1) = true \/ (coord a i j k =? 0) = true) by (destruct H as [H|H]; [right|left]; apply Nat.eqb_eq; exact H).
    destruct a as [|[|[|a]]]; [..|lia]; rewrite E; destruct F as [F|F]; rewrite F;
      repeat match goal with |- context [if ?c then _ else _] => destruct c end; eexists; split; try reflexivity; assumption.
  Qed.

Section Run.
  Context (env : Env R) (g g' : Grid R) (ar : Args R) (s s' : Solver R) (n : nat) (hx hy hz er mr : R).
  Context (Hm : made env g g' ar s) (Hl : light_env env) (He : even_setup env g ar hx hy hz er mr) (Hp : spml s = false).
  Context (HJ : forall d i j k, in_box (gNx g) (gNy g) (gNz g) d i j k -> entry (sJ s) d i j k = 0%R).
  Context (HD : forall d i j k, in_box (gNx g) (gNy g) (gNz g) d i j k -> entry (gitA g') d i j k = 0%R ->
     entry (sE s) d i j k = 0%R \/ electric_wall (sbl s) (sbh s) (gNx g) (gNy g) (gNz g) d i j k).
  Context (Hs : steps s n = Ok s').
  Notation K := (kern_of g g' s).
  Notation eps := (er * e_eps0 env)%R.
  Notation mu := (mr * e_mu0 env)%R.

  Lemma sum3_scal Nx Ny Nz c (f : nat -> nat -> nat -> nat -> R) : (c * sum3 Nx Ny Nz f = sum3 Nx Ny Nz (fun d i j k => c * f d i j k))%R.
  Proof.
    unfold sum3. change (@sum R Num_R) with SR. rewrite <- SR_scal. apply SR_ext. intros d _. rewrite <- SR_scal. apply SR_ext. intros i _.
    rewrite <- SR_scal. apply SR_ext. intros j _. rewrite <- SR_scal. reflexivity.
  Qed.
  Lemma j_zero r : r < 3 * kN K -> tj (abs s) r = 0%R.
  Proof.
    intros Hr. destruct (ix_surj _ _ _ _ Hr) as [d [i [j [k [Hd [Hi [Hj [Hk ->]]]]]]]]. cbn [abs tj].
    rewrite <- (entry_ix (sJ s)) by exact (gd_J _ _ (made_good env g g' ar s Hm)). apply HJ. repeat split; assumption.
  Qed.
  Lemma run_st : made env g g' ar s' /\ st_eq K (abs s') (Nat.iter n (kstep K) (abs s)).
  Proof.
    destruct (steps_good _ s n (made_good env g g' ar s Hm)) as [t [E [_ B]]]. rewrite Hs in E. injection E as <-.
    split; [exact (proj1 (made_run env g g' ar _ s s' Hm Hs))|exact B].
  Qed.
  Lemma whole_flat u : made env g g' ar u -> (whole K hx hy hz eps mu (te (abs u)) (th (abs u)) = hx * hy * hz * field_size (gNx g) (gNy g) (gNz g) eps mu u)%R.
  Proof.
    intros Hu. pose proof (made_good env g g' ar u Hu) as G. unfold whole, field_size. rewrite <- SR_plus, sum3_scal.
    change (kN K) with (gNx g * gNy g * gNz g). unfold SR. rewrite sum_flat. apply sum3_ext. intros d i j k (Hd & Hi & Hj & Hk).
    cbn [abs te th]. rewrite <- (entry_ix (sE u)) by exact (gd_E _ _ G). rewrite <- (entry_ix (sH u)) by exact (gd_H _ _ G). ring.
  Qed.
  Lemma bulk_flat u : made env g g' ar u -> (bulk K hx hy hz eps mu (te (abs u)) (th (abs u)) = hx * hy * hz * live_size g' eps mu u)%R.
  Proof.
    intros Hu. pose proof (made_good env g g' ar u Hu) as G. destruct (ev_grids env g g' ar s hx hy hz er mr Hm He) as (_ & _ & X & Y & Z).
    destruct (ev_pos env g ar hx hy hz er mr Hl He) as (Px & Py & Pz & _).
    unfold bulk, live_size. rewrite <- SR_plus, sum3_scal, X, Y, Z. unfold SR. change (kN K) with (gNx g * gNy g * gNz g).
    rewrite sum_flat. apply sum3_ext. intros d i j k (Hd & Hi & Hj & Hk).
    destruct (SolverEnergy.made_sized env g g' ar s Hm) as (_ & _ & _ & _ & _ & St & _).
    assert (Et : ktL K (ix (gNx g) (gNy g) (gNz g) d i j k) = entry (gtL g') d i j k) by (symmetry; apply entry_ix; exact St).
    pose proof (ev_tL env g g' ar s hx hy hz er mr Hm He d (cell (gNx g) (gNy g) i j k) Hd (cell_lt _ _ _ i j k Hi Hj Hk)) as TL.
    change (d * kN K + cell (gNx g) (gNy g) i j k) with (ix (gNx g) (gNy g) (gNz g) d i j k) in TL. rewrite Et in TL.
    cbn [abs te th]. rewrite <- (entry_ix (sE u)) by exact (gd_E _ _ G). rewrite <- (entry_ix (sH u)) by exact (gd_H _ _ G).
    unfold wE, wH. rewrite Et. destruct (ix_dec (gNx g) (gNy g) (gNz g) d i j k Hi Hj Hk) as [Ed _]. unfold ixd in Ed.
    change (kN K) with (gNx g * gNy g * gNz g). rewrite Ed.
    assert (Pd : (0 < ds hx hy hz d)%R) by (destruct d as [|[|d]]; assumption).
    destruct (Req_EM_T (entry (gtL g') d i j k) 0) as [Z0|Z0]; [rewrite Z0; ring|]. destruct TL as [-> | F]; [|contradiction]. field. lra.
  Qed.

  Lemma live_run : ((1 - ar_cfln ar) * live_size g' eps mu s' <= (1 + ar_cfln ar) * live_size g' eps mu s)%R.
  Proof.
    destruct run_st as [Hm' [B _]]. destruct (ev_pos env g ar hx hy hz er mr Hl He) as (Px & Py & Pz & Pe & Pm & Pc).
    destruct (ev_dims env g g' ar s Hm Hp) as (DX & DY & _ & DN).
    pose proof (bulk_run K hx hy hz eps mu (ar_cfln ar) DX DY DN Px Py Pz Pe Pm (proj1 Pc) (ev_L env g g' ar s hx hy hz er mr Hm He) (ev_tL env g g' ar s hx hy hz er mr Hm He)
      (ev_A env g g' ar s hx hy hz er mr Hm Hl He Hp) (fun r _ => ev_row g g' s r) (fun r _ => ev_col g g' s r) (even_dt env g g' ar s hx hy hz er mr Hm Hl He Hp)
      (proj1 (even_values env g g' ar s hx hy hz er mr Hm He Hp)) n (abs s) j_zero
      (fun r Hr => ev_edge env g g' ar s hx hy hz er mr Hm Hl He Hp r Hr HD)) as Q. cbv zeta in Q.
    rewrite (bulk_ext K hx hy hz eps mu _ (te (abs s')) _ (th (abs s'))) in Q by (intros r Hr; symmetry; apply B; exact Hr).
    rewrite (bulk_flat s' Hm'), (bulk_flat s Hm) in Q.
    assert (PV : (0 < hx * hy * hz)%R) by (repeat apply Rmult_lt_0_compat; assumption).
    apply (Rmult_le_reg_l (hx * hy * hz)); [exact PV|]. lra.
  Qed.
  Context (Hw : forall a, a < 3 -> electric (bc_at (sbl s) a) /\ electric (bc_at (sbh s) a)).
  Lemma col_wall c a i j k : c < 3 -> i < gNx g -> j < gNy g -> k < gNz g -> a < 3 -> a <> c ->
    coord a i j k = 0 \/ coord a i j k = dim a (gNx g) (gNy g) (gNz g) - 1 -> kcol K (ix (gNx g) (gNy g) (gNz g) c i j k) = 0%R.
  Proof.
    intros Hc Hi Hj Hk Ha Hac H. change (kcol K) with (on_ix (@colv R Num_R (sbl s) (sbh s) (gNx g) (gNy g) (gNz g)) (gNx g) (gNy g) (gNz g)).
    rewrite on_ix_ix by assumption. exact (colv_wall _ _ _ _ _ _ _ _ _ (all_wall g s Hw c a i j k Ha Hac H)).
  Qed.
  (** [x c m] and its shifts vanish on the layer [coord d = top]. *)
  Lemma sh_zero (e : nat -> R) c off i j k : c < 3 -> i < gNx g -> j < gNy g -> k < gNz g ->
    (exists a, a < 3 /\ a <> c /\ (coord a i j k = 0 \/ coord a i j k = dim a (gNx g) (gNy g) (gNz g) - 1)) ->
    (cell (gNx g) (gNy g) i j k + off < gNx g * gNy g * gNz g -> exists i' j' k' a, cell (gNx g) (gNy g) i j k + off = cell (gNx g) (gNy g) i' j' k' /\
       i' < gNx g /\ j' < gNy g /\ k' < gNz g /\ a < 3 /\ a <> c /\ (coord a i' j' k' = 0 \/ coord a i' j' k' = dim a (gNx g) (gNy g) (gNz g) - 1)) ->
    @Sh R Num_R (gNx g * gNy g * gNz g) off (comp (gNx g * gNy g * gNz g) (fun m => (kcol K m * kL K m * e m)%R) c) (cell (gNx g) (gNy g) i j k) = 0%R.
  Proof.
    intros Hc Hi Hj Hk (a & Ha & Hac & Hx) Hsh. unfold Sh, ext, comp. cbn [nsub nzero Num_R].
    pose proof (col_wall c a i j k Hc Hi Hj Hk Ha Hac Hx) as C1. unfold ix in C1. rewrite C1.
    destruct (Nat.ltb_spec (cell (gNx g) (gNy g) i j k + off) (gNx g * gNy g * gNz g)) as [L|L]; [|ring].
    destruct (Hsh L) as (i' & j' & k' & a' & E & Hi' & Hj' & Hk' & Ha' & Hac' & Hx'). rewrite E.
    pose proof (col_wall c a' i' j' k' Hc Hi' Hj' Hk' Ha' Hac' Hx') as C2. unfold ix in C2. rewrite C2. ring.
  Qed.
  Lemma curl_dead r (e : nat -> R) : r < 3 * kN K -> ktL K r = 0%R -> kcurl K e r = 0%R.
  Proof.
    intros Hr Z. destruct (ix_surj _ _ _ _ Hr) as [d [i [j [k [Hd [Hi [Hj [Hk ->]]]]]]]].
    change (kNx K) with (gNx g) in *. change (kNy K) with (gNy g) in *. change (kNz K) with (gNz g) in *.
    destruct (SolverEnergy.made_sized env g g' ar s Hm) as (_ & _ & _ & _ & _ & St & _).
    destruct (ev_grids env g g' ar s hx hy hz er mr Hm He) as (_ & D & X & Y & Z1). unfold dual_even in D. rewrite X, Y, Z1 in D.
    destruct (ev_pos env g ar hx hy hz er mr Hl He) as (Px & Py & Pz & _).
    change (ktL K) with (get (farr (gtL g'))) in Z. rewrite <- (entry_ix (gtL g')) in Z by exact St.
    destruct (D d i j k ltac:(repeat split; assumption)) as [[T|[_ T]] _].
    { exfalso. rewrite Z in T. destruct d as [|[|d]]; cbn [ds] in T; lra. }
    unfold kcurl. destruct (ix_dec (gNx g) (gNy g) (gNz g) d i j k Hi Hj Hk) as [Ed _]. unfold ixd in Ed.
    change (kN K) with (gNx g * gNy g * gNz g). rewrite Ed.
    replace (ix (gNx g) (gNy g) (gNz g) d i j k mod (gNx g * gNy g * gNz g)) with (cell (gNx g) (gNy g) i j k)
      by (apply (Nat.mod_unique _ _ d); [apply cell_lt; assumption|unfold ix; lia]).
    change (kNx K) with (gNx g). change (kNy K) with (gNy g). cbn [nmul Num_R].
    destruct d as [|[|[|d]]]; [..|lia]; cbn [coord dim] in T; unfold curl_at; cbn [nsub Num_R].
    - assert (A : exists a, a < 3 /\ a <> 2 /\ (coord a i j k = 0 \/ coord a i j k = dim a (gNx g) (gNy g) (gNz g) - 1)) by (exists 0; cbn [coord dim]; lia).
      assert (B : exists a, a < 3 /\ a <> 1 /\ (coord a i j k = 0 \/ coord a i j k = dim a (gNx g) (gNy g) (gNz g) - 1)) by (exists 0; cbn [coord dim]; lia).
      rewrite (sh_zero e 2 (gNx g) i j k ltac:(lia) Hi Hj Hk A), (sh_zero e 1 (gNx g * gNy g) i j k ltac:(lia) Hi Hj Hk B); [ring| |];
        intros L; unfold cell in *.
      + exists i, j, (S k), 0. cbn [coord dim]. assert (S k < gNz g) by nia. repeat split; try lia; nia.
      + destruct (Nat.eq_dec (S j) (gNy g)) as [J|J].
        * exists i, 0, (S k), 0. cbn [coord dim]. assert (S k < gNz g) by nia. repeat split; try lia; nia.
        * exists i, (S j), k, 0. cbn [coord dim]. repeat split; try lia; nia.
    - assert (A : exists a, a < 3 /\ a <> 0 /\ (coord a i j k = 0 \/ coord a i j k = dim a (gNx g) (gNy g) (gNz g) - 1)) by (exists 1; cbn [coord dim]; lia).
      assert (B : exists a, a < 3 /\ a <> 2 /\ (coord a i j k = 0 \/ coord a i j k = dim a (gNx g) (gNy g) (gNz g) - 1)) by (exists 1; cbn [coord dim]; lia).
      rewrite (sh_zero e 0 (gNx g * gNy g) i j k ltac:(lia) Hi Hj Hk A), (sh_zero e 2 1 i j k ltac:(lia) Hi Hj Hk B); [ring| |];
        intros L; unfold cell in *.
      + destruct (Nat.eq_dec (S i) (gNx g)) as [J|J].
        * exists 0, 0, (S k), 0. cbn [coord dim]. assert (J2 : S j = gNy g) by lia. assert (S k < gNz g) by (rewrite <- J, <- J2 in L; clear - L; nia). split; [rewrite <- J, <- J2; ring|]. repeat split; lia.
        * exists (S i), j, k, 1. cbn [coord dim]. repeat split; try lia; nia.
      + exists i, j, (S k), 1. cbn [coord dim]. assert (S k < gNz g) by nia. repeat split; try lia; nia.
    - assert (A : exists a, a < 3 /\ a <> 1 /\ (coord a i j k = 0 \/ coord a i j k = dim a (gNx g) (gNy g) (gNz g) - 1)) by (exists 2; cbn [coord dim]; lia).
      assert (B : exists a, a < 3 /\ a <> 0 /\ (coord a i j k = 0 \/ coord a i j k = dim a (gNx g) (gNy g) (gNz g) - 1)) by (exists 2; cbn [coord dim]; lia).
      rewrite (sh_zero e 1 1 i j k ltac:(lia) Hi Hj Hk A), (sh_zero e 0 (gNx g) i j k ltac:(lia) Hi Hj Hk B); [ring| |];
        intros L; unfold cell in *.
      + destruct (Nat.eq_dec (S j) (gNy g)) as [J|J]; [exfalso; nia|].
        exists i, (S j), k, 2. cbn [coord dim]. repeat split; try lia; nia.
      + destruct (Nat.eq_dec (S i) (gNx g)) as [J|J].
        * destruct (Nat.eq_dec (S j) (gNy g)) as [J2|J2]; [exfalso; nia|].
          exists 0, (S j), k, 2. cbn [coord dim]. repeat split; try lia; nia.
        * exists (S i), j, k, 2. cbn [coord dim]. repeat split; try lia; nia.
  Qed.
  Lemma whole_bound : ((1 - ar_cfln ar) * field_size (gNx g) (gNy g) (gNz g) eps mu s' <= (1 + ar_cfln ar) * field_size (gNx g) (gNy g) (gNz g) eps mu s)%R.
  Proof.
    destruct run_st as [Hm' [B _]]. destruct (ev_pos env g ar hx hy hz er mr Hl He) as (Px & Py & Pz & Pe & Pm & Pc).
    destruct (ev_dims env g g' ar s Hm Hp) as (DX & DY & _ & DN).
    pose proof (whole_run K hx hy hz eps mu (ar_cfln ar) DX DY DN Px Py Pz Pe Pm (proj1 Pc) (ev_L env g g' ar s hx hy hz er mr Hm He) (ev_tL env g g' ar s hx hy hz er mr Hm He)
      (ev_A env g g' ar s hx hy hz er mr Hm Hl He Hp) (fun r _ => ev_row g g' s r) (fun r _ => ev_col g g' s r) (even_dt env g g' ar s hx hy hz er mr Hm Hl He Hp)
      (proj1 (even_values env g g' ar s hx hy hz er mr Hm He Hp)) (proj2 Pc) (fun r e Hr Hz => curl_dead r e Hr Hz) n (abs s) j_zero
      (fun r Hr => ev_edge env g g' ar s hx hy hz er mr Hm Hl He Hp r Hr HD)) as Q. cbv zeta in Q.
    assert (Ew : whole K hx hy hz eps mu (te (Nat.iter n (kstep K) (abs s))) (th (Nat.iter n (kstep K) (abs s))) = whole K hx hy hz eps mu (te (abs s')) (th (abs s'))).
    { unfold whole. f_equal; apply SR_ext; intros r Hr; destruct (B r Hr) as (B1 & B2 & _); [rewrite B1|rewrite B2]; reflexivity. }
    rewrite Ew, (whole_flat s' Hm'), (whole_flat s Hm) in Q.
    assert (PV : (0 < hx * hy * hz)%R) by (repeat apply Rmult_lt_0_compat; assumption).
    apply (Rmult_le_reg_l (hx * hy * hz)); [exact PV|]. lra.
  Qed.
End Run.

(** C20.  Full claim: on evenly spaced nodes with one lossless background and the default time step
    (cfln < 1) the fields stay within a fixed multiple of their start, whatever the walls.  That is
    false, see [C20_magnetic_wall_refuted].  It holds in a box of electric walls. *)
Definition conducting (w : string) : Prop := lower w = "electric"%string \/ lower w = "pec"%string.

Lemma conducting_spml env g g' ar (s : Solver R) : made env g g' ar s ->
  (forall a, a < 3 -> conducting (bc_at (sbl s) a) /\ conducting (bc_at (sbh s) a)) -> spml s = false.
Proof.
  intros Hm Hw. destruct (made_walls _ _ _ _ _ Hm) as [_ ->].
  assert (C : forall w, conducting w -> named w "pml" = false) by (intros w [E|E]; unfold named; rewrite E; reflexivity).
  unfold has_pml. rewrite !any_plain; [reflexivity|..]; intros a Ha; apply C, Hw, Ha.
Qed.

Theorem C20_electric_box_partial : forall env g g' ar (s s' : Solver R) n hx hy hz er mr,
  made env g g' ar s -> light_env env -> even_setup env g ar hx hy hz er mr ->
  (forall a, a < 3 -> conducting (bc_at (sbl s) a) /\ conducting (bc_at (sbh s) a)) ->
  (forall d i j k, in_box (gNx g) (gNy g) (gNz g) d i j k -> entry (sJ s) d i j k = 0%R) ->
  steps s n = Ok s' ->
  let size := field_size (gNx g) (gNy g) (gNz g) (er * e_eps0 env) (mr * e_mu0 env) in
  (size s' <= (1 + ar_cfln ar) / (1 - ar_cfln ar) * size s)%R.
Proof.
  intros env g g' ar s s' n hx hy hz er mr Hm Hl He Hw HJ Hs size.
  pose proof (conducting_spml _ _ _ _ _ Hm Hw) as Hp.
  assert (Hw' : forall a, a < 3 -> electric (bc_at (sbl s) a) /\ electric (bc_at (sbh s) a)).
  { intros a Ha. destruct (Hw a Ha) as [[A|A] [B|B]]; unfold electric; rewrite A, B; auto. }
  destruct (ev_pos env g ar hx hy hz er mr Hl He) as (_ & _ & _ & _ & _ & Pc).
  pose proof (whole_bound env g g' ar s s' n hx hy hz er mr Hm Hl He Hp HJ) as W.
  assert (HD : forall d i j k, in_box (gNx g) (gNy g) (gNz g) d i j k -> entry (gitA g') d i j k = 0%R ->
     entry (sE s) d i j k = 0%R \/ electric_wall (sbl s) (sbh s) (gNx g) (gNy g) (gNz g) d i j k).
  { intros d i j k Hb Z. right. destruct (ev_grids env g g' ar s hx hy hz er mr Hm He) as (_ & D & X & Y & Z1). unfold dual_even in D. rewrite X, Y, Z1 in D.
    destruct (ev_pos env g ar hx hy hz er mr Hl He) as (Px & Py & Pz & _).
    destruct (D d i j k Hb) as [_ [T|[_ (a & Ha & Had & T)]]].
    - exfalso. rewrite Z in T. assert (0 < / (ds hx hy hz (tr1 d) * ds hx hy hz (tr2 d)))%R; [|lra].
      apply Rinv_0_lt_compat, Rmult_lt_0_compat; [destruct (tr1 d) as [|[|?]]|destruct (tr2 d) as [|[|?]]]; cbn [ds]; assumption.
    - apply (all_wall g s Hw' d a i j k Ha Had). right. exact T. }
  specialize (W HD Hs Hw'). fold size in W.
  apply (Rmult_le_reg_l (1 - ar_cfln ar)); [lra|].
  replace ((1 - ar_cfln ar) * ((1 + ar_cfln ar) / (1 - ar_cfln ar) * size s))%R with ((1 + ar_cfln ar) * size s)%R by (field; lra). exact W.
Qed.
Print Assumptions C20_electric_box_partial.

(** Other walls (not pml): the faces of nonzero dual length stay bounded, provided every edge of
    dual area 0 starts with no field or lies on an electric wall.  Missing: the remaining faces. *)
Theorem C20_other_walls_partial : forall env g g' ar (s s' : Solver R) n hx hy hz er mr,
  made env g g' ar s -> light_env env -> even_setup env g ar hx hy hz er mr -> spml s = false ->
  (forall d i j k, in_box (gNx g) (gNy g) (gNz g) d i j k -> entry (sJ s) d i j k = 0%R) ->
  (forall d i j k, in_box (gNx g) (gNy g) (gNz g) d i j k -> entry (gitA g') d i j k = 0%R ->
     entry (sE s) d i j k = 0%R \/ electric_wall (sbl s) (sbh s) (gNx g) (gNy g) (gNz g) d i j k) ->
  steps s n = Ok s' ->
  let size := live_size g' (er * e_eps0 env) (mr * e_mu0 env) in
  (size s' <= (1 + ar_cfln ar) / (1 - ar_cfln ar) * size s)%R.
Proof.
  intros env g g' ar s s' n hx hy hz er mr Hm Hl He Hp HJ HD Hs size.
  destruct (ev_pos env g ar hx hy hz er mr Hl He) as (_ & _ & _ & _ & _ & Pc).
  pose proof (live_run env g g' ar s s' n hx hy hz er mr Hm Hl He Hp HJ HD Hs) as W. fold size in W.
  apply (Rmult_le_reg_l (1 - ar_cfln ar)); [lra|].
  replace ((1 - ar_cfln ar) * ((1 + ar_cfln ar) / (1 - ar_cfln ar) * size s))%R with ((1 + ar_cfln ar) * size s)%R by (field; lra). exact W.
Qed.
Print Assumptions C20_other_walls_partial.

(** ** Cases *)
Lemma axR_even n : evenly (axR n) 1.
Proof. split; [lra|]. intros i Hi. unfold axR in *. rewrite tab_length in Hi. rewrite !get_tab by lia. rewrite plus_INR. cbn [INR]. lra. Qed.
Lemma lightR : light_env envR.
Proof. split; [exact realR|]. cbn. lra. Qed.
(** Walls [low], [high] around 3 x 3 x 3 unit cells of vacuum, E_z = 1 on one edge. *)
Definition wallsR (bl bh : bc3) : Args R :=
  {| ar_bl := bl; ar_bh := bh; ar_bg := vacR; ar_solids := []; ar_npml := 1; ar_cfln := (1 / 2)%R; ar_dt := None; ar_mpi := None |}.
Definition spike (p : nat) : list R := tab 81 (fun m => if m =? p then 1%R else 0%R).
Lemma spike_made bl bh p : has_pml bl bh = false ->
  exists g g' s, made envR g g' (wallsR bl bh) s /\ even_setup envR g (wallsR bl bh) 1 1 1 1 1 /\ compute_grid (axR 3) (axR 3) (axR 3) = Ok g /\
    gNx g = 3 /\ gNy g = 3 /\ gNz g = 3 /\ sbl s = bl /\ sbh s = bh /\
    (forall d i j k, in_box 3 3 3 d i j k -> entry (sJ s) d i j k = 0%R /\ entry (sH s) d i j k = 0%R /\
       entry (sE s) d i j k = if ix 3 3 3 d i j k =? p then 1%R else 0%R).
Proof.
  intros Hpm. destruct (cubeR 3 ltac:(lia)) as (g & Hc & Ex & Ey & Ez & Nx & Ny & Nz).
  assert (Hg : grid_obj envR g) by exact (go_axes envR _ _ _ _ Hc).
  destruct (construct_conductive envR g (wallsR bl bh) {| me_eps := Fin 1%R; me_mu := Fin 1%R; me_sigma := None |} bl bh Hg eq_refl) as (s & g' & Hk).
  { intros so []. }
  { reflexivity. }
  { rewrite Hpm. discriminate. }
  { left. split; [exact Hpm|]. split; [reflexivity|]. intros so e []. }
  assert (Hm : made envR g g' (wallsR bl bh) s) by (constructor; assumption).
  assert (Hr : exists t, run s [OWriteE (spike p)] = Ok t /\ made envR g g' (wallsR bl bh) t).
  { apply (run_total envR g g' (wallsR bl bh) s [OWriteE (spike p)] Hm). constructor; [|constructor]. rewrite Nx, Ny, Nz. unfold spike. apply tab_length. }
  destruct Hr as (t & Hr & Ht). exists g, g', t. split; [exact Ht|].
  split. { unfold even_setup. rewrite Ex, Ey, Ez. do 3 (split; [apply axR_even|]). do 2 (split; [reflexivity|]). cbn [ar_dt ar_cfln wallsR]. repeat split; lra. }
  split; [exact Hc|]. do 3 (split; [assumption|]).
  destruct (made_walls _ _ _ _ _ Ht) as [W _]. injection W as W1 W2. split; [exact W1|]. split; [exact W2|].
  destruct (made_run_abs _ _ _ _ _ _ _ Hm Hr) as (G & Gt & _ & [B _]). intros d i j k Hb. destruct Hb as (Hd & Hi & Hj & Hk2).
  pose proof (ix_lt 3 3 3 d i j k Hd Hi Hj Hk2) as Hlt.
  assert (Hlt' : ix 3 3 3 d i j k < 3 * kN (kern_of g g' s)) by (change (kN (kern_of g g' s)) with (gNx g * gNy g * gNz g); rewrite Nx, Ny, Nz; exact Hlt).
  destruct (B _ Hlt') as (B1 & B2 & B3). cbn [krun fold_left kop abs te th tj] in B1, B2, B3.
  destruct (construct_spec envR g _ s g' (grid_obj_ok _ _ Hg) Hk) as (bo & M & _ & _ & _ & _ & _ & _ & _ & _ & _ & EE & EH & EJ & _).
  rewrite Nx, Ny, Nz in EE, EH, EJ.
  pose proof (gd_E _ _ Gt) as SE. pose proof (gd_H _ _ Gt) as SH. pose proof (gd_J _ _ Gt) as SJ. cbn [kNx kNy kNz kern_of] in SE, SH, SJ. rewrite Nx, Ny, Nz in SE, SH, SJ.
  rewrite (entry_ix (sJ t) 3 3 3) by exact SJ. rewrite (entry_ix (sH t) 3 3 3) by exact SH. rewrite (entry_ix (sE t) 3 3 3) by exact SE.
  rewrite B1, B2, B3, EH, EJ. unfold field_zeros. cbn [farr]. rewrite !get_tab by exact Hlt. split; [reflexivity|]. split; [reflexivity|].
  unfold fill. change (kN (kern_of g g' s)) with (gNx g * gNy g * gNz g). rewrite Nx, Ny, Nz. unfold spike. rewrite tab_length. cbn [Nat.eqb Nat.mul Nat.add]. rewrite get_tab by exact Hlt. reflexivity.
Qed.

Lemma INR_above x : exists n, (x < INR n)%R.
Proof.
  destruct (Rle_lt_dec x 0) as [L|L]; [exists 1; cbn; lra|]. destruct (archimed_cor1 (/ x) ltac:(apply Rinv_0_lt_compat; exact L)) as (n & Hn & Pn).
  exists n. pose proof (lt_0_INR n Pn) as P. destruct (Rlt_or_le x (INR n)) as [Q|Q]; [exact Q|]. pose proof (Rinv_le_contravar (INR n) x P Q). lra.
Qed.
(** E_z(1,1,1) = 1 in a box of electric walls: after any number of steps the size is at most 3. *)
Example C20_electric_case : exists g g' ar s, made envR g g' ar s /\ light_env envR /\ even_setup envR g ar 1 1 1 1 1 /\ gNx g = 3 /\
  (forall a, a < 3 -> conducting (bc_at (sbl s) a) /\ conducting (bc_at (sbh s) a)) /\
  (forall d i j k, in_box (gNx g) (gNy g) (gNz g) d i j k -> entry (sJ s) d i j k = 0%R) /\ entry (sE s) 2 1 1 1 = 1%R /\
  forall n, exists s', steps s n = Ok s' /\ (field_size 3 3 3 1 1 s' <= 3)%R.
Proof.
  destruct (spike_made (bcs "pec") (bcs "electric") (ix 3 3 3 2 1 1 1) eq_refl) as (g & g' & s & Hm & He & _ & Nx & Ny & Nz & Wl & Wh & F).
  assert (Hw : forall a, a < 3 -> conducting (bc_at (sbl s) a) /\ conducting (bc_at (sbh s) a)).
  { rewrite Wl, Wh. intros [|[|[|a]]] Ha; [..|lia]; split; unfold conducting; cbn; auto. }
  assert (HJ : forall d i j k, in_box (gNx g) (gNy g) (gNz g) d i j k -> entry (sJ s) d i j k = 0%R) by (rewrite Nx, Ny, Nz; intros; apply F; assumption).
  exists g, g', (wallsR (bcs "pec") (bcs "electric")), s. split; [exact Hm|]. split; [exact lightR|]. split; [exact He|]. split; [exact Nx|]. split; [exact Hw|]. split; [exact HJ|].
  split; [apply (F 2 1 1 1); repeat split; lia|]. intros n.
  destruct (steps_good _ s n (made_good _ _ _ _ _ Hm)) as (s' & Es & _). exists s'. split; [exact Es|].
  pose proof (C20_electric_box_partial _ _ _ _ _ _ n _ _ _ _ _ Hm lightR He Hw HJ Es) as B. cbv zeta in B. rewrite Nx, Ny, Nz in B.
  cbn [e_eps0 e_mu0 envR ar_cfln wallsR] in B. rewrite !Rmult_1_l in B.
  eapply Rle_trans; [exact B|].
  assert (Z : field_size 3 3 3 1 1 s = 1%R).
  { unfold field_size. transitivity (sum3 (T := R) 3 3 3 (fun d i j k => if ix 3 3 3 d i j k =? ix 3 3 3 2 1 1 1 then 1%R else 0%R)).
    - apply sum3_ext. intros d i j k Hb. destruct (F d i j k Hb) as (_ & -> & ->). destruct (_ =? _); ring.
    - unfold sum3, sum, ix, cell. cbn. ring. }
  rewrite Z. lra.
Qed.

(** The same start between periodic walls meets the hypotheses of the second theorem. *)
Example C20_other_walls_case : exists g g' ar s, made envR g g' ar s /\ light_env envR /\ even_setup envR g ar 1 1 1 1 1 /\ gNx g = 3 /\ spml s = false /\
  (forall a, a < 3 -> bc_at (sbl s) a = "periodic"%string /\ bc_at (sbh s) a = "periodic"%string) /\
  (forall d i j k, in_box (gNx g) (gNy g) (gNz g) d i j k -> entry (sJ s) d i j k = 0%R) /\ entry (sE s) 2 1 1 1 = 1%R /\
  (forall d i j k, in_box (gNx g) (gNy g) (gNz g) d i j k -> entry (gitA g') d i j k = 0%R ->
     entry (sE s) d i j k = 0%R \/ electric_wall (sbl s) (sbh s) (gNx g) (gNy g) (gNz g) d i j k).
Proof.
  destruct (spike_made (bcs "periodic") (bcs "periodic") (ix 3 3 3 2 1 1 1) eq_refl) as (g & g' & s & Hm & He & _ & Nx & Ny & Nz & Wl & Wh & F).
  exists g, g', (wallsR (bcs "periodic") (bcs "periodic")), s. split; [exact Hm|]. split; [exact lightR|]. split; [exact He|]. split; [exact Nx|].
  split; [destruct (made_walls _ _ _ _ _ Hm) as [_ ->]; rewrite Wl, Wh; reflexivity|].
  split; [rewrite Wl, Wh; intros [|[|[|a]]] Ha; [..|lia]; split; reflexivity|].
  split; [rewrite Nx, Ny, Nz; intros; apply F; assumption|]. split; [apply (F 2 1 1 1); repeat split; lia|].
  intros d i j k Hb Z. left. destruct (ev_grids envR g g' _ s 1 1 1 1 1 Hm He) as (_ & D & X & Y & Z1). unfold dual_even in D. rewrite X, Y, Z1 in D.
  destruct (D d i j k Hb) as [_ [T|[_ (a & Ha & Had & T)]]].
  - exfalso. rewrite Z in T. destruct Hb as (Hd & _). destruct d as [|[|[|d]]]; [..|lia]; cbn in T; lra.
  - rewrite Nx, Ny, Nz in *. destruct (F d i j k Hb) as (_ & _ & ->). destruct (Nat.eqb_spec (ix 3 3 3 d i j k) (ix 3 3 3 2 1 1 1)) as [E|E]; [exfalso|reflexivity].
    destruct Hb as (Hd & Hi & Hj & Hk). destruct (ix_dec 3 3 3 d i j k Hi Hj Hk) as (_ & E1 & E2 & E3). rewrite E in E1, E2, E3. vm_compute in E1, E2, E3. subst i j k.
    destruct a as [|[|[|a]]]; [..|lia]; cbn in T; lia.
Qed.

(** A magnetic wall at the upper x end: an E_z on its last layer has dual area 0 and stays, and the
    H_x beside it grows by dt in every step. *)
Theorem C20_magnetic_wall_refuted : exists env g g' ar s hx hy hz er mr,
  made env g g' ar s /\ light_env env /\ even_setup env g ar hx hy hz er mr /\
  magnetic (bc_at (sbh s) 0) /\ (forall a, a < 3 -> conducting (bc_at (sbl s) a)) /\ (forall a, 0 < a < 3 -> conducting (bc_at (sbh s) a)) /\
  (forall d i j k, in_box (gNx g) (gNy g) (gNz g) d i j k -> entry (sJ s) d i j k = 0%R) /\
  forall bound, exists n s', steps s n = Ok s' /\ (bound < entry (sH s') 0 2 1 1)%R.
Proof.
  set (hi := {| bcx := "magnetic"; bcy := "pec"; bcz := "pec" |}).
  destruct (spike_made (bcs "pec") hi (ix 3 3 3 2 2 1 1) eq_refl) as (g & g' & s & Hm & He & Hcg & Nx & Ny & Nz & Wl & Wh & F).
  exists envR, g, g', (wallsR (bcs "pec") hi), s, 1%R, 1%R, 1%R, 1%R, 1%R.
  split; [exact Hm|]. split; [exact lightR|]. split; [exact He|].
  split; [rewrite Wh; left; reflexivity|].
  split; [rewrite Wl; intros [|[|[|a]]] Ha; [..|lia]; unfold conducting; cbn; auto|].
  split; [rewrite Wh; intros [|[|[|a]]] Ha; [lia|..|lia]; unfold conducting; cbn; auto|].
  split; [rewrite Nx, Ny, Nz; intros; apply F; assumption|].
  assert (Hp : spml s = false) by (destruct (made_walls _ _ _ _ _ Hm) as [_ ->]; rewrite Wl, Wh; reflexivity).
  destruct (even_values _ _ _ _ _ _ _ _ _ _ Hm He Hp) as [Hco Hmat].
  destruct (C33_time_step _ _ _ _ _ Hm realR) as (Hdt & _).
  { split; [exact vac_passive|]. split; [intros so []|]. split; [discriminate|]. split; [cbn; lra|].
    destruct He as (A & B & C & _). repeat split; eapply evenly_inc; eassumption. }
  { congruence. }
  (* the dual areas of the last layer *)
  destruct (made_conf _ _ _ _ _ Hm) as (s0 & Hg & Hk & _ & _ & _ & _ & _ & El & Eh & _).
  pose proof (grid_obj_ok _ _ Hg) as Gk.
  assert (Dead : forall d, 0 < d < 3 -> entry (gitA g') d 2 1 1 = 0%R).
  { intros d Hd. destruct (construct_spec envR g _ s0 g' Gk Hk) as
      (bo & M & Hbo & _ & _ & _ & _ & _ & _ & _ & _ & _ & _ & _ & _ & _ & _ & _ & _ & _ & _ & _ & _ & _ & _ & _ & _ & ->).
    destruct (apply_bc_spec g (sbl s0) (sbh s0) Gk) as [bo' [Fr [Fc [Hbo' [_ [_ [_ [_ [A _]]]]]]]]]. rewrite Hbo in Hbo'. injection Hbo' as <-.
    cbn [with_dual gitA]. destruct (A d 2 1 1) as (_ & _ & _ & ->); [lia..|]. rewrite <- El, <- Eh, Wl, Wh.
    rewrite !wrapA_off by (intros [|[|[|a]]] Ha; reflexivity || lia).
    destruct (compute_grid_spec (axR 3) (axR 3) (axR 3)) as (g2 & E2 & _ & _ & _ & _ & _ & _ & _ & V); [unfold axR; rewrite tab_length; lia..|]. rewrite Hcg in E2. injection E2 as <-.
    destruct (V 2 1 1) as (_ & _ & _ & T0 & _ & _ & T); [lia..|]. destruct (T d) as [_ ->]; [lia|].
    assert (Z0 : entry (gtL g) 0 2 1 1 = 0%R).
    { rewrite T0. unfold tilde. assert (L4 : List.length (axR 3) = 4) by apply tab_length. rewrite L4, !get_tab by lia. cbn [Nat.ltb Nat.leb Nat.add Nat.sub nsub Num_R]. ring. }
    unfold inv_where. destruct d as [|[|[|d]]]; [lia|..|lia]; cbn [tr1 tr2]; rewrite Z0; cbn [neqb nmul nzero Num_R]; destruct (Req_EM_T _ _) as [Q|Q]; try reflexivity; exfalso; apply Q; ring. }
  set (K := kern_of g g' s). set (b := fun n => Nat.iter n (kstep K) (abs s)).
  pose proof (made_good _ _ _ _ _ Hm) as G.
  assert (In1 : forall d, d < 3 -> in_box (gNx g) (gNy g) (gNz g) d 2 1 1) by (intros d Hd; rewrite Nx, Ny, Nz; repeat split; lia).
  assert (Inv : forall n, te (b n) (ix 3 3 3 2 2 1 1) = 1%R /\ te (b n) (ix 3 3 3 1 2 1 1) = 0%R /\
     (forall r, r < 81 -> tj (b n) r = 0%R) /\ th (b n) (ix 3 3 3 0 2 1 1) = (INR n * sdt s)%R).
  { assert (KX : kNx K = 3) by exact Nx. assert (KY : kNy K = 3) by exact Ny. assert (KZ : kNz K = 3) by exact Nz.
    assert (KN : kN K = 27) by (unfold kN; rewrite KX, KY, KZ; reflexivity).
    assert (Col : forall d i j k, i < 3 -> j < 3 -> k < 3 -> kcol K (ix 3 3 3 d i j k) = colv (bcs "pec") hi 3 3 3 d i j k).
    { intros d i j k Hi Hj Hk3. unfold K, kern_of. cbn [kcol]. rewrite Nx, Ny, Nz, Wl, Wh. apply on_ix_ix; assumption. }
    assert (C1 : kcol K 71 = 0%R) by exact (Col 2 2 2 1 ltac:(lia) ltac:(lia) ltac:(lia)).
    assert (C2 : kcol K 50 = 0%R) by exact (Col 1 2 1 2 ltac:(lia) ltac:(lia) ltac:(lia)).
    assert (C3 : kcol K 68 = 1%R) by exact (Col 2 2 1 1 ltac:(lia) ltac:(lia) ltac:(lia)).
    assert (Rw : krow K 14 = 1%R).
    { unfold K, kern_of. cbn [krow]. rewrite Nx, Ny, Nz, Wl, Wh. exact (on_ix_ix (rowv (bcs "pec") hi 3 3 3) 3 3 3 0 2 1 1 ltac:(lia) ltac:(lia) ltac:(lia)). }
    assert (KL : kL K 68 = 1%R).
    { pose proof (ev_L _ _ _ _ _ _ _ _ _ _ Hm He 2 14) as Q. fold K in Q. rewrite KN in Q. exact (Q ltac:(lia) ltac:(lia)). }
    assert (KA : (kiA K 14 * kimu K 14 = 1)%R).
    { pose proof (ev_A _ _ _ _ _ _ _ _ _ _ Hm lightR He Hp 0 14) as Q. fold K in Q. rewrite KN in Q. specialize (Q ltac:(lia) ltac:(lia)).
      change (0 * 27 + 14) with 14 in Q. rewrite Q. cbn. field. }
    destruct (SolverEnergy.made_sized _ _ _ _ _ Hm) as (_ & _ & _ & _ & _ & _ & StA). rewrite Nx, Ny, Nz in StA.
    assert (T1 : kitA K 41 = 0%R) by (rewrite <- (Dead 1 ltac:(lia)); symmetry; exact (entry_ix (gitA g') 3 3 3 1 2 1 1 StA)).
    assert (T2 : kitA K 68 = 0%R) by (rewrite <- (Dead 2 ltac:(lia)); symmetry; exact (entry_ix (gitA g') 3 3 3 2 2 1 1 StA)).
    assert (Cu : forall e, e 41 = 0%R -> kcurl K e 14 = (- e 68%nat)%R).
    { intros e Z. unfold kcurl. rewrite KN, KX, KY. change (14 / 27) with 0. change (14 mod 27) with 14. unfold curl_at, Sh, ext, comp.
      cbn [Nat.mul Nat.add Nat.ltb Nat.leb nsub nmul Num_R]. rewrite C1, C2, C3, KL, Z. ring. }
    assert (EfE : forall a, effE K a 68 = te a 68 /\ effE K a 41 = te a 41 /\ effH K a 14 = th a 14).
    { intros a. unfold effE, effH. rewrite KX, KY, KZ. change (on_ix (ghE 3 3 3) 3 3 3 68) with false. change (on_ix (ghE 3 3 3) 3 3 3 41) with false.
      change (on_ix (ghH 3 3 3) 3 3 3 14) with false. rewrite !andb_false_r. auto. }
    change (ix 3 3 3 2 2 1 1) with 68. change (ix 3 3 3 1 2 1 1) with 41. change (ix 3 3 3 0 2 1 1) with 14.
    induction n as [|n (I1 & I2 & I3 & I4)].
    - destruct (F 2 2 1 1 ltac:(repeat split; lia)) as (_ & _ & E1). destruct (F 1 2 1 1 ltac:(repeat split; lia)) as (_ & _ & E2).
      destruct (F 0 2 1 1 ltac:(repeat split; lia)) as (_ & E3 & _).
      pose proof (gd_E _ _ G) as SE. pose proof (gd_H _ _ G) as SH. pose proof (gd_J _ _ G) as SJ. cbn [kNx kNy kNz kern_of] in SE, SH, SJ. rewrite Nx, Ny, Nz in SE, SH, SJ.
      unfold b. cbn [Nat.iter nat_rect abs te th tj INR]. rewrite Rmult_0_l.
      split; [rewrite <- E1 at 2 || idtac; rewrite (entry_ix (sE s) 3 3 3) in E1 by exact SE; exact E1|].
      split; [rewrite (entry_ix (sE s) 3 3 3) in E2 by exact SE; exact E2|].
      split; [|rewrite (entry_ix (sH s) 3 3 3) in E3 by exact SH; exact E3].
      intros r Hr. destruct (ix_surj 3 3 3 r Hr) as [d [i [j [k [Hd [Hi [Hj [Hk3 ->]]]]]]]]. rewrite <- (entry_ix (sJ s) 3 3 3) by exact SJ. apply F. repeat split; assumption.
    - change (b (S n)) with (kstep K (b n)). destruct (EfE (b n)) as (A1 & A2 & A3). cbn [kstep te th tj].
      split; [|split; [|split]].
      + unfold kE. rewrite T2, I3, A1, I1 by lia. cbn [nadd nsub nmul Num_R]. ring.
      + unfold kE. rewrite T1, I3, A2, I2 by lia. cbn [nadd nsub nmul Num_R]. ring.
      + intros r Hr. unfold kJ. change (kcond K) with (scond s). rewrite Hco. apply I3. exact Hr.
      + unfold kH. rewrite Cu by (rewrite A2; exact I2). rewrite A1, A3, I1, I4, Rw. change (kdt K) with (sdt s). cbn [nsub nmul Num_R]. rewrite S_INR.
        transitivity (INR n * sdt s + sdt s * (kiA K 14 * kimu K 14))%R; [ring|]. rewrite KA. ring. }
  intros bound. destruct (INR_above (bound / sdt s)) as [n Hn].
  destruct (steps_good _ s n G) as (s' & Es & G' & [B _]). fold K in B, G'. exists n, s'. split; [exact Es|].
  pose proof (gd_H _ _ G') as SH. cbn [kNx kNy kNz kern_of K] in SH. rewrite Nx, Ny, Nz in SH. rewrite (entry_ix (sH s') 3 3 3) by exact SH.
  assert (L14 : ix 3 3 3 0 2 1 1 < 3 * kN K) by (change (kN K) with (gNx g * gNy g * gNz g); rewrite Nx, Ny, Nz; vm_compute; lia).
  destruct (B _ L14) as (_ & B2 & _). cbn [abs th] in B2. rewrite B2. fold (b n). destruct (Inv n) as (_ & _ & _ & I4). fold (b n) in I4. rewrite I4.
  apply (Rmult_lt_compat_r (sdt s)) in Hn; [|exact Hdt]. unfold Rdiv in Hn. rewrite Rmult_assoc, Rinv_l, Rmult_1_r in Hn by lra. exact Hn.
Qed.
Print Assumptions C20_magnetic_wall_refuted.
