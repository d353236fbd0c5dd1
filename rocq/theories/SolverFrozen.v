(** Lemmas: material values, frozen entries, invertibility, restart, light cone. *)
From Coq Require Import List Arith ZArith Bool String Lia Ring Field.
From Verif Require Import Num Vec Index Matrix FieldModel FieldSpec FieldProofs FieldProofs2
  GridModel GridProofs SolverModel SolverPlanes SolverBuild SolverMaterials SolverKern SolverCons SolverSpec
  SolverFlux SolverEnergy SolverOps.
Import ListNotations.

Section Values.
  Context {T : Type} {NT : Num T} {LT : NumLaws T} {OT : NumOrd T}.
  Add Field field_T_val : (@num_field T NT LT).

  Lemma solids_values env Nx Ny Nz sbg solids : forall (M : Mats T) M' m0 e0,
    mats_sized M Nx Ny Nz -> find_material m0 = Ok e0 ->
    seq_upd (apply_solid env Nx Ny Nz sbg) M solids = Ok M' ->
    forall i j k, i < Nx -> j < Ny -> k < Nz ->
    (forall c, c < 3 -> entry (mt_ieps M) c i j k = over_ext none_ (me_eps e0) (e_eps0 env) /\
                        entry (mt_imu M) c i j k = over_ext none_ (me_mu e0) (e_mu0 env)) ->
    exists e, find_material (fold_left (fun acc so => if cell_mask Ny Nz (so_mask so) i j k
                                then so_mat so else acc) solids m0) = Ok e /\
      forall c, c < 3 -> entry (mt_ieps M') c i j k = over_ext none_ (me_eps e) (e_eps0 env) /\
                         entry (mt_imu M') c i j k = over_ext none_ (me_mu e) (e_mu0 env).
  Proof.
    induction solids as [|so r IH]; intros M M' m0 e0 SM H0 E i j k Hi Hj Hk HM; cbn [seq_upd fold_left] in *.
    - injection E as <-. exists e0. auto.
    - binv E M1 E1. destruct (apply_solid_spec _ _ _ _ _ _ _ _ SM E1) as [S1 [e1 [F1 [_ V]]]].
      destruct (cell_mask Ny Nz (so_mask so) i j k) eqn:Em.
      + apply (IH M1 M' (so_mat so) e1 S1 F1 E i j k Hi Hj Hk).
        intros c Hc. destruct (V c i j k Hc Hi Hj Hk) as [V1 [V2 _]]. rewrite Em in V1, V2. auto.
      + apply (IH M1 M' m0 e0 S1 H0 E i j k Hi Hj Hk).
        intros c Hc. destruct (V c i j k Hc Hi Hj Hk) as [V1 [V2 _]]. rewrite Em in V1, V2.
        rewrite V1, V2. apply HM. exact Hc.
  Qed.

  (** Material of a cell: of the last solid marked there, else the background. *)
  Definition cell_material (bg : material T) (solids : list (solid T)) (Ny Nz i j k : nat) : material T :=
    fold_left (fun acc so => if cell_mask Ny Nz (so_mask so) i j k then so_mat so else acc) solids bg.

  Lemma build_values env Nx Ny Nz bg c0 solids (M : Mats T) :
    build_materials env Nx Ny Nz bg c0 solids = Ok M ->
    forall i j k, i < Nx -> j < Ny -> k < Nz ->
    exists e, find_material (cell_material bg solids Ny Nz i j k) = Ok e /\
      forall c, c < 3 -> entry (mt_ieps M) c i j k = over_ext none_ (me_eps e) (e_eps0 env) /\
                         entry (mt_imu M) c i j k = over_ext none_ (me_mu e) (e_mu0 env).
  Proof.
    unfold build_materials. intros H i j k Hi Hj Hk. binv H e He. binv H ie H1. binv H im H2. binv H sg H3.
    destruct (uniform_field_spec Nx Ny Nz (over_ext none_ (me_eps e) (e_eps0 env))) as [F1 [E1 [S1 A1]]].
    destruct (uniform_field_spec Nx Ny Nz (over_ext none_ (me_mu e) (e_mu0 env))) as [F2 [E2 [S2 A2]]].
    destruct (uniform_field_spec Nx Ny Nz (match me_sigma e with Some s => s | None => nzero end)) as [F3 [E3 [S3 A3]]].
    rewrite H1 in E1. rewrite H2 in E2. rewrite H3 in E3.
    injection E1 as <-. injection E2 as <-. injection E3 as <-.
    match type of H with seq_upd _ ?M0 _ = _ => set (m0 := M0) in H end.
    eapply (solids_values _ _ _ _ _ solids m0 M bg e); try eassumption.
    - repeat split; first [apply S1|apply S2|apply S3].
    - intros c Hc. cbn. split; [apply A1|apply A2]; assumption.
  Qed.

  (** Conductivity actually assigned to a cell. *)
  Lemma solids_sigma env Nx Ny Nz sbg solids : forall (M : Mats T) M' m0 e0,
    mats_sized M Nx Ny Nz -> find_material m0 = Ok e0 ->
    seq_upd (apply_solid env Nx Ny Nz sbg) M solids = Ok M' ->
    forall i j k, i < Nx -> j < Ny -> k < Nz ->
    (nltb nzero sbg = true \/
     forall so e, In so solids -> cell_mask Ny Nz (so_mask so) i j k = true ->
       find_material (so_mat so) = Ok e -> me_sigma e <> None) ->
    (forall c, c < 3 -> entry (mt_sigma M) c i j k = match me_sigma e0 with Some s => s | None => nzero end) ->
    exists e, find_material (fold_left (fun acc so => if cell_mask Ny Nz (so_mask so) i j k
                                then so_mat so else acc) solids m0) = Ok e /\
      forall c, c < 3 -> entry (mt_sigma M') c i j k = match me_sigma e with Some s => s | None => nzero end.
  Proof.
    induction solids as [|so r IH]; intros M M' m0 e0 SM H0 E i j k Hi Hj Hk Hcond HM; cbn [seq_upd fold_left] in *.
    - injection E as <-. exists e0. auto.
    - binv E M1 E1. destruct (apply_solid_spec _ _ _ _ _ _ _ _ SM E1) as [S1 [e1 [F1 [_ V]]]].
      assert (Hcond' : nltb nzero sbg = true \/ forall so e, In so r -> cell_mask Ny Nz (so_mask so) i j k = true ->
        find_material (so_mat so) = Ok e -> me_sigma e <> None).
      { destruct Hcond as [Hc|Hc]; [left; exact Hc|right]. intros so' e' Hin. apply Hc. right. exact Hin. }
      destruct (cell_mask Ny Nz (so_mask so) i j k) eqn:Em.
      + apply (IH M1 M' (so_mat so) e1 S1 F1 E i j k Hi Hj Hk Hcond').
        intros c Hc. destruct (V c i j k Hc Hi Hj Hk) as [_ [_ V3]]. rewrite Em in V3. rewrite V3.
        destruct (me_sigma e1) eqn:Es; [reflexivity|].
        destruct Hcond as [Hb|Hb]; [rewrite Hb; reflexivity|]. exfalso.
        exact (Hb so e1 (or_introl eq_refl) Em F1 Es).
      + apply (IH M1 M' m0 e0 S1 H0 E i j k Hi Hj Hk Hcond').
        intros c Hc. destruct (V c i j k Hc Hi Hj Hk) as [_ [_ V3]]. rewrite Em, andb_false_r in V3.
        rewrite V3. rewrite <- (HM c Hc). destruct (me_sigma e1); reflexivity.
  Qed.

  Lemma build_sigma env Nx Ny Nz bg ebg c0 solids (M : Mats T) :
    build_materials env Nx Ny Nz bg c0 solids = Ok M -> find_material bg = Ok ebg ->
    forall i j k, i < Nx -> j < Ny -> k < Nz ->
    ((exists s, me_sigma ebg = Some s /\ nltb nzero s = true) \/
     forall so e, In so solids -> cell_mask Ny Nz (so_mask so) i j k = true ->
       find_material (so_mat so) = Ok e -> me_sigma e <> None) ->
    exists e, find_material (cell_material bg solids Ny Nz i j k) = Ok e /\
      forall c, c < 3 -> entry (mt_sigma M) c i j k = match me_sigma e with Some s => s | None => nzero end.
  Proof.
    unfold build_materials. intros H Hb i j k Hi Hj Hk Hcond. binv H e He.
    rewrite Hb in He. injection He as <-. binv H ie H1. binv H im H2. binv H sg H3.
    destruct (uniform_field_spec Nx Ny Nz (over_ext none_ (me_eps ebg) (e_eps0 env))) as [F1 [E1 [S1 A1]]].
    destruct (uniform_field_spec Nx Ny Nz (over_ext none_ (me_mu ebg) (e_mu0 env))) as [F2 [E2 [S2 A2]]].
    destruct (uniform_field_spec Nx Ny Nz (match me_sigma ebg with Some s => s | None => nzero end)) as [F3 [E3 [S3 A3]]].
    rewrite H1 in E1. rewrite H2 in E2. rewrite H3 in E3.
    injection E1 as <-. injection E2 as <-. injection E3 as <-.
    match type of H with seq_upd _ ?M0 _ = _ => set (m0 := M0) in H end.
    eapply (solids_sigma _ _ _ _ _ solids m0 M bg ebg); try eassumption.
    - repeat split; first [apply S1|apply S2|apply S3].
    - destruct Hcond as [[s [Es Hl]]|Hc]; [left; rewrite Es; exact Hl|right; exact Hc].
    - intros c Hc. cbn. apply A3; assumption.
  Qed.

  Lemma made_values env g g' ar (s : Solver T) : made env g g' ar s ->
    exists M bo, apply_bc g (sbl s) (sbh s) = Ok bo /\
      build_materials env (gNx g) (gNy g) (gNz g) (ar_bg ar) (bo_pml bo) (ar_solids ar) = Ok M /\
      (sbl s, sbh s) = mpi_bc (ar_mpi ar) (ar_bl ar) (ar_bh ar) /\
      simu s = mt_imu M /\ scond s = mt_cond M /\ spml s = bo_pml bo /\ sabc s = bo_abc bo /\
      (spml s = false -> sieps s = mt_ieps M /\ ssigma s = mt_sigma M).
  Proof.
    induction 1 as [s Hg Hc|s o s' Hm IH E].
    - apply construct_spec in Hc; [|apply (grid_obj_ok env); exact Hg].
      destruct Hc as (bo & M & Hbo & Hbc & HM & _ & Hms & _ & _ & _ & _ & _ & _ & _ & E1 & _ & _ & E2 & E3 & E4 & _).
      exists M, bo. repeat (split; [assumption|]).
      intros Hp. rewrite Hp in E4. rewrite <- E4 in Hms. injection Hms as -> ->. auto.
    - destruct (do_op_conf _ s o s' (made_good _ _ _ _ _ Hm) E) as
        (_ & _ & _ & -> & -> & -> & _ & -> & -> & -> & -> & -> & _). exact IH.
  Qed.
End Values.

Section Frozen.
  Context {T : Type} {NT : Num T} {LT : NumLaws T} {OT : NumOrd T}.
  Add Field field_T_frz : (@num_field T NT LT).
  Local Open Scope num_scope.

  Lemma fill_written (K : Kern T) l d i j k : (i < kNx K)%nat -> (j < kNy K)%nat -> (k < kNz K)%nat ->
    fill K l (ix (kNx K) (kNy K) (kNz K) d i j k) = written (kNx K) (kNy K) (kNz K) l d i j k.
  Proof. reflexivity. Qed.

  (** E at an entry with zero column. *)
  Lemma wall_step (K : Kern T) a r : kcol K r = 0 -> te a r = 0 -> tj a r = 0 ->
    te (kstep K a) r = 0 /\ tj (kstep K a) r = 0.
  Proof.
    intros Hc He Hj.
    assert (X : te (kstep K a) r = 0).
    { cbn [kstep te]. unfold kE. rewrite Hc, Hj.
      assert (E : effE K a r = 0) by (unfold effE; destruct (_ && _)%bool; auto). rewrite E. ring. }
    split; [exact X|]. cbn [kstep tj] in *. unfold kJ. destruct (kcond K); [|exact Hj].
    cbn [te kstep] in X. rewrite X. ring.
  Qed.

  Lemma wall_run (K : Kern T) d i j k h : (i < kNx K)%nat -> (j < kNy K)%nat -> (k < kNz K)%nat ->
    let r := ix (kNx K) (kNy K) (kNz K) d i j k in
    kcol K r = 0 -> Forall (writes_zero (kNx K) (kNy K) (kNz K) d i j k) h ->
    forall a, te a r = 0 -> tj a r = 0 -> te (krun K a h) r = 0 /\ tj (krun K a h) r = 0.
  Proof.
    intros Hi Hj Hk r Hc. induction 1 as [|o h Ho Hh IH]; intros a He Hj'; [auto|].
    cbn [krun fold_left]. fold (krun K (kop K a o) h).
    assert (X : te (kop K a o) r = 0 /\ tj (kop K a o) r = 0).
    { destruct o; cbn [kop te tj writes_zero] in *.
      - apply wall_step; assumption.
      - split; [exact Ho|assumption].
      - auto.
      - split; [assumption|exact Ho].
      - auto.
      - exact Ho. }
    destruct X. apply IH; assumption.
  Qed.

  Lemma wall_zero env g g' ar s h s' d i j k :
    made env g g' ar s -> run s h = Ok s' -> in_box (gNx g) (gNy g) (gNz g) d i j k ->
    electric_wall (sbl s) (sbh s) (gNx g) (gNy g) (gNz g) d i j k ->
    Forall (writes_zero (gNx g) (gNy g) (gNz g) d i j k) h ->
    entry (sE s) d i j k = 0 -> entry (sJ s) d i j k = 0 ->
    entry (sE s') d i j k = 0 /\ entry (sJ s') d i j k = 0.
  Proof.
    intros Hm Hr (Hd & Hi & Hj & Hk) Hw Hz HE HJ.
    destruct (made_run_abs _ _ _ _ _ _ _ Hm Hr) as (G & G' & _ & A & _).
    set (K := kern_of g g' s) in *.
    rewrite (entry_ix (sE s') (kNx K) (kNy K) (kNz K)) by apply G'.
    rewrite (entry_ix (sJ s') (kNx K) (kNy K) (kNz K)) by apply G'.
    pose proof (ix_lt (kNx K) (kNy K) (kNz K) d i j k Hd Hi Hj Hk) as Hlt.
    destruct (A _ Hlt) as (X & _ & Y). cbn [abs te tj] in X, Y. rewrite X, Y.
    apply wall_run; try assumption.
    - change (kcol K) with (on_ix (@colv T NT (sbl s) (sbh s) (gNx g) (gNy g) (gNz g)) (gNx g) (gNy g) (gNz g)).
      change (kNx K) with (gNx g). change (kNy K) with (gNy g). change (kNz K) with (gNz g).
      rewrite on_ix_ix by assumption. apply colv_wall. exact Hw.
    - cbn [abs te]. rewrite <- entry_ix by apply G. exact HE.
    - cbn [abs tj]. rewrite <- entry_ix by apply G. exact HJ.
  Qed.

  Lemma all_electric_wall bl bh Nx Ny Nz d i j k :
    (forall a, (a < 3)%nat -> electric (bc_at bl a) /\ electric (bc_at bh a)) ->
    tangential Nx Ny Nz d i j k -> electric_wall bl bh Nx Ny Nz d i j k.
  Proof.
    intros H [a [Ha [Hne Hc]]]. unfold electric_wall, deciding_wall.
    assert (W : forall b acc, (b < 3)%nat -> (acc = None \/ exists s, acc = Some s /\ electric s) ->
      let v := (if (d =? b)%nat then acc else if (coord b i j k =? dim b Nx Ny Nz - 1)%nat then Some (bc_at bh b)
                else if (coord b i j k =? 0)%nat then Some (bc_at bl b) else acc) in
      (v = None \/ exists s, v = Some s /\ electric s) /\ (acc <> None -> v <> None) /\ (b = a -> v <> None)).
    { intros b acc Hb Hacc v. destruct (H b Hb) as [H1 H2]. unfold v.
      destruct (Nat.eqb_spec d b) as [E|E].
      - split; [exact Hacc|]. split; [auto|]. intros ->. congruence.
      - destruct (Nat.eqb_spec (coord b i j k) (dim b Nx Ny Nz - 1)) as [E1|E1].
        + split; [right; eauto|]. split; intros; discriminate.
        + destruct (Nat.eqb_spec (coord b i j k) 0) as [E2|E2].
          * split; [right; eauto|]. split; intros; discriminate.
          * split; [exact Hacc|]. split; [auto|]. intros ->. destruct Hc; contradiction. }
    destruct (W 0%nat None) as (P0 & _ & R0); [lia|left; reflexivity|].
    set (v0 := if (d =? 0)%nat then None else _) in *.
    destruct (W 1%nat v0) as (P1 & Q1 & R1); [lia|exact P0|].
    set (v1 := if (d =? 1)%nat then v0 else _) in *.
    destruct (W 2%nat v1) as (P2 & Q2 & R2); [lia|exact P1|].
    set (v2 := if (d =? 2)%nat then v1 else _) in *.
    destruct P2 as [P2|P2]; [|exact P2]. exfalso.
    assert (a = 0 \/ a = 1 \/ a = 2)%nat as [-> | [-> | ->]] by lia.
    - apply Q2; [apply Q1, R0; reflexivity|exact P2].
    - apply Q2; [apply R1; reflexivity|exact P2].
    - apply R2; [reflexivity|exact P2].
  Qed.

  Lemma one_wall_interior bl bh Nx Ny Nz a d i j k :
    (a < 3)%nat -> (d < 3)%nat -> a <> d ->
    (coord a i j k = 0%nat /\ (1 < dim a Nx Ny Nz)%nat /\ electric (bc_at bl a) \/
     coord a i j k = (dim a Nx Ny Nz - 1)%nat /\ electric (bc_at bh a)) ->
    (forall b, (b < 3)%nat -> b <> a -> b <> d -> (0 < coord b i j k)%nat /\ (S (coord b i j k) < dim b Nx Ny Nz)%nat) ->
    electric_wall bl bh Nx Ny Nz d i j k.
  Proof.
    intros Ha Hd Hne Hw Hin. unfold electric_wall, deciding_wall.
    assert (W : forall b acc, (b < 3)%nat ->
      let v := (if (d =? b)%nat then acc else if (coord b i j k =? dim b Nx Ny Nz - 1)%nat then Some (bc_at bh b)
                else if (coord b i j k =? 0)%nat then Some (bc_at bl b) else acc) in
      (b <> a -> v = acc) /\ (b = a -> exists s, v = Some s /\ electric s)).
    { intros b acc Hb v. unfold v. split.
      - intros Hba. destruct (Nat.eqb_spec d b) as [E|E]; [reflexivity|].
        destruct (Hin b Hb Hba) as [X Y]; [congruence|].
        destruct (Nat.eqb_spec (coord b i j k) (dim b Nx Ny Nz - 1)); [lia|].
        destruct (Nat.eqb_spec (coord b i j k) 0); [lia|reflexivity].
      - intros ->. destruct (Nat.eqb_spec d a); [congruence|].
        destruct (Nat.eqb_spec (coord a i j k) (dim a Nx Ny Nz - 1)) as [X|X].
        + destruct Hw as [[Hc [Hn He]]|[Hc He]]; [lia|]. eauto.
        + destruct Hw as [[Hc [Hn He]]|[Hc He]]; [|contradiction].
          destruct (Nat.eqb_spec (coord a i j k) 0); [|contradiction]. eauto. }
    destruct (W 0%nat None) as (N0 & Y0); [lia|]. set (v0 := if (d =? 0)%nat then None else _) in *.
    destruct (W 1%nat v0) as (N1 & Y1); [lia|]. set (v1 := if (d =? 1)%nat then v0 else _) in *.
    destruct (W 2%nat v1) as (N2 & Y2); [lia|]. set (v2 := if (d =? 2)%nat then v1 else _) in *.
    assert (a = 0 \/ a = 1 \/ a = 2)%nat as [-> | [-> | ->]] by lia.
    - rewrite N2, N1 by lia. apply Y0. reflexivity.
    - rewrite N2 by lia. apply Y1. reflexivity.
    - apply Y2. reflexivity.
  Qed.

  (** E at an entry with zero inverse permittivity. *)
  Lemma dead_run (K : Kern T) d i j k h : (i < kNx K)%nat -> (j < kNy K)%nat -> (k < kNz K)%nat ->
    let r := ix (kNx K) (kNy K) (kNz K) d i j k in
    kieps K r = 0 -> Forall keeps_E h ->
    forall a, (tfresh a = false \/ ghE (kNx K) (kNy K) (kNz K) d i j k = false \/ te a r = 0) ->
      te (krun K a h) r = te a r.
  Proof.
    intros Hi Hj Hk r Hz. induction 1 as [|o h Ho Hh IH]; intros a Ha; [auto|].
    cbn [krun fold_left]. fold (krun K (kop K a o) h).
    destruct o; cbn in Ho; try contradiction; cbn [kop].
    - assert (X : te (kstep K a) r = te a r).
      { cbn [kstep te]. unfold kE. rewrite Hz.
        assert (E : effE K a r = te a r).
        { unfold effE. destruct Ha as [Ha|[Ha|Ha]].
          - rewrite Ha. reflexivity.
          - unfold r. rewrite on_ix_ix by assumption. rewrite Ha, andb_false_r. reflexivity.
          - destruct (_ && _)%bool; auto. }
        rewrite E. ring. }
      rewrite IH; [exact X|]. left. reflexivity.
    - rewrite IH; [reflexivity|exact Ha].
    - rewrite IH; [reflexivity|exact Ha].
  Qed.

  Lemma dead_E env g g' ar s h s' d i j k :
    made env g g' ar s -> run s h = Ok s' -> in_box (gNx g) (gNy g) (gNz g) d i j k ->
    entry (sieps s) d i j k = 0 -> Forall keeps_E h ->
    (sstep0 s = false \/ coord d i j k <> (dim d (gNx g) (gNy g) (gNz g) - 1)%nat \/ entry (sE s) d i j k = 0) ->
    entry (sE s') d i j k = entry (sE s) d i j k.
  Proof.
    intros Hm Hr (Hd & Hi & Hj & Hk) Hz Hh Hf.
    destruct (made_run_abs _ _ _ _ _ _ _ Hm Hr) as (G & G' & _ & A & _).
    destruct (made_sized _ _ _ _ _ Hm) as (Sie & _).
    set (K := kern_of g g' s) in *.
    rewrite (entry_ix (sE s') (kNx K) (kNy K) (kNz K)) by apply G'.
    rewrite (entry_ix (sE s) (kNx K) (kNy K) (kNz K)) in Hf |- * by apply G.
    pose proof (ix_lt (kNx K) (kNy K) (kNz K) d i j k Hd Hi Hj Hk) as Hlt.
    destruct (A _ Hlt) as (X & _ & _). cbn [abs te] in X. rewrite X.
    apply (dead_run K d i j k h Hi Hj Hk).
    - change (kieps K) with (get (farr (sieps s))). rewrite <- entry_ix by exact Sie. exact Hz.
    - exact Hh.
    - destruct Hf as [Hf|[Hf|Hf]]; [left; exact Hf|right; left|right; right; exact Hf].
      unfold ghE. apply Nat.eqb_neq. exact Hf.
  Qed.

  (** H at an entry with zero row. *)
  Lemma rowfrozen_run (K : Kern T) d i j k h : (i < kNx K)%nat -> (j < kNy K)%nat -> (k < kNz K)%nat ->
    let r := ix (kNx K) (kNy K) (kNz K) d i j k in
    krow K r = 0 -> Forall keeps_H h ->
    forall a, (tfresh a = false \/ ghH (kNx K) (kNy K) (kNz K) d i j k = false \/ th a r = 0) ->
      th (krun K a h) r = th a r.
  Proof.
    intros Hi Hj Hk r Hz. induction 1 as [|o h Ho Hh IH]; intros a Ha; [auto|].
    cbn [krun fold_left]. fold (krun K (kop K a o) h).
    destruct o; cbn in Ho; try contradiction; cbn [kop].
    - assert (X : th (kstep K a) r = th a r).
      { cbn [kstep th]. unfold kH. rewrite Hz.
        assert (E : effH K a r = th a r).
        { unfold effH. destruct Ha as [Ha|[Ha|Ha]].
          - rewrite Ha. reflexivity.
          - unfold r. rewrite on_ix_ix by assumption. rewrite Ha, andb_false_r. reflexivity.
          - destruct (_ && _)%bool; auto. }
        rewrite E. ring. }
      rewrite IH; [exact X|]. left. reflexivity.
    - rewrite IH; [reflexivity|exact Ha].
    - rewrite IH; [reflexivity|exact Ha].
  Qed.

  Lemma rowv_all_magnetic bl bh Nx Ny Nz d i j k :
    (forall a, (a < 3)%nat -> (lower (bc_at bl a) = "magnetic" \/ bc_at bl a = "pmc")%string /\
                              (lower (bc_at bh a) = "magnetic" \/ bc_at bh a = "pmc")%string) ->
    tangential Nx Ny Nz d i j k -> rowv bl bh Nx Ny Nz d i j k = (0 : T).
  Proof.
    intros H [a [Ha [Hne Hc]]].
    assert (F : forall b, (b < 3)%nat -> is_pmc_face (bc_at bl b) = true /\ is_pmc_face (bc_at bh b) = true).
    { intros b Hb. destruct (H b Hb) as [[X|X] [Y|Y]]; unfold is_pmc_face; rewrite !orb_true_iff, !named_true, !String.eqb_eq; auto. }
    assert (P : pmc_any bl bh = true).
    { unfold pmc_any, any_bc, axes. cbn [existsb]. destruct (H 0%nat) as [X _]; [lia|].
      assert (E : is_pmc_any (bc_at bl 0) = true).
      { unfold is_pmc_any. rewrite orb_true_iff, !named_true. destruct X as [X|X]; [left; exact X|right; rewrite X; reflexivity]. }
      rewrite E. reflexivity. }
    unfold rowv. rewrite P. unfold maskv, rlo.
    assert (R : forall b : nat, (b < 3)%nat -> (if is_pmc_face (bc_at bl b) then 0 else plo bl b) = (0 : T) /\
       (if is_pmc_face (bc_at bh b) then 0 else plo bh b) = (0 : T))
      by (intros b Hb; destruct (F b Hb) as [-> ->]; auto).
    destruct (R 0%nat) as [-> ->]; [lia|]. destruct (R 1%nat) as [-> ->]; [lia|]. destruct (R 2%nat) as [-> ->]; [lia|].
    assert (a = 0 \/ a = 1 \/ a = 2)%nat as [-> | [-> | ->]] by lia; cbn [coord dim] in Hc.
    - destruct (Nat.eqb_spec d 0); [congruence|].
      assert (X : (if (i =? Nx - 1)%nat then 0 else if (i =? 0)%nat then 0 else 1) = (0 : T)).
      { destruct (Nat.eqb_spec i (Nx - 1)); [reflexivity|]. destruct (Nat.eqb_spec i 0); [reflexivity|]. lia. }
      rewrite X. repeat match goal with |- context [if ?b then _ else _] => destruct b end; reflexivity.
    - destruct (Nat.eqb_spec d 1); [congruence|].
      set (w := if (d =? 0)%nat then 1 else _).
      assert (X : (if (j =? Ny - 1)%nat then 0 else if (j =? 0)%nat then 0 else w) = (0 : T)).
      { destruct (Nat.eqb_spec j (Ny - 1)); [reflexivity|]. destruct (Nat.eqb_spec j 0); [reflexivity|]. lia. }
      rewrite X. repeat match goal with |- context [if ?b then _ else _] => destruct b end; reflexivity.
    - destruct (Nat.eqb_spec d 2); [congruence|].
      destruct (Nat.eqb_spec k (Nz - 1)); [reflexivity|]. destruct (Nat.eqb_spec k 0); [reflexivity|]. lia.
  Qed.

  Lemma magnetic_H env g g' ar s h s' d i j k :
    made env g g' ar s -> run s h = Ok s' -> in_box (gNx g) (gNy g) (gNz g) d i j k ->
    (forall a, (a < 3)%nat -> (lower (bc_at (sbl s) a) = "magnetic" \/ bc_at (sbl s) a = "pmc")%string /\
                              (lower (bc_at (sbh s) a) = "magnetic" \/ bc_at (sbh s) a = "pmc")%string) ->
    tangential (gNx g) (gNy g) (gNz g) d i j k -> Forall keeps_H h ->
    (sstep0 s = false \/
     (forall a, (a < 3)%nat -> a <> d -> coord a i j k <> (dim a (gNx g) (gNy g) (gNz g) - 1)%nat) \/
     entry (sH s) d i j k = 0) ->
    entry (sH s') d i j k = entry (sH s) d i j k.
  Proof.
    intros Hm Hr (Hd & Hi & Hj & Hk) Hb Ht Hh Hf.
    destruct (made_run_abs _ _ _ _ _ _ _ Hm Hr) as (G & G' & _ & A & _).
    set (K := kern_of g g' s) in *.
    rewrite (entry_ix (sH s') (kNx K) (kNy K) (kNz K)) by apply G'.
    rewrite (entry_ix (sH s) (kNx K) (kNy K) (kNz K)) in Hf |- * by apply G.
    pose proof (ix_lt (kNx K) (kNy K) (kNz K) d i j k Hd Hi Hj Hk) as Hlt.
    destruct (A _ Hlt) as (_ & X & _). cbn [abs th] in X. rewrite X.
    apply (rowfrozen_run K d i j k h Hi Hj Hk).
    - change (krow K) with (on_ix (@rowv T NT (sbl s) (sbh s) (gNx g) (gNy g) (gNz g)) (gNx g) (gNy g) (gNz g)).
      change (kNx K) with (gNx g). change (kNy K) with (gNy g). change (kNz K) with (gNz g).
      rewrite on_ix_ix by assumption. apply rowv_all_magnetic; assumption.
    - exact Hh.
    - destruct Hf as [Hf|[Hf|Hf]]; [left; exact Hf|right; left|right; right; exact Hf].
      unfold ghH, axes. cbn [existsb].
      assert (W : forall a, (a < 3)%nat -> (negb (d =? a) && (coord a i j k =? dim a (kNx K) (kNy K) (kNz K) - 1))%nat%bool = false).
      { intros a Ha. destruct (Nat.eqb_spec d a); [reflexivity|]. cbn [negb andb]. apply Nat.eqb_neq. apply Hf; [exact Ha|congruence]. }
      rewrite !W by lia. reflexivity.
  Qed.
End Frozen.
