(** Lemmas: undoing a step, impressed currents, reset, save and load. *)
From Coq Require Import List Arith ZArith Bool String Lia Ring Field.
From Verif Require Import Num Vec Index Matrix FieldModel FieldSpec FieldProofs FieldProofs2
  GridModel GridProofs SolverModel SolverPlanes SolverBuild SolverMaterials SolverKern SolverCons SolverSpec
  SolverFlux SolverEnergy SolverOps SolverFrozen SolverLocal.
Import ListNotations.

Section Restart.
  Context {T : Type} {NT : Num T} {LT : NumLaws T} {OT : NumOrd T}.
  Add Field field_T_res : (@num_field T NT LT).
  Local Open Scope num_scope.

  (** ** Undoing a step *)
  Lemma kstep_undo (K : Kern T) a : tfresh a = false -> forall n,
    te a n = te (kstep K a) n - kdt K * (kieps K n * kitA K n * kcol K n * kcurlT K (th (kstep K a)) n - kieps K n * tj a n) /\
    th a n = th (kstep K a) n + kdt K * (kiA K n * kimu K n * krow K n * kcurl K (te a) n).
  Proof.
    intros F n. cbn [kstep te th]. unfold kE, kH.
    assert (A : effE K a = te a) by (unfold effE; rewrite F; reflexivity).
    assert (B : effH K a = th a) by (unfold effH; rewrite F; reflexivity).
    rewrite A, B. split; ring.
  Qed.

  Lemma good_len K (s : Solver T) : good K s ->
    List.length (toarray (sE s)) = (3 * kN K)%nat /\ List.length (toarray (sH s)) = (3 * kN K)%nat /\
    List.length (toarray (sJ s)) = (3 * kN K)%nat /\ List.length (toarray (sieps s)) = (3 * kN K)%nat.
  Proof. intros G. repeat split; apply sized_len; apply G. Qed.

  Lemma get_undoE K (s : Solver T) e' h' J n : good K s -> List.length e' = (3 * kN K)%nat -> (n < 3 * kN K)%nat ->
    get (undoE s (sdt s) e' h' J) n =
    get e' n - kdt K * (kieps K n * kitA K n * kcol K n * kcurlT K (get h') n - kieps K n * get J n).
  Proof.
    intros G L Hn. destruct (good_len K s G) as (_ & _ & _ & Li). unfold toarray in Li.
    unfold undoE, vsub, vmul, mvec, toarray. rewrite get_vmap2 by lia.
    rewrite get_vscale by (rewrite vmap2_length, tab_length; lia).
    rewrite get_vmap2 by (rewrite tab_length; lia). rewrite get_vmap2 by lia. rewrite get_tab by lia.
    rewrite L, (gd_mE _ _ G), (gd_iev _ _ G), (gd_dt _ _ G) by exact Hn. reflexivity.
  Qed.
  Lemma get_undoH K (s : Solver T) e h' n : good K s -> List.length e = (3 * kN K)%nat ->
    List.length h' = (3 * kN K)%nat -> (n < 3 * kN K)%nat ->
    get (undoH s (sdt s) e h') n = get h' n + kdt K * (kiA K n * kimu K n * krow K n * kcurl K (get e) n).
  Proof.
    intros G L L' Hn. unfold undoH, vadd, mvec. rewrite get_vmap2 by lia.
    rewrite get_vscale by (rewrite tab_length; lia). rewrite get_tab by lia.
    rewrite L, (gd_mH _ _ G), (gd_dt _ _ G) by exact Hn. reflexivity.
  Qed.

  Lemma undo_step env g g' ar s s' : made env g g' ar s -> sstep0 s = false -> one_step s = Ok s' ->
    let E := undoE s (sdt s) (toarray (sE s')) (toarray (sH s')) (toarray (sJ s)) in
    toarray (sE s) = E /\ toarray (sH s) = undoH s (sdt s) E (toarray (sH s')).
  Proof.
    intros Hm H0 Hs. pose proof (made_good _ _ _ _ _ Hm) as G. set (K := kern_of g g' s) in *.
    destruct (step_good K s G) as [s2 [E2 [G' [_ A]]]]. rewrite Hs in E2. injection E2 as <-.
    destruct (good_len K s G) as (L1 & L2 & L3 & L4). destruct (good_len K s' G') as (L1' & L2' & L3' & _).
    pose proof (kstep_undo K (abs s) H0) as U.
    assert (XE : toarray (sE s) = undoE s (sdt s) (toarray (sE s')) (toarray (sH s')) (toarray (sJ s))).
    { apply vec_eq; [unfold undoE, vsub; rewrite vmap2_length; congruence|].
      intros n Hn. rewrite L1 in Hn. rewrite (get_undoE K) by assumption.
      destruct (U n) as [U1 _]. cbn [abs te tj] in U1. unfold toarray. rewrite U1.
      destruct (A n Hn) as [-> _].
      rewrite (kcurlT_ext K (get (farr (sH s'))) (th (kstep K (abs s))) n Hn); [reflexivity|].
      intros m Hmm. apply A. exact Hmm. }
    intros E. split; [exact XE|]. unfold E. rewrite <- XE.
    apply vec_eq; [unfold undoH, vadd; rewrite vmap2_length; congruence|].
    intros n Hn. rewrite L2 in Hn. rewrite (get_undoH K) by assumption.
    destruct (U n) as [_ U2]. cbn [abs te th] in U2. unfold toarray. rewrite U2 at 1.
    destruct (A n Hn) as [_ [-> _]]. reflexivity.
  Qed.

  Lemma write_step env g g' ar s e h : made env g g' ar s ->
    List.length e = (3 * (gNx g * gNy g * gNz g))%nat -> List.length h = (3 * (gNx g * gNy g * gNz g))%nat ->
    exists s1 s2, run s [OWriteE e; OWriteH h] = Ok s1 /\ run s [OWriteE e; OWriteH h; OStep] = Ok s2 /\
      one_step s1 = Ok s2 /\ made env g g' ar s1 /\ toarray (sE s1) = e /\ toarray (sH s1) = h /\ sJ s1 = sJ s /\
      sstep0 s1 = sstep0 s /\ sdt s1 = sdt s /\ smE s1 = smE s /\ smH s1 = smH s /\ sieps s1 = sieps s.
  Proof.
    intros Hm Le Lh. pose proof (made_good _ _ _ _ _ Hm) as G. set (K := kern_of g g' s) in *.
    destruct (good_len K s G) as (L1 & L2 & _).
    assert (Fe : fromarray (sE s) e = Ok (with_arr (sE s) e)).
    { unfold fromarray. unfold toarray in L1. rewrite L1. change (kN K) with (gNx g * gNy g * gNz g)%nat.
      rewrite Le, Nat.eqb_refl. reflexivity. }
    assert (Fh : fromarray (sH s) h = Ok (with_arr (sH s) h)).
    { unfold fromarray. unfold toarray in L2. rewrite L2. change (kN K) with (gNx g * gNy g * gNz g)%nat.
      rewrite Lh, Nat.eqb_refl. reflexivity. }
    set (sa := with_fields s (with_arr (sE s) e) (sH s) (sJ s)).
    set (s1 := with_fields sa (sE sa) (with_arr (sH sa) h) (sJ sa)).
    assert (Ra : do_op s (OWriteE e) = Ok sa) by (cbn [do_op]; rewrite Fe; reflexivity).
    assert (Rb : do_op sa (OWriteH h) = Ok s1).
    { cbn [do_op]. change (sH sa) with (sH s) at 1. rewrite Fh. reflexivity. }
    assert (M1 : made env g g' ar s1).
    { eapply made_op; [eapply made_op; [exact Hm|exact Ra]|exact Rb]. }
    pose proof (made_good _ _ _ _ _ M1) as G1.
    destruct (step_good _ s1 G1) as [s2 [E2 _]].
    exists s1, s2.
    split; [unfold run; cbn [seq_upd]; rewrite Ra; cbn [bind]; rewrite Rb; reflexivity|].
    split; [unfold run; cbn [seq_upd]; rewrite Ra; cbn [bind]; rewrite Rb; cbn [bind do_op]; rewrite E2; reflexivity|].
    split; [exact E2|]. split; [exact M1|]. repeat split; reflexivity.
  Qed.

  Lemma step_bijective env g g' ar s : made env g g' ar s -> sstep0 s = false ->
    forall e' h', List.length e' = (3 * (gNx g * gNy g * gNz g))%nat ->
                  List.length h' = (3 * (gNx g * gNy g * gNz g))%nat ->
    exists e h, List.length e = List.length e' /\ List.length h = List.length h' /\
      (exists s', run s [OWriteE e; OWriteH h; OStep] = Ok s' /\ toarray (sE s') = e' /\ toarray (sH s') = h') /\
      forall e2 h2 s', List.length e2 = List.length e' -> List.length h2 = List.length h' ->
        run s [OWriteE e2; OWriteH h2; OStep] = Ok s' -> toarray (sE s') = e' -> toarray (sH s') = h' ->
        e2 = e /\ h2 = h.
  Proof.
    intros Hm H0 e' h' Le Lh. pose proof (made_good _ _ _ _ _ Hm) as G.
    set (e := undoE s (sdt s) e' h' (toarray (sJ s))). set (h := undoH s (sdt s) e h').
    assert (Lee : List.length e = List.length e') by (unfold e, undoE, vsub; rewrite vmap2_length; reflexivity).
    assert (Lhh : List.length h = List.length h') by (unfold h, undoH, vadd; rewrite vmap2_length; reflexivity).
    exists e, h. split; [exact Lee|]. split; [exact Lhh|]. split.
    - destruct (write_step env g g' ar s e h Hm) as (s1 & s2 & _ & R & S1 & M1 & X1 & X2 & X3 & X4 & _);
        [congruence|congruence|].
      exists s2. split; [exact R|].
      pose proof (made_good _ _ _ _ _ M1) as G1. rewrite (made_same _ _ _ _ _ _ Hm M1) in G1.
      set (K := kern_of g g' s) in *.
      destruct (step_good K s1 G1) as [s3 [E3 [G3 [_ A]]]]. rewrite S1 in E3. injection E3 as <-.
      destruct (good_len K s2 G3) as (L1 & L2 & _).
      change (gNx g * gNy g * gNz g)%nat with (kN K) in Le, Lh.
      assert (F : tfresh (abs s1) = false) by (cbn; congruence).
      assert (EE : effE K (abs s1) = get e) by (unfold effE; rewrite F; cbn [andb abs te]; rewrite <- X1; reflexivity).
      assert (EH : effH K (abs s1) = get h) by (unfold effH; rewrite F; cbn [andb abs th]; rewrite <- X2; reflexivity).
      assert (AH : forall n, (n < 3 * kN K)%nat -> th (kstep K (abs s1)) n = get h' n).
      { intros n Hn. cbn [kstep th]. rewrite EE, EH. unfold kH, h. rewrite (get_undoH K) by (assumption || congruence). ring. }
      split; apply vec_eq; try congruence.
      + intros n Hn. rewrite L1 in Hn. unfold toarray. destruct (A n Hn) as [-> _].
        cbn [kstep te]. rewrite EE. change (kH K (get e) (effH K (abs s1))) with (kH K (get e) (effH K (abs s1))).
        unfold kE. rewrite <- EE. change (kH K (effE K (abs s1)) (effH K (abs s1))) with (th (kstep K (abs s1))).
        rewrite EE, (kcurlT_ext K _ (get h') n Hn AH). unfold e. rewrite (get_undoE K) by assumption.
        cbn [abs tj]. rewrite X3. unfold toarray. ring.
      + intros n Hn. rewrite L2 in Hn. unfold toarray. destruct (A n Hn) as [_ [-> _]]. apply AH. exact Hn.
    - intros e2 h2 s' L2 L3 R <- <-.
      destruct (write_step env g g' ar s e2 h2 Hm) as (s1 & s2 & _ & R' & S1 & M1 & X1 & X2 & X3 & X4 & X5 & X6 & X7 & X8);
        [congruence|congruence|]. rewrite R in R'. injection R' as <-.
      destruct (undo_step _ _ _ _ _ _ M1 (eq_trans X4 H0) S1) as [U1 U2].
      rewrite X1 in U1. rewrite X2 in U2. unfold undoE, undoH in U1, U2. rewrite X3, X5, X6, X8 in U1. rewrite X3, X5, X6, X7, X8 in U2.
      unfold e, h. split; [exact U1|]. unfold undoH, e, undoE. exact U2.
  Qed.

  (** ** Impressed current *)
  Lemma impressed env g g' ar s l s1 s2 : made env g g' ar s ->
    run s [OWriteJ l; OStep] = Ok s1 -> run s [OWriteJ [0]; OStep] = Ok s2 ->
    forall d i j k, in_box (gNx g) (gNy g) (gNz g) d i j k ->
      entry (sE s1) d i j k =
        entry (sE s2) d i j k - sdt s * entry (sieps s) d i j k * written (gNx g) (gNy g) (gNz g) l d i j k /\
      entry (sH s1) d i j k = entry (sH s2) d i j k /\
      entry (sJ s1) d i j k = if scond s then entry (ssigma s) d i j k * entry (sE s1) d i j k
                              else written (gNx g) (gNy g) (gNz g) l d i j k.
  Proof.
    intros Hm R1 R2 d i j k (Hd & Hi & Hj & Hk).
    destruct (made_run_abs _ _ _ _ _ _ _ Hm R1) as (G & G1 & _ & A1 & _).
    destruct (made_run_abs _ _ _ _ _ _ _ Hm R2) as (_ & G2 & _ & A2 & _).
    destruct (made_sized _ _ _ _ _ Hm) as (Sie & _ & Ssg & _).
    set (K := kern_of g g' s) in *.
    pose proof (ix_lt (kNx K) (kNy K) (kNz K) d i j k Hd Hi Hj Hk) as Hlt.
    rewrite (entry_ix (sieps s) (kNx K) (kNy K) (kNz K)) by exact Sie.
    rewrite (entry_ix (ssigma s) (kNx K) (kNy K) (kNz K)) by exact Ssg.
    rewrite !(entry_ix _ (kNx K) (kNy K) (kNz K)) by (apply G1 || apply G2).
    set (r := ix (kNx K) (kNy K) (kNz K) d i j k) in *.
    change (written (gNx g) (gNy g) (gNz g) l d i j k) with (fill K l r).
    change (get (farr (sieps s)) r) with (kieps K r). change (get (farr (ssigma s)) r) with (ksig K r).
    change (sdt s) with (kdt K). change (scond s) with (kcond K).
    destruct (A1 r Hlt) as (P1 & P2 & P3). destruct (A2 r Hlt) as (Q1 & Q2 & _).
    cbn [abs te th tj] in P1, P2, P3, Q1, Q2. rewrite P1, P2, P3, Q1, Q2.
    cbn [krun fold_left kop kstep te th tj].
    assert (Z : fill K [0] r = 0).
    { unfold fill. destruct (Nat.eqb_spec (List.length [0]) (3 * kN K)) as [E|E]; [cbn in E; lia|reflexivity]. }
    unfold kE, kH, effE, effH. cbn [te th tj tfresh]. split; [|split].
    - rewrite Z. ring.
    - reflexivity.
    - unfold kJ. reflexivity.
  Qed.

  (** ** Restart *)
  Lemma ghE_true Nx Ny Nz d i j k : ghE Nx Ny Nz d i j k = true <-> ghost_edge Nx Ny Nz d i j k.
  Proof. unfold ghE, ghost_edge. apply Nat.eqb_eq. Qed.
  Lemma ghH_true Nx Ny Nz d i j k : (d < 3)%nat -> ghH Nx Ny Nz d i j k = true <-> ghost_face Nx Ny Nz d i j k.
  Proof.
    intros Hd. unfold ghH, ghost_face, axes. rewrite existsb_exists. split.
    - intros [a [Ha Hc]]. apply andb_true_iff in Hc. destruct Hc as [H1 H2].
      exists a. split; [cbn in Ha; lia|]. split; [|apply Nat.eqb_eq; exact H2].
      intros ->. rewrite Nat.eqb_refl in H1. discriminate.
    - intros [a [Ha [Hne Hc]]]. exists a. split; [cbn; lia|].
      apply andb_true_iff. split; [|apply Nat.eqb_eq; exact Hc].
      destruct (Nat.eqb_spec d a); [congruence|reflexivity].
  Qed.

  Definition kclean (K : Kern T) (a : St T) : Prop :=
    ghosts_zero (kNx K) (kNy K) (kNz K) (fun d i j k => te a (ix (kNx K) (kNy K) (kNz K) d i j k))
      (fun d i j k => th a (ix (kNx K) (kNy K) (kNz K) d i j k)).

  Lemma kclean_eff K a : kclean K a -> forall n, (n < 3 * kN K)%nat -> effE K a n = te a n /\ effH K a n = th a n.
  Proof.
    intros HC n Hn. destruct (ix_surj _ _ _ _ Hn) as [d [i [j [k [Hd [Hi [Hj [Hk ->]]]]]]]].
    destruct (HC d i j k) as [A B]; [repeat split; assumption|].
    unfold effE, effH. rewrite !on_ix_ix by assumption. split.
    - destruct (tfresh a); [|reflexivity]. cbn [andb].
      destruct (ghE _ _ _ d i j k) eqn:E; [|reflexivity]. apply ghE_true in E. symmetry. apply A, E.
    - destruct (tfresh a); [|reflexivity]. cbn [andb].
      destruct (ghH _ _ _ d i j k) eqn:E; [|reflexivity]. apply (ghH_true _ _ _ d i j k Hd) in E. symmetry. apply B, E.
  Qed.

  Definition st_same (K : Kern T) (a b : St T) : Prop :=
    forall n, (n < 3 * kN K)%nat -> te a n = te b n /\ th a n = th b n /\ tj a n = tj b n.

  Lemma kstep_clean K a b : st_same K a b -> kclean K b -> tfresh a = false ->
    st_eq K (kstep K a) (kstep K b).
  Proof.
    intros S HC F.
    set (b' := {| te := te b; th := th b; tj := tj b; tfresh := false |}).
    assert (E1 : st_eq K a b') by (split; [exact S|exact F]).
    eapply st_eq_trans; [apply kstep_ext; exact E1|].
    assert (Hb' : forall n, effE K b' n = te b n /\ effH K b' n = th b n)
      by (intros n; unfold effE, effH, b'; cbn; auto).
    assert (He : forall n, (n < 3 * kN K)%nat -> effE K b' n = effE K b n)
      by (intros n Hn; destruct (kclean_eff K b HC n Hn) as [-> _]; apply Hb').
    assert (Hh : forall n, (n < 3 * kN K)%nat -> effH K b' n = effH K b n)
      by (intros n Hn; destruct (kclean_eff K b HC n Hn) as [_ ->]; apply Hb').
    pose proof (kH_ext K _ _ _ _ He Hh) as AH.
    pose proof (kE_ext K _ _ _ _ _ _ He AH (fun n _ => eq_refl (tj b n))) as AE.
    split; [|reflexivity]. intros n Hn. cbn [kstep te th tj].
    split; [apply AE; exact Hn|]. split; [apply AH; exact Hn|].
    unfold kJ. change (tj b') with (tj b). rewrite AE by exact Hn. reflexivity.
  Qed.

  Lemma krun_same K h : forall a b, st_same K a b ->
    (tfresh a = tfresh b \/ tfresh a = false /\ kclean K b /\ clean_start (kNx K) (kNy K) (kNz K) h) ->
    st_same K (krun K a h) (krun K b h).
  Proof.
    induction h as [|o h IH]; intros a b S HF; [exact S|].
    destruct HF as [HF|[Fa [HC HS]]].
    - refine (proj1 (krun_ext K (o :: h) a b _)). split; assumption.
    - cbn [krun fold_left].
      destruct o as [|l|l|l| |f]; cbn [kop clean_start] in *.
      + refine (proj1 (krun_ext K h _ _ _)). apply kstep_clean; assumption.
      + destruct HS as [HS1 HS2]. apply IH.
        * intros n Hn. destruct (S n Hn) as (A & B & C). cbn. auto.
        * right. split; [exact Fa|]. split; [|exact HS2]. intros d i j k Hin.
          destruct (HS1 d i j k Hin) as [P _]. destruct (HC d i j k Hin) as [_ Q]. cbn [te th].
          split; [exact P|exact Q].
      + destruct HS as [HS1 HS2]. apply IH.
        * intros n Hn. destruct (S n Hn) as (A & B & C). cbn. auto.
        * right. split; [exact Fa|]. split; [|exact HS2]. intros d i j k Hin.
          destruct (HS1 d i j k Hin) as [_ P]. destruct (HC d i j k Hin) as [Q _]. cbn [te th].
          split; [exact Q|exact P].
      + apply IH.
        * intros n Hn. destruct (S n Hn) as (A & B & C). cbn. auto.
        * right. split; [exact Fa|]. split; [exact HC|exact HS].
      + apply IH.
        * intros n Hn. cbn. auto.
        * right. split; [exact Fa|]. split; [|exact HS]. intros d i j k Hin. cbn [te th]. auto.
      + destruct HS as [HS1 HS2]. apply IH.
        * intros n Hn. cbn. auto.
        * right. split; [exact Fa|]. split; [|exact HS2]. intros d i j k Hin.
          destruct (HS1 d i j k Hin) as [P Q]. cbn [te th]. split; [exact P|exact Q].
  Qed.

  Lemma same_fields_abs K (s t : Solver T) : good K s -> good K t ->
    (same_fields s t <-> st_same K (abs s) (abs t)).
  Proof.
    intros G G'. split.
    - intros (A & B & C) n Hn. cbn [abs te th tj]. rewrite A, B, C. auto.
    - intros H. repeat split; (apply (field_eq (kNx K) (kNy K) (kNz K)); [apply G|apply G'|]);
        intros n Hn; apply (H n Hn).
  Qed.

  (** Two solvers made by the same call that hold the same fields run alike. *)
  Lemma same_run env g g' ar s t h s' : made env g g' ar s -> made env g g' ar t -> same_fields s t ->
    (sstep0 s = sstep0 t \/
     sstep0 s = false /\ ghosts_zero (gNx g) (gNy g) (gNz g) (entry (sE t)) (entry (sH t)) /\
     clean_start (gNx g) (gNy g) (gNz g) h) ->
    run s h = Ok s' -> exists t', run t h = Ok t' /\ same_fields s' t'.
  Proof.
    intros Ms Mt HS HF R.
    destruct (made_run_abs _ _ _ _ _ _ _ Ms R) as (G & G' & O & A).
    pose proof (made_good _ _ _ _ _ Mt) as Gt. rewrite (made_same _ _ _ _ _ _ Ms Mt) in Gt.
    set (K := kern_of g g' s) in *.
    destruct (run_good K h t Gt O) as [t' [Rt [Gt' At]]].
    exists t'. split; [exact Rt|]. apply (same_fields_abs K); [exact G'|exact Gt'|].
    assert (X : st_same K (krun K (abs s) h) (krun K (abs t) h)).
    { apply krun_same; [apply same_fields_abs; assumption|].
      destruct HF as [HF|(F1 & F2 & F3)]; [left; exact HF|right]. split; [exact F1|]. split; [|exact F3].
      intros d i j k Hin. destruct (F2 d i j k Hin) as [P Q]. cbn [abs te th].
      rewrite !(entry_ix _ (kNx K) (kNy K) (kNz K)) in P by apply Gt.
      rewrite !(entry_ix _ (kNx K) (kNy K) (kNz K)) in Q by apply Gt. auto. }
    intros n Hn. destruct A as [A _], At as [At _]. destruct (A n Hn) as (-> & -> & ->).
    destruct (At n Hn) as (-> & -> & ->). apply X. exact Hn.
  Qed.

  Lemma load_saved env g g' ar s t : made env g g' ar s -> made env g g' ar t ->
    exists t', load_state t (save_state s) = Ok t' /\ made env g g' ar t' /\ same_fields s t' /\ sstep0 t' = sstep0 t.
  Proof.
    intros Ms Mt. pose proof (made_good _ _ _ _ _ Ms) as G. pose proof (made_good _ _ _ _ _ Mt) as Gt.
    rewrite (made_same _ _ _ _ _ _ Ms Mt) in Gt. set (K := kern_of g g' s) in *.
    assert (O : op_ok K (OLoad (save_state s))).
    { destruct (good_len K s G) as (L1 & L2 & L3 & _). cbn. unfold arr_ok. auto. }
    destruct (do_op_good K t _ Gt O) as [t' [R [G' [A F]]]].
    exists t'. split; [exact R|]. split; [eapply made_op; [exact Mt|exact R]|]. split; [|exact F].
    apply (same_fields_abs K); [exact G|exact G'|]. intros n Hn. destruct (A n Hn) as (-> & -> & ->).
    destruct (good_len K s G) as (L1 & L2 & L3 & _).
    cbn [kop te th tj]. unfold fill, save_state. cbn [stE stH stJ]. rewrite L1, L2, L3, Nat.eqb_refl. auto.
  Qed.

  Lemma resume env g g' ar s t h s' : made env g g' ar s -> made env g g' ar t ->
    (sstep0 s = sstep0 t \/
     sstep0 s = false /\ ghosts_zero (gNx g) (gNy g) (gNz g) (entry (sE s)) (entry (sH s)) /\
     clean_start (gNx g) (gNy g) (gNz g) h) ->
    run s h = Ok s' ->
    exists t1 t', load_state t (save_state s) = Ok t1 /\ same_fields s t1 /\
      run t1 h = Ok t' /\ same_fields s' t'.
  Proof.
    intros Ms Mt HF R. destruct (load_saved _ _ _ _ s t Ms Mt) as (t1 & L & M1 & S & F).
    destruct (same_run _ _ _ _ s t1 h s' Ms M1 S) as (t' & R' & S').
    - destruct HF as [HF|(F1 & F2 & F3)]; [left; congruence|right]. split; [exact F1|]. split; [|exact F3].
      destruct S as (<- & <- & _). exact F2.
    - exact R.
    - exists t1, t'. auto.
  Qed.

  Lemma reset_zero env g g' ar s : made env g g' ar s ->
    exists s1, reset_fields s = Ok s1 /\ made env g g' ar s1 /\ sstep0 s1 = sstep0 s /\
      (forall s0, construct env g ar = Ok (s0, g') -> same_fields s1 s0).
  Proof.
    intros Hm. pose proof (made_good _ _ _ _ _ Hm) as G. set (K := kern_of g g' s) in *.
    destruct (do_op_good K s OReset G I) as [s1 [R [G1 [A F]]]].
    exists s1. split; [exact R|]. split; [eapply made_op; [exact Hm|exact R]|]. split; [exact F|].
    intros s0 Hc. pose proof (made_grid _ _ _ _ _ Hm) as Hg.
    destruct (construct_new env g ar s0 g' Hg Hc) as (X1 & X2 & X3 & _).
    assert (M0 : made env g g' ar s0) by (constructor; assumption).
    pose proof (made_good _ _ _ _ _ M0) as G0. rewrite (made_same _ _ _ _ _ _ Hm M0) in G0. fold K in G0.
    apply (same_fields_abs K); [exact G1|exact G0|]. intros n Hn. destruct (A n Hn) as (-> & -> & ->).
    cbn [kop abs te th tj]. rewrite X1, X2, X3.
    assert (Z : get (farr (field_zeros (gNx g) (gNy g) (gNz g))) n = 0).
    { unfold field_zeros. cbn [farr]. rewrite get_tab; [reflexivity|].
      change (kN K) with (gNx g * gNy g * gNz g)%nat in Hn. lia. }
    rewrite Z. auto.
  Qed.

  Lemma reset_fresh env g g' ar s s0 h t0 : made env g g' ar s -> construct env g ar = Ok (s0, g') ->
    (sstep0 s = true \/ clean_start (gNx g) (gNy g) (gNz g) h) ->
    run s0 h = Ok t0 -> exists t, run s (OReset :: h) = Ok t /\ same_fields t t0.
  Proof.
    intros Hm Hc HF R. destruct (reset_zero _ _ _ _ _ Hm) as (s1 & R1 & M1 & F1 & S).
    pose proof (made_grid _ _ _ _ _ Hm) as Hg.
    assert (M0 : made env g g' ar s0) by (constructor; assumption).
    destruct (construct_new env g ar s0 g' Hg Hc) as (X1 & X2 & X3 & X4).
    pose proof (S s0 Hc) as SS.
    pose proof (made_good _ _ _ _ _ M0) as G0. pose proof (made_good _ _ _ _ _ M1) as G1.
    rewrite (made_same _ _ _ _ _ _ M0 M1) in G1. set (K := kern_of g g' s0) in *.
    destruct (run_inv K h s0 t0 G0 R) as (O & Gt0 & _).
    destruct (run_good K h s1 G1 O) as [t [Rt _]].
    exists t. split; [unfold run; cbn [seq_upd do_op]; rewrite R1; cbn [bind]; exact Rt|].
    destruct (same_run _ _ _ _ s1 s0 h t M1 M0 SS) as (t' & R' & S').
    - destruct (sstep0 s) eqn:E0; [left; congruence|]. destruct HF as [HF|HF]; [discriminate|].
      right. split; [exact F1|]. split; [|exact HF].
      assert (Z : forall d i j k, in_box (gNx g) (gNy g) (gNz g) d i j k ->
        entry (field_zeros (gNx g) (gNy g) (gNz g)) d i j k = 0).
      { intros d i j k (Hd & Hi & Hj & Hk). rewrite (entry_ix _ (gNx g) (gNy g) (gNz g)) by apply sized_zeros.
        unfold field_zeros. cbn [farr]. pose proof (ix_lt (gNx g) (gNy g) (gNz g) d i j k Hd Hi Hj Hk).
        rewrite get_tab; [reflexivity|lia]. }
      rewrite X1, X2. intros d i j k Hin. split; intros _; apply Z; exact Hin.
    - exact Rt.
    - rewrite R in R'. injection R' as <-. exact S'.
  Qed.

  (** ** The same in an electric box, whatever the ghost entries hold *)
  Lemma same_inside_abs K (s t : Solver T) : good K s -> good K t ->
    (same_inside (kNx K) (kNy K) (kNz K) s t <-> in_agree K (abs s) (abs t)).
  Proof.
    intros G G'. unfold same_inside, in_agree.
    assert (N1 : forall d i j k, ghE (kNx K) (kNy K) (kNz K) d i j k = false <-> ~ ghost_edge (kNx K) (kNy K) (kNz K) d i j k).
    { intros d i j k. rewrite <- ghE_true. destruct (ghE _ _ _ d i j k); split; congruence. }
    assert (N2 : forall d i j k, (d < 3)%nat -> ghH (kNx K) (kNy K) (kNz K) d i j k = false <-> ~ ghost_face (kNx K) (kNy K) (kNz K) d i j k).
    { intros d i j k Hd. rewrite <- ghH_true by exact Hd. destruct (ghH _ _ _ d i j k); split; congruence. }
    split; intros H d i j k Hin; pose proof Hin as (Hd & _); destruct (H d i j k Hin) as [A B]; cbn [abs te th tj] in *.
    - split; intros Q.
      + apply N1 in Q. destruct (A Q) as [P1 P2].
        rewrite <- !(entry_ix _ (kNx K) (kNy K) (kNz K)) by (apply G || apply G'). auto.
      + apply N2 in Q; [|exact Hd]. rewrite <- !(entry_ix _ (kNx K) (kNy K) (kNz K)) by (apply G || apply G'). auto.
    - split; intros Q.
      + apply N1 in Q. destruct (A Q) as [P1 P2].
        rewrite !(entry_ix _ (kNx K) (kNy K) (kNz K)) by (apply G || apply G'). auto.
      + apply (N2 d i j k Hd) in Q. rewrite !(entry_ix _ (kNx K) (kNy K) (kNz K)) by (apply G || apply G'). auto.
  Qed.

  Lemma box_run env g g' ar s t h s' : made env g g' ar s -> made env g g' ar t ->
    (forall a, (a < 3)%nat -> electric (bc_at (sbl s) a) /\ electric (bc_at (sbh s) a)) ->
    same_inside (gNx g) (gNy g) (gNz g) s t -> run s h = Ok s' ->
    exists t', run t h = Ok t' /\ same_inside (gNx g) (gNy g) (gNz g) s' t'.
  Proof.
    intros Ms Mt He HS R. pose proof (made_boxed _ _ _ _ _ Ms He) as HB.
    destruct (made_run_abs _ _ _ _ _ _ _ Ms R) as (G & G' & O & A).
    pose proof (made_good _ _ _ _ _ Mt) as Gt. rewrite (made_same _ _ _ _ _ _ Ms Mt) in Gt.
    set (K := kern_of g g' s) in *.
    destruct (run_good K h t Gt O) as [t' [Rt [Gt' At]]].
    exists t'. split; [exact Rt|]. apply (same_inside_abs K); [exact G'|exact Gt'|].
    assert (X : in_agree K (krun K (abs s) h) (krun K (abs t) h)).
    { apply krun_in; [exact HB|]. apply same_inside_abs; assumption. }
    intros d i j k Hin. pose proof Hin as (Hd & Hi & Hj & Hk).
    pose proof (ix_lt (kNx K) (kNy K) (kNz K) d i j k Hd Hi Hj Hk) as Hlt.
    destruct A as [A _], At as [At _]. destruct (A _ Hlt) as (P1 & P2 & P3). destruct (At _ Hlt) as (Q1 & Q2 & Q3).
    intros r. unfold r. rewrite P1, P2, P3, Q1, Q2, Q3. apply X. exact Hin.
  Qed.

  Lemma same_fields_inside Nx Ny Nz (s t : Solver T) : same_fields s t -> same_inside Nx Ny Nz s t.
  Proof. intros (A & B & C) d i j k _. rewrite A, B, C. auto. Qed.

  Lemma box_resume env g g' ar s t h s' : made env g g' ar s -> made env g g' ar t ->
    (forall a, (a < 3)%nat -> electric (bc_at (sbl s) a) /\ electric (bc_at (sbh s) a)) ->
    run s h = Ok s' ->
    exists t1 t', load_state t (save_state s) = Ok t1 /\ run t1 h = Ok t' /\
      same_inside (gNx g) (gNy g) (gNz g) s' t'.
  Proof.
    intros Ms Mt He R. destruct (load_saved _ _ _ _ s t Ms Mt) as (t1 & L & M1 & S & F).
    destruct (box_run _ _ _ _ s t1 h s' Ms M1 He (same_fields_inside _ _ _ _ _ S) R) as (t' & R' & S').
    exists t1, t'. auto.
  Qed.

  Lemma box_reset env g g' ar s s0 h t0 : made env g g' ar s -> construct env g ar = Ok (s0, g') ->
    (forall a, (a < 3)%nat -> electric (bc_at (sbl s) a) /\ electric (bc_at (sbh s) a)) ->
    run s0 h = Ok t0 -> exists t, run s (OReset :: h) = Ok t /\ same_inside (gNx g) (gNy g) (gNz g) t0 t.
  Proof.
    intros Hm Hc He R. destruct (reset_zero _ _ _ _ _ Hm) as (s1 & R1 & M1 & F1 & S).
    pose proof (made_grid _ _ _ _ _ Hm) as Hg.
    assert (M0 : made env g g' ar s0) by (constructor; assumption).
    assert (He0 : forall a, (a < 3)%nat -> electric (bc_at (sbl s0) a) /\ electric (bc_at (sbh s0) a)).
    { pose proof (made_values _ _ _ _ _ Hm) as (_ & _ & _ & _ & B & _).
      pose proof (made_values _ _ _ _ _ M0) as (_ & _ & _ & _ & B0 & _). rewrite <- B in B0. injection B0 as -> ->. exact He. }
    assert (SS : same_inside (gNx g) (gNy g) (gNz g) s0 s1).
    { apply same_fields_inside. destruct (S s0 Hc) as (X & Y & Z). repeat split; congruence. }
    destruct (box_run _ _ _ _ s0 s1 h t0 M0 M1 He0 SS R) as (t & R' & S').
    exists t. split; [unfold run; cbn [seq_upd do_op]; rewrite R1; cbn [bind]; exact R'|exact S'].
  Qed.
End Restart.
