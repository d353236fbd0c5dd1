(** Lemmas: the step in coordinates with any mix of walls. *)
From Coq Require Import List Arith ZArith Bool String Lia Ring Field.
From Verif Require Import Num Vec Index Matrix FieldModel FieldSpec FieldProofs FieldProofs2
  GridModel GridProofs SolverModel SolverPlanes SolverBuild SolverMaterials SolverKern SolverCons SolverSpec
  SolverFlux SolverEnergy SolverOps SolverFrozen SolverLocal SolverRestart SolverMaxwell.
Import ListNotations.

(** Some wall is magnetic. *)
Definition some_magnetic (bl bh : bc3) : Prop := exists a, a < 3 /\ (magnetic (bc_at bl a) \/ magnetic (bc_at bh a)).
(** The code holds component [d] of H here: there is a magnetic wall somewhere, and the wall that decides the component is magnetic or electric.
    ("PMC" in other than lower letters is not recognised here.) *)
Definition held (bl bh : bc3) (Nx Ny Nz d i j k : nat) : Prop :=
  some_magnetic bl bh /\ exists s, deciding_wall bl bh Nx Ny Nz d i j k = Some s /\ (lower s = "magnetic"%string \/ s = "pmc"%string \/ electric s).
(** Voltage along the dual edges after a step: none where H is held. *)
Definition hvoltage {T : Type} {NT : Num T} (g g' : Grid T) (s s' : Solver T) (W : nat -> nat -> nat -> nat -> T) : Prop :=
  forall d i j k, in_box (gNx g) (gNy g) (gNz g) d i j k ->
    (held (sbl s) (sbh s) (gNx g) (gNy g) (gNz g) d i j k -> W d i j k = nzero) /\
    (~ held (sbl s) (sbh s) (gNx g) (gNy g) (gNz g) d i j k -> W d i j k = nmul (entry (gtL g') d i j k) (entry (sH s') d i j k)).

Section Mixed.
  Context {T : Type} {NT : Num T} {LT : NumLaws T} {OT : NumOrd T}.
  Add Field field_T_mixed : (@num_field T NT LT).
  Local Open Scope num_scope.

  Lemma some_magnetic_any bl bh : some_magnetic bl bh <-> pmc_any bl bh = true.
  Proof.
    unfold pmc_any, any_bc, axes. cbn [existsb]. rewrite !orb_true_iff, !is_pmc_magnetic. unfold some_magnetic. split.
    - intros (a & Ha & H). destruct a as [|[|[|a]]]; [..|lia]; tauto.
    - intros [[H|[H|[H|H]]]|[H|[H|[H|H]]]]; try discriminate H; [exists 0%nat|exists 1%nat|exists 2%nat|exists 0%nat|exists 1%nat|exists 2%nat]; (split; [lia|]); tauto.
  Qed.
  Definition stops (s : string) : bool := is_pmc_face s || is_pec s.
  Lemma stops_spec s : stops s = true <-> lower s = "magnetic"%string \/ s = "pmc"%string \/ electric s.
  Proof. unfold stops, is_pmc_face. rewrite !orb_true_iff, is_pec_electric. unfold named. rewrite !String.eqb_eq. tauto. Qed.
  Lemma held_b bl bh Nx Ny Nz d i j k : held bl bh Nx Ny Nz d i j k <->
    pmc_any bl bh && match deciding_wall bl bh Nx Ny Nz d i j k with Some s => stops s | None => false end = true.
  Proof.
    unfold held. rewrite andb_true_iff, some_magnetic_any. destruct (deciding_wall bl bh Nx Ny Nz d i j k) as [n|].
    - rewrite stops_spec. split; [intros (A & s & E & H); injection E as <-; auto|intros [A H]; split; [exact A|]; exists n; auto].
    - split; [intros (_ & s & E & _); discriminate E|intros [_ H]; discriminate H].
  Qed.
  Lemma held_dec bl bh Nx Ny Nz d i j k : {held bl bh Nx Ny Nz d i j k} + {~ held bl bh Nx Ny Nz d i j k}.
  Proof.
    destruct (pmc_any bl bh && match deciding_wall bl bh Nx Ny Nz d i j k with Some s => stops s | None => false end) eqn:E.
    - left. apply held_b, E.
    - right. intros H. apply held_b in H. congruence.
  Qed.
  Lemma rowv_b bl bh Nx Ny Nz d i j k : rowv bl bh Nx Ny Nz d i j k =
    if pmc_any bl bh && match deciding_wall bl bh Nx Ny Nz d i j k with Some s => stops s | None => false end then nzero else (none_ : T).
  Proof.
    unfold rowv. destruct (pmc_any bl bh); [cbn [andb]|reflexivity].
    assert (R : forall b a, rlo b a = if stops (bc_at b a) then nzero else (none_ : T)).
    { intros b a. unfold rlo, plo, stops. destruct (is_pmc_face (bc_at b a)); [reflexivity|]. destruct (is_pec (bc_at b a)); reflexivity. }
    unfold deciding_wall, maskv. rewrite !R. cbn [coord dim].
    repeat match goal with |- context [if Nat.eqb ?a ?b then _ else _] => destruct (Nat.eqb a b) end; reflexivity.
  Qed.
  Lemma rowv_held bl bh Nx Ny Nz d i j k : held bl bh Nx Ny Nz d i j k -> rowv bl bh Nx Ny Nz d i j k = (nzero : T).
  Proof. intros H. apply held_b in H. rewrite rowv_b, H. reflexivity. Qed.
  Lemma rowv_free bl bh Nx Ny Nz d i j k : ~ held bl bh Nx Ny Nz d i j k -> rowv bl bh Nx Ny Nz d i j k = (none_ : T).
  Proof. intros H. rewrite rowv_b. match goal with |- (if ?b then _ else _) = _ => destruct b eqn:E end; [exfalso; apply H, held_b, E|reflexivity]. Qed.

  Lemma step_H_any env g g' ar (s s' : Solver T) d i j k : made env g g' ar s -> one_step s = Ok s' ->
    (sstep0 s = false \/ ghosts_zero (gNx g) (gNy g) (gNz g) (entry (sE s)) (entry (sH s))) ->
    ~ held (sbl s) (sbh s) (gNx g) (gNy g) (gNz g) d i j k ->
    in_box (gNx g) (gNy g) (gNz g) d i j k ->
    let K := kern_of g g' s in
    entry (sH s') d i j k = entry (sH s) d i j k -
      sdt s * (entry (giA g) d i j k * entry (simu s) d i j k *
        curl_at (kNx K) (kNy K) (kN K) (fun n => kcol K n * kL K n * effE K (abs s) n) d (cell (kNx K) (kNy K) i j k)).
  Proof.
    intros Hm H1 Hc Hn Hb K. pose proof Hb as (Hd & Hi & Hj & Hk).
    assert (R : run s [OStep] = Ok s') by (unfold run; cbn [seq_upd do_op]; rewrite H1; reflexivity).
    destruct (made_run_abs _ _ _ _ _ _ _ Hm R) as (G & G1 & _ & A & _). fold K in G, G1, A.
    destruct (made_sized _ _ _ _ _ Hm) as (_ & Smu & _ & _ & SA & _).
    pose proof (ix_lt (kNx K) (kNy K) (kNz K) d i j k Hd Hi Hj Hk) as Hlt.
    rewrite (entry_ix (sH s') (kNx K) (kNy K) (kNz K)) by apply G1.
    rewrite (entry_ix (giA g) (kNx K) (kNy K) (kNz K)) by exact SA.
    rewrite (entry_ix (simu s) (kNx K) (kNy K) (kNz K)) by exact Smu.
    destruct (A _ Hlt) as (_ & P & _). cbn [abs th] in P. rewrite P.
    cbn [krun fold_left kop kstep th]. unfold kH. rewrite kcurl_ix by assumption.
    destruct (eff_clean K s G Hc d i j k Hb) as [_ ->].
    assert (E : krow K (ix (kNx K) (kNy K) (kNz K) d i j k) = 1).
    { change (krow K) with (on_ix (@rowv T NT (sbl s) (sbh s) (gNx g) (gNy g) (gNz g)) (gNx g) (gNy g) (gNz g)).
      change (kNx K) with (gNx g). change (kNy K) with (gNy g). change (kNz K) with (gNz g).
      rewrite on_ix_ix by assumption. apply rowv_free. exact Hn. }
    rewrite E. change (kiA K) with (get (farr (giA g))). change (kimu K) with (get (farr (simu s))).
    change (kdt K) with (sdt s). ring.
  Qed.

  Lemma faraday_any env g g' ar (s s' : Solver T) V d i j k : made env g g' ar s -> one_step s = Ok s' ->
    (sstep0 s = false \/ ghosts_zero (gNx g) (gNy g) (gNz g) (entry (sE s)) (entry (sH s))) ->
    ~ held (sbl s) (sbh s) (gNx g) (gNy g) (gNz g) d i j k ->
    voltage g s V -> full_face (gNx g) (gNy g) (gNz g) d i j k ->
    entry (sH s') d i j k = entry (sH s) d i j k -
      sdt s * (entry (giA g) d i j k * entry (simu s) d i j k * around_face V d i j k).
  Proof.
    intros Hm H1 Hc Hn HV [Hb Hf]. rewrite (step_H_any _ _ _ _ _ _ _ _ _ _ Hm H1 Hc Hn Hb).
    set (K := kern_of g g' s). pose proof Hb as (Hd & Hi & Hj & Hk).
    pose proof (Hf 0%nat) as F0. pose proof (Hf 1%nat) as F1. pose proof (Hf 2%nat) as F2. cbn [coord dim] in F0, F1, F2.
    assert (Q : forall c a b e, in_box (gNx g) (gNy g) (gNz g) c a b e ->
      comp (kN K) (fun n => kcol K n * kL K n * effE K (abs s) n) c (cell (kNx K) (kNy K) a b e) = V c a b e).
    { intros. exact (volt_ix env g g' ar s V c a b e Hm HV Hc H). }
    assert (E : curl_at (kNx K) (kNy K) (kN K) (fun n => kcol K n * kL K n * effE K (abs s) n) d
                  (cell (kNx K) (kNy K) i j k) = around_face V d i j k).
    { destruct d as [|[|[|d]]]; [..|lia]; unfold curl_at, Sh; cbn [around_face];
        rewrite <- ?cell_Si, <- ?cell_Sj, <- ?cell_Sk;
        rewrite !ext_in by (apply cell_lt; (exact Hi || exact Hj || exact Hk || (apply F0; lia) || (apply F1; lia) || (apply F2; lia)));
        rewrite !Q by (repeat split; try lia; auto); reflexivity. }
    rewrite E. reflexivity.
  Qed.


  Lemma held_stays env g g' ar (s s' : Solver T) d i j k : made env g g' ar s -> one_step s = Ok s' ->
    (sstep0 s = false \/ ghosts_zero (gNx g) (gNy g) (gNz g) (entry (sE s)) (entry (sH s))) ->
    in_box (gNx g) (gNy g) (gNz g) d i j k -> held (sbl s) (sbh s) (gNx g) (gNy g) (gNz g) d i j k ->
    entry (sH s') d i j k = entry (sH s) d i j k.
  Proof.
    intros Hm H1 Hc Hb Hn. set (K := kern_of g g' s). pose proof Hb as (Hd & Hi & Hj & Hk).
    assert (R : run s [OStep] = Ok s') by (unfold run; cbn [seq_upd do_op]; rewrite H1; reflexivity).
    destruct (made_run_abs _ _ _ _ _ _ _ Hm R) as (G & G1 & _ & A & _). fold K in G, G1, A.
    pose proof (ix_lt (kNx K) (kNy K) (kNz K) d i j k Hd Hi Hj Hk) as Hlt.
    rewrite (entry_ix (sH s') (kNx K) (kNy K) (kNz K)) by apply G1.
    destruct (A _ Hlt) as (_ & P & _). cbn [abs th] in P. rewrite P.
    cbn [krun fold_left kop kstep th]. unfold kH. rewrite kcurl_ix by assumption.
    destruct (eff_clean K s G Hc d i j k Hb) as [_ ->].
    assert (E : krow K (ix (kNx K) (kNy K) (kNz K) d i j k) = 0).
    { change (krow K) with (on_ix (@rowv T NT (sbl s) (sbh s) (gNx g) (gNy g) (gNz g)) (gNx g) (gNy g) (gNz g)).
      change (kNx K) with (gNx g). change (kNy K) with (gNy g). change (kNz K) with (gNz g).
      rewrite on_ix_ix by assumption. apply rowv_held. exact Hn. }
    rewrite E. ring.
  Qed.

  Lemma ampere_any env g g' ar (s s' : Solver T) W d i j k : made env g g' ar s -> one_step s = Ok s' ->
    (sstep0 s = false \/ ghosts_zero (gNx g) (gNy g) (gNz g) (entry (sE s)) (entry (sH s))) ->
    hvoltage g g' s s' W ->
    in_box (gNx g) (gNy g) (gNz g) d i j k ->
    (electric_wall (sbl s) (sbh s) (gNx g) (gNy g) (gNz g) d i j k ->
       entry (sE s') d i j k = entry (sE s) d i j k - sdt s * (entry (sieps s) d i j k * entry (sJ s) d i j k)) /\
    (~ electric_wall (sbl s) (sbh s) (gNx g) (gNy g) (gNz g) d i j k ->
     full_edge (gNx g) (gNy g) (gNz g) d i j k ->
       entry (sE s') d i j k = entry (sE s) d i j k + sdt s *
         (entry (sieps s) d i j k * entry (gitA g') d i j k *
            around_edge W d i j k
          - entry (sieps s) d i j k * entry (sJ s) d i j k)).
  Proof.
    intros Hm H1 Hc Hn Hb. set (K := kern_of g g' s). pose proof Hb as (Hd & Hi & Hj & Hk).
    assert (R : run s [OStep] = Ok s') by (unfold run; cbn [seq_upd do_op]; rewrite H1; reflexivity).
    destruct (made_run_abs _ _ _ _ _ _ _ Hm R) as (G & G1 & _ & A & _). fold K in G, G1, A.
    destruct (made_sized _ _ _ _ _ Hm) as (Sie & _ & _ & _ & _ & StL & SitA).
    pose proof (ix_lt (kNx K) (kNy K) (kNz K) d i j k Hd Hi Hj Hk) as Hlt.
    rewrite (entry_ix (sE s') (kNx K) (kNy K) (kNz K)) by apply G1.
    rewrite (entry_ix (sieps s) (kNx K) (kNy K) (kNz K)) by exact Sie.
    rewrite (entry_ix (gitA g') (kNx K) (kNy K) (kNz K)) by exact SitA.
    rewrite (entry_ix (sJ s) (kNx K) (kNy K) (kNz K)) by apply G.
    destruct (A _ Hlt) as (P & _ & _). cbn [abs te] in P. rewrite P.
    cbn [krun fold_left kop kstep te]. unfold kE. rewrite kcurlT_ix by assumption.
    destruct (eff_clean K s G Hc d i j k Hb) as [-> _]. cbn [abs tj].
    change (kieps K) with (get (farr (sieps s))). change (kitA K) with (get (farr (gitA g'))). change (kdt K) with (sdt s).
    set (cT := curlT_at _ _ _ _ _ _).
    assert (Ec : kcol K (ix (kNx K) (kNy K) (kNz K) d i j k) = colv (sbl s) (sbh s) (gNx g) (gNy g) (gNz g) d i j k).
    { change (kcol K) with (on_ix (@colv T NT (sbl s) (sbh s) (gNx g) (gNy g) (gNz g)) (gNx g) (gNy g) (gNz g)).
      apply on_ix_ix; assumption. }
    rewrite Ec. split.
    - intros We. rewrite colv_wall by exact We. ring.
    - intros We [_ Hf]. rewrite colv_free by exact We.
      pose proof (Hf 0%nat) as F0. pose proof (Hf 1%nat) as F1. pose proof (Hf 2%nat) as F2. cbn [coord] in F0, F1, F2.
      assert (Q : forall c a b e, in_box (gNx g) (gNy g) (gNz g) c a b e ->
        comp (kN K) (fun n => krow K n * ktL K n * kH K (effE K (abs s)) (effH K (abs s)) n) c (cell (kNx K) (kNy K) a b e) = W c a b e).
      { intros c a b e (Hc' & Ha & Hb' & He). unfold comp.
        change (c * kN K + cell (kNx K) (kNy K) a b e)%nat with (ix (kNx K) (kNy K) (kNz K) c a b e).
        destruct (A _ (ix_lt (kNx K) (kNy K) (kNz K) c a b e Hc' Ha Hb' He)) as (_ & P' & _). cbn [abs th] in P'.
        assert (E : krow K (ix (kNx K) (kNy K) (kNz K) c a b e) = rowv (sbl s) (sbh s) (gNx g) (gNy g) (gNz g) c a b e).
        { change (krow K) with (on_ix (@rowv T NT (sbl s) (sbh s) (gNx g) (gNy g) (gNz g)) (gNx g) (gNy g) (gNz g)).
          change (kNx K) with (gNx g). change (kNy K) with (gNy g). change (kNz K) with (gNz g). apply on_ix_ix; assumption. }
        rewrite E. change (ktL K) with (get (farr (gtL g'))).
        destruct (Hn c a b e) as [N1 N2]; [repeat split; assumption|].
        destruct (held_dec (sbl s) (sbh s) (gNx g) (gNy g) (gNz g) c a b e) as [Y|Y].
        - rewrite (N1 Y), rowv_held by exact Y. ring.
        - rewrite (N2 Y), rowv_free by exact Y. rewrite (entry_ix (gtL g') (kNx K) (kNy K) (kNz K)) by exact StL.
          rewrite (entry_ix (sH s') (kNx K) (kNy K) (kNz K)) by apply G1. rewrite P'. cbn [krun fold_left kop kstep th]. ring. }
      assert (E : cT = around_edge W d i j k).
      { unfold cT.
        assert (Ci : (0 < i)%nat -> (1 <= cell (kNx K) (kNy K) i j k)%nat /\ (cell (kNx K) (kNy K) i j k - 1 = cell (kNx K) (kNy K) (i - 1) j k)%nat).
        { intros. unfold cell. lia. }
        assert (Cj : (0 < j)%nat -> (kNx K <= cell (kNx K) (kNy K) i j k)%nat /\ (cell (kNx K) (kNy K) i j k - kNx K = cell (kNx K) (kNy K) i (j - 1) k)%nat).
        { intros. destruct j as [|j']; [lia|]. rewrite cell_Sj. replace (S j' - 1)%nat with j' by lia. lia. }
        assert (Ck : (0 < k)%nat -> (kNx K * kNy K <= cell (kNx K) (kNy K) i j k)%nat /\ (cell (kNx K) (kNy K) i j k - kNx K * kNy K = cell (kNx K) (kNy K) i j (k - 1))%nat).
        { intros. destruct k as [|k']; [lia|]. rewrite cell_Sk. replace (S k' - 1)%nat with k' by lia. lia. }
        unfold curlT_at, ShT.
        destruct d as [|[|[|d]]]; [..|lia]; cbn [around_edge].
        - destruct Cj as [Lj ->]; [apply F1; lia|]. destruct Ck as [Lk ->]; [apply F2; lia|].
          apply Nat.leb_le in Lj, Lk. rewrite Lj, Lk. rewrite !Q by (repeat split; lia). ring.
        - destruct Ci as [Li ->]; [apply F0; lia|]. destruct Ck as [Lk ->]; [apply F2; lia|].
          apply Nat.leb_le in Li, Lk. rewrite Li, Lk. rewrite !Q by (repeat split; lia). ring.
        - destruct Ci as [Li ->]; [apply F0; lia|]. destruct Cj as [Lj ->]; [apply F1; lia|].
          apply Nat.leb_le in Li, Lj. rewrite Li, Lj. rewrite !Q by (repeat split; lia). ring. }
      rewrite E. ring.
  Qed.
End Mixed.
