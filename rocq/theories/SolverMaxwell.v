(** Lemmas: the step in coordinates (Faraday and Ampere laws of the grid). *)
From Coq Require Import List Arith ZArith Bool String Lia Ring Field.
From Verif Require Import Num Vec Index Matrix FieldModel FieldSpec FieldProofs FieldProofs2
  GridModel GridProofs SolverModel SolverPlanes SolverBuild SolverMaterials SolverKern SolverCons SolverSpec
  SolverFlux SolverEnergy SolverOps SolverFrozen SolverLocal SolverRestart.
Import ListNotations.

Section Maxwell.
  Context {T : Type} {NT : Num T} {LT : NumLaws T} {OT : NumOrd T}.
  Add Field field_T_maxwell : (@num_field T NT LT).
  Local Open Scope num_scope.

  Lemma eff_clean (K : Kern T) (s : Solver T) : good K s ->
    (sstep0 s = false \/ ghosts_zero (kNx K) (kNy K) (kNz K) (entry (sE s)) (entry (sH s))) ->
    forall d i j k, in_box (kNx K) (kNy K) (kNz K) d i j k ->
      effE K (abs s) (ix (kNx K) (kNy K) (kNz K) d i j k) = entry (sE s) d i j k /\
      effH K (abs s) (ix (kNx K) (kNy K) (kNz K) d i j k) = entry (sH s) d i j k.
  Proof.
    intros G Hc d i j k (Hd & Hi & Hj & Hk). unfold effE, effH. rewrite !on_ix_ix by assumption.
    cbn [abs te th tfresh].
    rewrite <- (entry_ix (sE s)), <- (entry_ix (sH s)) by apply G.
    destruct Hc as [-> | Hz]; [split; reflexivity|].
    destruct (Hz d i j k) as [Z1 Z2]; [repeat split; assumption|].
    split.
    - destruct (ghE _ _ _ d i j k) eqn:E; [|rewrite andb_false_r; reflexivity].
      apply ghE_true in E. rewrite (Z1 E). destruct (sstep0 s && true); reflexivity.
    - destruct (ghH _ _ _ d i j k) eqn:E; [|rewrite andb_false_r; reflexivity].
      apply ghH_true in E; [|exact Hd]. rewrite (Z2 E). destruct (sstep0 s && true); reflexivity.
  Qed.

  Lemma is_wall_dec bl bh Nx Ny Nz d i j k :
    {electric_wall bl bh Nx Ny Nz d i j k} + {~ electric_wall bl bh Nx Ny Nz d i j k}.
  Proof.
    unfold electric_wall. destruct (deciding_wall bl bh Nx Ny Nz d i j k) as [n|].
    - destruct (is_pec n) eqn:E.
      + left. exists n. split; [reflexivity|]. apply is_pec_electric. exact E.
      + right. intros [m [H He]]. injection H as <-. apply is_pec_electric in He. congruence.
    - right. intros [m [H _]]. discriminate.
  Qed.

  (** The flat voltage array. *)
  Lemma volt_ix env g g' ar (s : Solver T) V d i j k : made env g g' ar s -> voltage g s V ->
    (sstep0 s = false \/ ghosts_zero (gNx g) (gNy g) (gNz g) (entry (sE s)) (entry (sH s))) ->
    in_box (gNx g) (gNy g) (gNz g) d i j k ->
    let K := kern_of g g' s in
    comp (kN K) (fun n => kcol K n * kL K n * effE K (abs s) n) d (cell (kNx K) (kNy K) i j k) = V d i j k.
  Proof.
    intros Hm HV Hc Hb K. pose proof (made_good _ _ _ _ _ Hm) as G. fold K in G.
    destruct (made_sized _ _ _ _ _ Hm) as (_ & _ & _ & SL & _).
    unfold comp. change (d * kN K + cell (kNx K) (kNy K) i j k)%nat with (ix (kNx K) (kNy K) (kNz K) d i j k).
    destruct (eff_clean K s G Hc d i j k Hb) as [-> _].
    destruct (HV d i j k Hb) as [V1 V2]. destruct Hb as (Hd & Hi & Hj & Hk).
    change (kL K) with (get (farr (gL g))). change (kNx K) with (gNx g). change (kNy K) with (gNy g). change (kNz K) with (gNz g).
    rewrite <- entry_ix by exact SL.
    change (kcol K) with (on_ix (@colv T NT (sbl s) (sbh s) (gNx g) (gNy g) (gNz g)) (gNx g) (gNy g) (gNz g)).
    rewrite on_ix_ix by assumption.
    destruct (is_wall_dec (sbl s) (sbh s) (gNx g) (gNy g) (gNz g) d i j k) as [W|W].
    - rewrite V1, colv_wall by exact W. ring.
    - rewrite V2, colv_free by exact W. ring.
  Qed.

  Lemma step_H env g g' ar (s s' : Solver T) d i j k : made env g g' ar s -> one_step s = Ok s' ->
    (sstep0 s = false \/ ghosts_zero (gNx g) (gNy g) (gNz g) (entry (sE s)) (entry (sH s))) ->
    (forall a, (a < 3)%nat -> ~ magnetic (bc_at (sbl s) a) /\ ~ magnetic (bc_at (sbh s) a)) ->
    in_box (gNx g) (gNy g) (gNz g) d i j k ->
    let K := kern_of g g' s in
    entry (sH s') d i j k = entry (sH s) d i j k -
      sdt s * (entry (giA g) d i j k * entry (simu s) d i j k *
        curl_at (kNx K) (kNy K) (kN K) (fun n => kcol K n * kL K n * effE K (abs s) n) d (cell (kNx K) (kNy K) i j k)).
  Proof.
    intros Hm H1 Hc Hn Hb K. pose proof Hb as (Hd & Hi & Hj & Hk).
    assert (R : run s [OStep] = Ok s') by (unfold run; cbn [seq_upd do_op]; rewrite H1; reflexivity).
    destruct (made_run_abs _ _ _ _ _ _ _ Hm R) as (G & G1 & _ & A & _). fold K in G, G1, A.
    destruct (made_sized _ _ _ _ _ Hm) as (_ & Smu & _ & _ & SA & _).
    pose proof (ix_lt (kNx K) (kNy K) (kNz K) d i j k Hd Hi Hj Hk) as Hlt.
    rewrite (entry_ix (sH s') (kNx K) (kNy K) (kNz K)) by apply G1.
    rewrite (entry_ix (giA g) (kNx K) (kNy K) (kNz K)) by exact SA.
    rewrite (entry_ix (simu s) (kNx K) (kNy K) (kNz K)) by exact Smu.
    destruct (A _ Hlt) as (_ & P & _). cbn [abs th] in P. rewrite P.
    cbn [krun fold_left kop kstep th]. unfold kH. rewrite kcurl_ix by assumption.
    destruct (eff_clean K s G Hc d i j k Hb) as [_ ->].
    assert (E : krow K (ix (kNx K) (kNy K) (kNz K) d i j k) = 1).
    { change (krow K) with (on_ix (@rowv T NT (sbl s) (sbh s) (gNx g) (gNy g) (gNz g)) (gNx g) (gNy g) (gNz g)).
      change (kNx K) with (gNx g). change (kNy K) with (gNy g). change (kNz K) with (gNz g).
      rewrite on_ix_ix by assumption. apply rowv_none. exact Hn. }
    rewrite E. change (kiA K) with (get (farr (giA g))). change (kimu K) with (get (farr (simu s))).
    change (kdt K) with (sdt s). ring.
  Qed.

  Lemma faraday env g g' ar (s s' : Solver T) V d i j k : made env g g' ar s -> one_step s = Ok s' ->
    (sstep0 s = false \/ ghosts_zero (gNx g) (gNy g) (gNz g) (entry (sE s)) (entry (sH s))) ->
    (forall a, (a < 3)%nat -> ~ magnetic (bc_at (sbl s) a) /\ ~ magnetic (bc_at (sbh s) a)) ->
    voltage g s V -> full_face (gNx g) (gNy g) (gNz g) d i j k ->
    entry (sH s') d i j k = entry (sH s) d i j k -
      sdt s * (entry (giA g) d i j k * entry (simu s) d i j k * around_face V d i j k).
  Proof.
    intros Hm H1 Hc Hn HV [Hb Hf]. rewrite (step_H _ _ _ _ _ _ _ _ _ _ Hm H1 Hc Hn Hb).
    set (K := kern_of g g' s). pose proof Hb as (Hd & Hi & Hj & Hk).
    pose proof (Hf 0%nat) as F0. pose proof (Hf 1%nat) as F1. pose proof (Hf 2%nat) as F2. cbn [coord dim] in F0, F1, F2.
    assert (Q : forall c a b e, in_box (gNx g) (gNy g) (gNz g) c a b e ->
      comp (kN K) (fun n => kcol K n * kL K n * effE K (abs s) n) c (cell (kNx K) (kNy K) a b e) = V c a b e).
    { intros. exact (volt_ix env g g' ar s V c a b e Hm HV Hc H). }
    assert (E : curl_at (kNx K) (kNy K) (kN K) (fun n => kcol K n * kL K n * effE K (abs s) n) d
                  (cell (kNx K) (kNy K) i j k) = around_face V d i j k).
    { destruct d as [|[|[|d]]]; [..|lia]; unfold curl_at, Sh; cbn [around_face];
        rewrite <- ?cell_Si, <- ?cell_Sj, <- ?cell_Sk;
        rewrite !ext_in by (apply cell_lt; (exact Hi || exact Hj || exact Hk || (apply F0; lia) || (apply F1; lia) || (apply F2; lia)));
        rewrite !Q by (repeat split; try lia; auto); reflexivity. }
    rewrite E. reflexivity.
  Qed.

  (** On the last x layer the x difference reaches the first x layer of the next row. *)
  Lemma wrap_x env g g' ar (s s' : Solver T) V j k : made env g g' ar s -> one_step s = Ok s' ->
    (sstep0 s = false \/ ghosts_zero (gNx g) (gNy g) (gNz g) (entry (sE s)) (entry (sH s))) ->
    (forall a, (a < 3)%nat -> ~ magnetic (bc_at (sbl s) a) /\ ~ magnetic (bc_at (sbh s) a)) ->
    voltage g s V -> (0 < gNx g)%nat -> (S j < gNy g)%nat -> (S k < gNz g)%nat ->
    let i := (gNx g - 1)%nat in
    entry (sH s') 1 i j k = entry (sH s) 1 i j k - sdt s * (entry (giA g) 1 i j k * entry (simu s) 1 i j k *
      ((V 0%nat i j (S k) - V 0%nat i j k) - (V 2%nat 0%nat (S j) k - V 2%nat i j k))) /\
    entry (sH s') 2 i j k = entry (sH s) 2 i j k - sdt s * (entry (giA g) 2 i j k * entry (simu s) 2 i j k *
      ((V 1%nat 0%nat (S j) k - V 1%nat i j k) - (V 0%nat i (S j) k - V 0%nat i j k))).
  Proof.
    intros Hm H1 Hc Hn HV Hi Hj Hk i.
    set (K := kern_of g g' s).
    assert (Q : forall c a b e, in_box (gNx g) (gNy g) (gNz g) c a b e ->
      comp (kN K) (fun n => kcol K n * kL K n * effE K (abs s) n) c (cell (kNx K) (kNy K) a b e) = V c a b e).
    { intros. exact (volt_ix env g g' ar s V c a b e Hm HV Hc H). }
    assert (W : (cell (kNx K) (kNy K) i j k + 1 = cell (kNx K) (kNy K) 0 (S j) k)%nat).
    { change (kNx K) with (gNx g). change (kNy K) with (gNy g). unfold cell, i. lia. }
    split.
    - rewrite (step_H _ _ _ _ _ _ _ _ _ _ Hm H1 Hc Hn) by (unfold i; repeat split; lia). fold K.
      unfold curl_at, Sh. rewrite W, <- cell_Sk.
      rewrite !ext_in by (apply cell_lt; change (kNx K) with (gNx g); change (kNy K) with (gNy g); change (kNz K) with (gNz g); unfold i; lia).
      rewrite !Q by (unfold i; repeat split; lia). reflexivity.
    - rewrite (step_H _ _ _ _ _ _ _ _ _ _ Hm H1 Hc Hn) by (unfold i; repeat split; lia). fold K.
      unfold curl_at, Sh. rewrite W, <- cell_Sj.
      rewrite !ext_in by (apply cell_lt; change (kNx K) with (gNx g); change (kNy K) with (gNy g); change (kNz K) with (gNz g); unfold i; lia).
      rewrite !Q by (unfold i; repeat split; lia). reflexivity.
  Qed.

  Lemma ampere env g g' ar (s s' : Solver T) d i j k : made env g g' ar s -> one_step s = Ok s' ->
    (sstep0 s = false \/ ghosts_zero (gNx g) (gNy g) (gNz g) (entry (sE s)) (entry (sH s))) ->
    (forall a, (a < 3)%nat -> ~ magnetic (bc_at (sbl s) a) /\ ~ magnetic (bc_at (sbh s) a)) ->
    in_box (gNx g) (gNy g) (gNz g) d i j k ->
    (electric_wall (sbl s) (sbh s) (gNx g) (gNy g) (gNz g) d i j k ->
       entry (sE s') d i j k = entry (sE s) d i j k - sdt s * (entry (sieps s) d i j k * entry (sJ s) d i j k)) /\
    (~ electric_wall (sbl s) (sbh s) (gNx g) (gNy g) (gNz g) d i j k ->
     full_edge (gNx g) (gNy g) (gNz g) d i j k ->
       entry (sE s') d i j k = entry (sE s) d i j k + sdt s *
         (entry (sieps s) d i j k * entry (gitA g') d i j k *
            around_edge (fun c a b e => entry (gtL g') c a b e * entry (sH s') c a b e) d i j k
          - entry (sieps s) d i j k * entry (sJ s) d i j k)).
  Proof.
    intros Hm H1 Hc Hn Hb. set (K := kern_of g g' s). pose proof Hb as (Hd & Hi & Hj & Hk).
    assert (R : run s [OStep] = Ok s') by (unfold run; cbn [seq_upd do_op]; rewrite H1; reflexivity).
    destruct (made_run_abs _ _ _ _ _ _ _ Hm R) as (G & G1 & _ & A & _). fold K in G, G1, A.
    destruct (made_sized _ _ _ _ _ Hm) as (Sie & _ & _ & _ & _ & StL & SitA).
    pose proof (ix_lt (kNx K) (kNy K) (kNz K) d i j k Hd Hi Hj Hk) as Hlt.
    rewrite (entry_ix (sE s') (kNx K) (kNy K) (kNz K)) by apply G1.
    rewrite (entry_ix (sieps s) (kNx K) (kNy K) (kNz K)) by exact Sie.
    rewrite (entry_ix (gitA g') (kNx K) (kNy K) (kNz K)) by exact SitA.
    rewrite (entry_ix (sJ s) (kNx K) (kNy K) (kNz K)) by apply G.
    destruct (A _ Hlt) as (P & _ & _). cbn [abs te] in P. rewrite P.
    cbn [krun fold_left kop kstep te]. unfold kE. rewrite kcurlT_ix by assumption.
    destruct (eff_clean K s G Hc d i j k Hb) as [-> _]. cbn [abs tj].
    change (kieps K) with (get (farr (sieps s))). change (kitA K) with (get (farr (gitA g'))). change (kdt K) with (sdt s).
    set (cT := curlT_at _ _ _ _ _ _).
    assert (Ec : kcol K (ix (kNx K) (kNy K) (kNz K) d i j k) = colv (sbl s) (sbh s) (gNx g) (gNy g) (gNz g) d i j k).
    { change (kcol K) with (on_ix (@colv T NT (sbl s) (sbh s) (gNx g) (gNy g) (gNz g)) (gNx g) (gNy g) (gNz g)).
      apply on_ix_ix; assumption. }
    rewrite Ec. split.
    - intros W. rewrite colv_wall by exact W. ring.
    - intros W [_ Hf]. rewrite colv_free by exact W.
      pose proof (Hf 0%nat) as F0. pose proof (Hf 1%nat) as F1. pose proof (Hf 2%nat) as F2. cbn [coord] in F0, F1, F2.
      assert (Q : forall c a b e, in_box (gNx g) (gNy g) (gNz g) c a b e ->
        comp (kN K) (fun n => krow K n * ktL K n * kH K (effE K (abs s)) (effH K (abs s)) n) c (cell (kNx K) (kNy K) a b e) =
        entry (gtL g') c a b e * entry (sH s') c a b e).
      { intros c a b e (Hc' & Ha & Hb' & He). unfold comp.
        change (c * kN K + cell (kNx K) (kNy K) a b e)%nat with (ix (kNx K) (kNy K) (kNz K) c a b e).
        rewrite (entry_ix (sH s') (kNx K) (kNy K) (kNz K)) by apply G1.
        rewrite (entry_ix (gtL g') (kNx K) (kNy K) (kNz K)) by exact StL.
        destruct (A _ (ix_lt (kNx K) (kNy K) (kNz K) c a b e Hc' Ha Hb' He)) as (_ & P' & _). cbn [abs th] in P'. rewrite P'.
        cbn [krun fold_left kop kstep th].
        assert (E : krow K (ix (kNx K) (kNy K) (kNz K) c a b e) = 1).
        { change (krow K) with (on_ix (@rowv T NT (sbl s) (sbh s) (gNx g) (gNy g) (gNz g)) (gNx g) (gNy g) (gNz g)).
          change (kNx K) with (gNx g). change (kNy K) with (gNy g). change (kNz K) with (gNz g).
          rewrite on_ix_ix by assumption. apply rowv_none. exact Hn. }
        rewrite E. change (ktL K) with (get (farr (gtL g'))). ring. }
      assert (E : cT = around_edge (fun c a b e => entry (gtL g') c a b e * entry (sH s') c a b e) d i j k).
      { unfold cT.
        assert (Ci : (0 < i)%nat -> (1 <= cell (kNx K) (kNy K) i j k)%nat /\ (cell (kNx K) (kNy K) i j k - 1 = cell (kNx K) (kNy K) (i - 1) j k)%nat).
        { intros. unfold cell. lia. }
        assert (Cj : (0 < j)%nat -> (kNx K <= cell (kNx K) (kNy K) i j k)%nat /\ (cell (kNx K) (kNy K) i j k - kNx K = cell (kNx K) (kNy K) i (j - 1) k)%nat).
        { intros. destruct j as [|j']; [lia|]. rewrite cell_Sj. replace (S j' - 1)%nat with j' by lia. lia. }
        assert (Ck : (0 < k)%nat -> (kNx K * kNy K <= cell (kNx K) (kNy K) i j k)%nat /\ (cell (kNx K) (kNy K) i j k - kNx K * kNy K = cell (kNx K) (kNy K) i j (k - 1))%nat).
        { intros. destruct k as [|k']; [lia|]. rewrite cell_Sk. replace (S k' - 1)%nat with k' by lia. lia. }
        unfold curlT_at, ShT.
        destruct d as [|[|[|d]]]; [..|lia]; cbn [around_edge].
        - destruct Cj as [Lj ->]; [apply F1; lia|]. destruct Ck as [Lk ->]; [apply F2; lia|].
          apply Nat.leb_le in Lj, Lk. rewrite Lj, Lk. rewrite !Q by (repeat split; lia). ring.
        - destruct Ci as [Li ->]; [apply F0; lia|]. destruct Ck as [Lk ->]; [apply F2; lia|].
          apply Nat.leb_le in Li, Lk. rewrite Li, Lk. rewrite !Q by (repeat split; lia). ring.
        - destruct Ci as [Li ->]; [apply F0; lia|]. destruct Cj as [Lj ->]; [apply F1; lia|].
          apply Nat.leb_le in Li, Lj. rewrite Li, Lj. rewrite !Q by (repeat split; lia). ring. }
      rewrite E. ring.
  Qed.
End Maxwell.
