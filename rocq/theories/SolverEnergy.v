(** Lemmas: charge continuity and the discrete energy. *)
From Coq Require Import List Arith ZArith Bool String Lia Ring Field.
From Verif Require Import Num Vec Index Matrix FieldModel FieldSpec FieldProofs FieldProofs2
  GridModel GridProofs SolverModel SolverPlanes SolverBuild SolverMaterials SolverKern SolverCons SolverSpec
  SolverFlux.
Import ListNotations.

Section Charge.
  Context {T : Type} {NT : Num T} {LT : NumLaws T} {OT : NumOrd T}.
  Add Field field_T_charge : (@num_field T NT LT).
  Local Open Scope num_scope.

  Lemma made_sized env g g' ar (s : Solver T) : made env g g' ar s ->
    let ok F := sized F (gNx g) (gNy g) (gNz g) in
    ok (sieps s) /\ ok (simu s) /\ ok (ssigma s) /\
    ok (gL g) /\ ok (giA g) /\ ok (gtL g') /\ ok (gitA g').
  Proof.
    intros Hm ok.
    assert (A : exists s0, construct env g ar = Ok (s0, g')) by (induction Hm; eauto).
    destruct A as [s0 Hc].
    pose proof (made_grid _ _ _ _ _ Hm) as Hg.
    pose proof (grid_obj_ok env g Hg) as Hok.
    pose proof (grid_obj_ok env g' (go_used env g ar s0 g' Hg Hc)) as Hok'.
    assert (Ed : gNx g' = gNx g /\ gNy g' = gNy g /\ gNz g' = gNz g).
    { apply construct_spec in Hc; [|exact Hok].
      destruct Hc as (bo & M & _ & _ & _ & _ & _ & _ & _ & _ & _ & _ & _ & _ & _ & _ & _ & _ & _ & _ & _ & _ & _ & _ & _ & _ & _ & ->).
      repeat split; reflexivity. }
    destruct Ed as [Ex [Ey Ez]]. destruct Hok as (_ & _ & _ & S1 & S2 & _ & _).
    destruct Hok' as (_ & _ & _ & _ & _ & S3 & S4). rewrite Ex, Ey, Ez in *.
    assert (B : ok (sieps s) /\ ok (simu s) /\ ok (ssigma s)).
    { clear - Hm LT. induction Hm as [s Hg Hc|s o s' Hm IH E].
      - apply construct_spec in Hc; [|apply (grid_obj_ok env); exact Hg].
        destruct Hc as (bo & M & _ & _ & _ & SM & _ & _ & _ & _ & _ & _ & _ & _ & _ & _ & _ & _ & _ & _ & Sa & Sb & Sc & _).
        auto.
      - destruct (do_op_conf _ s o s' (made_good _ _ _ _ _ Hm) E) as (_ & _ & _ & -> & -> & -> & _). exact IH. }
    destruct B as (B1 & B2 & B3). unfold ok. auto 10.
  Qed.

  Lemma not_wall_interior bl bh Nx Ny Nz d i j k :
    (forall a, (a < 3)%nat -> a <> d -> (0 < coord a i j k)%nat /\ (S (coord a i j k) < dim a Nx Ny Nz)%nat) ->
    deciding_wall bl bh Nx Ny Nz d i j k = None.
  Proof.
    intros H. unfold deciding_wall.
    assert (A : forall a acc, (a < 3)%nat ->
      (if (d =? a)%nat then acc else if (coord a i j k =? dim a Nx Ny Nz - 1)%nat then Some (bc_at bh a)
       else if (coord a i j k =? 0)%nat then Some (bc_at bl a) else acc) = acc).
    { intros a acc Ha. destruct (Nat.eqb_spec d a) as [|Hne]; [reflexivity|].
      destruct (H a Ha) as [H1 H2]; [congruence|].
      destruct (Nat.eqb_spec (coord a i j k) (dim a Nx Ny Nz - 1)); [lia|].
      destruct (Nat.eqb_spec (coord a i j k) 0); [lia|reflexivity]. }
    rewrite !A by lia. reflexivity.
  Qed.

  (** One step, in coordinates, for a solver with coefficients K. *)
  Lemma charge_step env g g' ar s s' (eps tA : nat -> nat -> nat -> nat -> T) i j k :
    made env g g' ar s -> one_step s = Ok s' ->
    (0 < i)%nat -> (0 < j)%nat -> (0 < k)%nat ->
    (S i < gNx g)%nat -> (S j < gNy g)%nat -> (S k < gNz g)%nat ->
    (forall d a b c, In (d, a, b, c) (six_edges i j k) ->
       eps d a b c * entry (sieps s) d a b c = 1 /\ tA d a b c * entry (gitA g') d a b c = 1) ->
    out_flux_dual (fun d i j k => eps d i j k * tA d i j k * entry (sE s') d i j k) i j k =
    out_flux_dual (fun d i j k => eps d i j k * tA d i j k * entry (sE s) d i j k) i j k
    - sdt s * out_flux_dual (fun d i j k => tA d i j k * entry (sJ s) d i j k) i j k.
  Proof.
    intros Hm Hs Hi0 Hj0 Hk0 Hi Hj Hk HW.
    pose proof (made_good env g g' ar s Hm) as G.
    destruct (step_good _ s G) as [s2 [Es [G' [_ A]]]]. rewrite Hs in Es. injection Es as <-.
    destruct (made_sized env g g' ar s Hm) as (Sie & Sim & Ssg & SL & SA & StL & StA).
    set (K := kern_of g g' s) in *.
    set (h' := th (kstep K (abs s))).
    assert (R : forall d a b c, In (d, a, b, c) (six_edges i j k) ->
      (d < 3)%nat /\ (a < gNx g)%nat /\ (b < gNy g)%nat /\ (c < gNz g)%nat /\
      ghE (gNx g) (gNy g) (gNz g) d a b c = false /\
      colv (sbl s) (sbh s) (gNx g) (gNy g) (gNz g) d a b c = (1 : T)).
    { intros d a b c Hin. cbn in Hin.
      repeat (destruct Hin as [Hin|Hin]; [injection Hin as <- <- <- <-;
        repeat (split; [lia|]); split;
        [unfold ghE; cbn [coord dim]; apply Nat.eqb_neq; lia
        |apply colv_free; intros [w [Hw _]]; rewrite not_wall_interior in Hw; [discriminate|];
         intros a Ha Hne; destruct a as [|[|[|a]]]; cbn [coord dim]; lia]|]).
      destruct Hin. }
    assert (F : forall d a b c, In (d, a, b, c) (six_edges i j k) ->
      eps d a b c * tA d a b c * entry (sE s') d a b c =
      eps d a b c * tA d a b c * entry (sE s) d a b c
      + sdt s * (curlT_at (gNx g) (gNy g) (kN K) (fun n => krow K n * ktL K n * h' n) d (cell (gNx g) (gNy g) a b c)
                 - tA d a b c * entry (sJ s) d a b c)).
    { intros d a b c Hin. destruct (R d a b c Hin) as (Hd & Ha & Hb & Hc & Hgh & Hcol).
      destruct (HW d a b c Hin) as [He Ht].
      rewrite (entry_ix (sE s') (gNx g) (gNy g) (gNz g)) by exact (gd_E _ _ G').
      pose proof (ix_lt (gNx g) (gNy g) (gNz g) d a b c Hd Ha Hb Hc) as Hlt.
      destruct (A _ Hlt) as [-> _]. cbn [kstep te]. change (kH K (effE K (abs s)) (effH K (abs s))) with h'. unfold kE.
      assert (Ee : effE K (abs s) (ix (gNx g) (gNy g) (gNz g) d a b c) = entry (sE s) d a b c).
      { unfold effE. change (kNx K) with (gNx g). change (kNy K) with (gNy g). change (kNz K) with (gNz g).
        rewrite on_ix_ix by assumption. rewrite Hgh, andb_false_r.
        cbn [abs te]. symmetry. apply entry_ix. exact (gd_E _ _ G). }
      rewrite Ee.
      pose proof (kcurlT_ix K h' d a b c Ha Hb Hc) as Hcu.
      change (kNx K) with (gNx g) in Hcu. change (kNy K) with (gNy g) in Hcu. change (kNz K) with (gNz g) in Hcu.
      rewrite Hcu.
      change (kieps K) with (get (farr (sieps s))). change (kitA K) with (get (farr (gitA g'))).
      change (kdt K) with (sdt s). change (tj (abs s)) with (get (farr (sJ s))).
      change (kcol K) with (on_ix (@colv T NT (sbl s) (sbh s) (gNx g) (gNy g) (gNz g)) (gNx g) (gNy g) (gNz g)).
      rewrite on_ix_ix by assumption. rewrite Hcol.
      rewrite <- (entry_ix (sieps s)) by exact Sie. rewrite <- (entry_ix (gitA g')) by exact StA.
      rewrite <- (entry_ix (sJ s)) by exact (gd_J _ _ G).
      set (c0 := curlT_at _ _ _ _ _ _).
      set (ie := entry (sieps s) d a b c) in *. set (ia := entry (gitA g') d a b c) in *.
      set (e := entry (sE s) d a b c). set (q := entry (sJ s) d a b c).
      transitivity (eps d a b c * tA d a b c * e + sdt s * ((eps d a b c * ie) * (tA d a b c * ia) * c0
         - (eps d a b c * ie) * tA d a b c * q)); [ring|].
      rewrite He, Ht. ring. }
    unfold out_flux_dual.
    rewrite (F 0%nat i j k), (F 0%nat (i - 1)%nat j k), (F 1%nat i j k), (F 1%nat i (j - 1)%nat k),
      (F 2%nat i j k), (F 2%nat i j (k - 1)%nat) by (cbn; tauto).
    set (x := fun n => krow K n * ktL K n * h' n).
    pose proof (div_curlT (gNx g) (gNy g) (kN K) x (cell (gNx g) (gNy g) i j k)) as D.
    replace (cell (gNx g) (gNy g) (i - 1) j k) with (cell (gNx g) (gNy g) i j k - 1)%nat by (unfold cell; lia).
    replace (cell (gNx g) (gNy g) i (j - 1) k) with (cell (gNx g) (gNy g) i j k - gNx g)%nat by (unfold cell; nia).
    replace (cell (gNx g) (gNy g) i j (k - 1)) with (cell (gNx g) (gNy g) i j k - gNx g * gNy g)%nat by (unfold cell; nia).
    set (m := cell (gNx g) (gNy g) i j k) in *.
    assert (Hm' : (1 + gNx g + gNx g * gNy g <= m)%nat) by (unfold m, cell; nia).
    specialize (D Hm').
    match goal with |- ?l = ?r => transitivity (r + sdt s *
      ((curlT_at (gNx g) (gNy g) (kN K) x 0 m - curlT_at (gNx g) (gNy g) (kN K) x 0 (m - 1))
    + (curlT_at (gNx g) (gNy g) (kN K) x 1 m - curlT_at (gNx g) (gNy g) (kN K) x 1 (m - gNx g))
    + (curlT_at (gNx g) (gNy g) (kN K) x 2 m - curlT_at (gNx g) (gNy g) (kN K) x 2 (m - gNx g * gNy g)))); [ring|] end.
    rewrite D. ring.
  Qed.
End Charge.

Section Energy.
  Context {T : Type} {NT : Num T} {LT : NumLaws T} {OT : NumOrd T}.
  Add Field field_T_energy : (@num_field T NT LT).
  Local Open Scope num_scope.

  Lemma sum_mult a b (f : nat -> T) :
    sum (a * b) f = sum b (fun q => sum a (fun p => f (p + a * q)%nat)).
  Proof.
    induction b as [|b IH]; [rewrite Nat.mul_0_r; reflexivity|].
    rewrite Nat.mul_succ_r, sum_split, IH. cbn [sum]. f_equal.
    apply sum_ext. intros p _. f_equal. lia.
  Qed.

  Lemma sum_flat Nx Ny Nz (f : nat -> T) :
    sum (3 * (Nx * Ny * Nz)) f = sum3 Nx Ny Nz (fun d i j k => f (ix Nx Ny Nz d i j k)).
  Proof.
    rewrite Nat.mul_comm, sum_mult. unfold sum3. apply sum_ext. intros d _.
    rewrite sum_mult.
    rewrite (sum_ext Nz _ (fun k => sum Ny (fun j => sum Nx (fun i => f (ix Nx Ny Nz d i j k))))).
    2:{ intros k _. rewrite sum_mult. apply sum_ext. intros j _. apply sum_ext. intros i _.
        f_equal. unfold ix, cell. nia. }
    rewrite sum_swap.
    rewrite (sum_ext Ny _ (fun j => sum Nx (fun i => sum Nz (fun k => f (ix Nx Ny Nz d i j k)))))
      by (intros; apply sum_swap).
    rewrite sum_swap. reflexivity.
  Qed.

  (** Adjointness of the two stencils. *)
  Lemma stencil_adjoint (K : Kern T) (u v : nat -> T) : (0 < kNx K)%nat -> (0 < kNy K)%nat ->
    sum (3 * kN K) (fun r => u r * curl_at (kNx K) (kNy K) (kN K) v (r / kN K) (r mod kN K)) =
    sum (3 * kN K) (fun r => v r * curlT_at (kNx K) (kNy K) (kN K) u (r / kN K) (r mod kN K)).
  Proof.
    intros HX HY.
    rewrite (sum_ext _ _ (fun r => u r * mv (3 * kN K) (curl (kNx K) (kNy K) (kN K)) v r)).
    2:{ intros r Hr. destruct (comp_decode _ _ Hr) as [Hd [Hm E]].
        rewrite <- mv_curl by assumption. rewrite <- E. reflexivity. }
    rewrite mv_adjoint. apply sum_ext. intros r Hr. destruct (comp_decode _ _ Hr) as [Hd [Hm E]].
    rewrite <- mv_curlT by assumption. rewrite <- E. reflexivity.
  Qed.

  Lemma k_adjoint (K : Kern T) (h e : nat -> T) : (0 < kNx K)%nat -> (0 < kNy K)%nat ->
    sum (3 * kN K) (fun r => krow K r * ktL K r * h r * kcurl K e r) =
    sum (3 * kN K) (fun r => kcol K r * kL K r * e r * kcurlT K h r).
  Proof.
    intros HX HY. unfold kcurl, kcurlT.
    exact (stencil_adjoint K (fun n => krow K n * ktL K n * h n) (fun n => kcol K n * kL K n * e n) HX HY).
  Qed.

  Lemma kcurl_add (K : Kern T) (e e' : nat -> T) r :
    kcurl K (fun n => e n + e' n) r = kcurl K e r + kcurl K e' r.
  Proof.
    unfold kcurl, curl_at, Sh, ext, comp.
    destruct (r / kN K)%nat as [|[|d]];
      repeat match goal with |- context [if ?b then _ else _] => destruct b end; ring.
  Qed.

  Definition kenergy (K : Kern T) (wE wH : nat -> T) (e h : nat -> T) : T :=
    sum (3 * kN K) (fun r => wE r * (e r * e r)) +
    sum (3 * kN K) (fun r => wH r * (h r * kH K e h r)).

  (** Edges: either the weight inverts the coefficient, or the edge is dead. *)
  Definition edge_ok (K : Kern T) (wE : nat -> T) (e : nat -> T) (r : nat) : Prop :=
    wE r * (kieps K r * kitA K r) = kL K r \/
    (kieps K r * kitA K r = 0 /\ (kcol K r * kL K r * e r = 0)).
  Definition face_ok (K : Kern T) (wH : nat -> T) (r : nat) : Prop :=
    wH r * (kiA K r * kimu K r) = ktL K r.

  Lemma kenergy_step K wE wH e h j : (0 < kNx K)%nat -> (0 < kNy K)%nat ->
    (forall r, (r < 3 * kN K)%nat -> j r = 0) ->
    (forall r, (r < 3 * kN K)%nat -> edge_ok K wE e r) ->
    (forall r, (r < 3 * kN K)%nat -> face_ok K wH r) ->
    let h' := kH K e h in let e' := kE K e h' j in
    kenergy K wE wH e' h' = kenergy K wE wH e h.
  Proof.
    intros HX HY Hj HE HH h' e'. unfold kenergy. fold h'.
    assert (S1 : sum (3 * kN K) (fun r => wE r * (e' r * e' r)) =
                 sum (3 * kN K) (fun r => wE r * (e r * e r)) +
                 kdt K * sum (3 * kN K) (fun r => kcol K r * kL K r * (e r + e' r) * kcurlT K h' r)).
    { rewrite <- sum_scale, <- sum_add. apply sum_ext. intros r Hr.
      assert (Ee : e' r = e r + kdt K * (kieps K r * kitA K r * (kcol K r * kcurlT K h' r)))
        by (unfold e', kE; rewrite Hj by exact Hr; ring).
      destruct (HE r Hr) as [Hw|[Ha Hz]].
      - rewrite Ee, <- Hw. ring.
      - assert (Ee' : e' r = e r) by (rewrite Ee, Ha; ring). rewrite Ee'.
        transitivity (wE r * (e r * e r) + kdt K * ((kcol K r * kL K r * e r) * (1 + 1) * kcurlT K h' r)); [|ring].
        rewrite Hz. ring. }
    assert (S2 : sum (3 * kN K) (fun r => wH r * (h' r * kH K e' h' r)) =
                 sum (3 * kN K) (fun r => wH r * (h r * h' r)) -
                 kdt K * sum (3 * kN K) (fun r => krow K r * ktL K r * h' r * kcurl K (fun n => e n + e' n) r)).
    { rewrite <- sum_scale, <- sum_sub. apply sum_ext. intros r Hr.
      rewrite kcurl_add. pose proof (HH r Hr) as Hw. unfold face_ok in Hw.
      unfold kH at 1. 
      assert (Eh : h r = h' r + kdt K * (kiA K r * kimu K r * krow K r * kcurl K e r))
        by (unfold h', kH; ring).
      rewrite Eh. rewrite <- Hw. ring. }
    rewrite S1, S2. rewrite (k_adjoint K h' (fun n => e n + e' n) HX HY). ring.
  Qed.
End Energy.

Section EnergyRun.
  Context {T : Type} {NT : Num T} {LT : NumLaws T} {OT : NumOrd T}.
  Add Field field_T_energy2 : (@num_field T NT LT).
  Local Open Scope num_scope.

  Lemma eff_old (K : Kern T) a n : tfresh a = false -> effE K a n = te a n /\ effH K a n = th a n.
  Proof. intros H. unfold effE, effH. rewrite H. auto. Qed.

  Lemma kstep_old (K : Kern T) a : tfresh a = false -> forall n, (n < 3 * kN K)%nat ->
    th (kstep K a) n = kH K (te a) (th a) n /\
    te (kstep K a) n = kE K (te a) (kH K (te a) (th a)) (tj a) n.
  Proof.
    intros H n Hn.
    assert (A : forall m, (m < 3 * kN K)%nat -> kH K (effE K a) (effH K a) m = kH K (te a) (th a) m)
      by (apply kH_ext; intros m _; apply eff_old; exact H).
    split; [apply A; exact Hn|]. cbn [kstep te]. apply kE_ext; [|exact A|reflexivity|exact Hn].
    intros m _. apply eff_old. exact H.
  Qed.

  Lemma kenergy_ext (K : Kern T) wE wH e e' h h' :
    (forall n, (n < 3 * kN K)%nat -> e n = e' n) -> (forall n, (n < 3 * kN K)%nat -> h n = h' n) ->
    kenergy K wE wH e h = kenergy K wE wH e' h'.
  Proof.
    intros He Hh. unfold kenergy. f_equal; apply sum_ext; intros r Hr.
    - rewrite He by exact Hr. reflexivity.
    - rewrite Hh by exact Hr. rewrite (kH_ext K e e' h h' He Hh r Hr). reflexivity.
  Qed.

  Lemma kenergy_iter (K : Kern T) wE wH : (0 < kNx K)%nat -> (0 < kNy K)%nat -> kcond K = false ->
    (forall r, (r < 3 * kN K)%nat -> face_ok K wH r) ->
    forall n a, tfresh a = false -> (forall r, (r < 3 * kN K)%nat -> tj a r = 0) ->
    (forall r, (r < 3 * kN K)%nat -> edge_ok K wE (te a) r) ->
    let b := Nat.iter n (kstep K) a in
    kenergy K wE wH (te b) (th b) = kenergy K wE wH (te a) (th a) /\
    tfresh b = false /\ (forall r, (r < 3 * kN K)%nat -> tj b r = 0) /\
    (forall r, (r < 3 * kN K)%nat -> edge_ok K wE (te b) r).
  Proof.
    intros HX HY Hc HH n. induction n as [|n IH]; intros a Hf Hj HE; [cbn; auto|].
    destruct (IH a Hf Hj HE) as (E & F & J & D). cbn [Nat.iter nat_rect]. cbv zeta.
    set (b := Nat.iter n (kstep K) a) in *. change (nat_rect _ a (fun _ => kstep K) n) with b.
    pose proof (kstep_old K b F) as S.
    split; [|split; [reflexivity|split]].
    - rewrite <- E. rewrite (kenergy_ext K wE wH (te (kstep K b))
        (kE K (te b) (kH K (te b) (th b)) (tj b)) (th (kstep K b)) (kH K (te b) (th b)))
        by (intros m Hm; apply S; exact Hm).
      apply kenergy_step; assumption.
    - intros r Hr. cbn [kstep tj]. unfold kJ. rewrite Hc. apply J. exact Hr.
    - intros r Hr. destruct (D r Hr) as [Hw|[Ha Hz]]; [left; exact Hw|right].
      split; [exact Ha|]. destruct (S r Hr) as [_ Es]. rewrite Es. unfold kE. rewrite J by exact Hr.
      set (c := kcurlT K _ r).
      transitivity (kcol K r * kL K r * te b r + kcol K r * kL K r * (kdt K * ((kieps K r * kitA K r) * kcol K r * c))); [ring|].
      rewrite Hz, Ha. ring.
  Qed.

  Lemma sum3_ext Nx Ny Nz (f f' : nat -> nat -> nat -> nat -> T) :
    (forall d i j k, in_box Nx Ny Nz d i j k -> f d i j k = f' d i j k) ->
    sum3 Nx Ny Nz f = sum3 Nx Ny Nz f'.
  Proof.
    intros H. unfold sum3. apply sum_ext; intros d Hd. apply sum_ext; intros i Hi.
    apply sum_ext; intros j Hj. apply sum_ext; intros k Hk. apply H. repeat split; assumption.
  Qed.

  Lemma energy_flat env g g' ar s s' eps tA mu A : made env g g' ar s -> sstep0 s = false ->
    one_step s = Ok s' ->
    let K := kern_of g g' s in
    energy g g' eps tA mu A s s' =
    kenergy K (fun r => on_ix (fun d i j k => eps d i j k * tA d i j k) (gNx g) (gNy g) (gNz g) r * kL K r)
              (fun r => on_ix (fun d i j k => mu d i j k * A d i j k) (gNx g) (gNy g) (gNz g) r * ktL K r)
              (get (farr (sE s))) (get (farr (sH s))).
  Proof.
    intros Hm H0 Hs K. pose proof (made_good env g g' ar s Hm) as G.
    destruct (made_sized env g g' ar s Hm) as (Sie & Sim & Ssg & SL & SA & StL & StA).
    destruct (step_good _ s G) as [s2 [Es [G' [_ B]]]]. rewrite Hs in Es. injection Es as <-.
    fold K in G, G', B. unfold kenergy, energy.
    change (kN K) with (gNx g * gNy g * gNz g)%nat. rewrite !sum_flat.
    f_equal; apply sum3_ext; intros d i j k (Hd & Hi & Hj & Hk).
    - rewrite on_ix_ix by assumption. change (kL K) with (get (farr (gL g))).
      rewrite <- (entry_ix (gL g)) by exact SL. rewrite <- (entry_ix (sE s)) by exact (gd_E _ _ G). reflexivity.
    - rewrite on_ix_ix by assumption. change (ktL K) with (get (farr (gtL g'))).
      rewrite <- (entry_ix (gtL g')) by exact StL. rewrite <- (entry_ix (sH s)) by exact (gd_H _ _ G).
      pose proof (ix_lt _ _ _ d i j k Hd Hi Hj Hk) as Hlt.
      rewrite (entry_ix (sH s') (gNx g) (gNy g) (gNz g)) by exact (gd_H _ _ G').
      destruct (B _ Hlt) as [_ [-> _]]. destruct (kstep_old K (abs s) H0 _ Hlt) as [-> _]. reflexivity.
  Qed.

  Lemma energy_conserved env g g' ar s n s0 s1 s2 (eps tA mu A : nat -> nat -> nat -> nat -> T) :
    made env g g' ar s -> sstep0 s = false -> scond s = false ->
    (forall d i j k, in_box (gNx g) (gNy g) (gNz g) d i j k -> entry (sJ s) d i j k = 0) ->
    (forall d i j k, in_box (gNx g) (gNy g) (gNz g) d i j k ->
       mu d i j k * entry (simu s) d i j k = 1 /\ A d i j k * entry (giA g) d i j k = 1) ->
    (forall d i j k, in_box (gNx g) (gNy g) (gNz g) d i j k ->
       (eps d i j k * entry (sieps s) d i j k = 1 /\ tA d i j k * entry (gitA g') d i j k = 1) \/
       ((entry (sieps s) d i j k = 0 \/ entry (gitA g') d i j k = 0) /\
        (entry (sE s) d i j k = 0 \/ electric_wall (sbl s) (sbh s) (gNx g) (gNy g) (gNz g) d i j k))) ->
    one_step s = Ok s0 -> steps s n = Ok s1 -> one_step s1 = Ok s2 ->
    energy g g' eps tA mu A s1 s2 = energy g g' eps tA mu A s s0.
  Proof.
    intros Hm H0 Hc HJ HH HE Hs0 Hs1 Hs2.
    pose proof (made_good env g g' ar s Hm) as G.
    destruct (made_sized env g g' ar s Hm) as (Sie & Sim & Ssg & SL & SA & StL & StA).
    destruct (made_run env g g' ar _ s s1 Hm Hs1) as [Hm1 EK].
    destruct (steps_good _ s n G) as [s1' [E1 [G1 [B1 F1]]]]. rewrite Hs1 in E1. injection E1 as <-.
    set (K := kern_of g g' s) in *.
    set (wE := fun r => on_ix (fun d i j k => eps d i j k * tA d i j k) (gNx g) (gNy g) (gNz g) r * kL K r).
    set (wH := fun r => on_ix (fun d i j k => mu d i j k * A d i j k) (gNx g) (gNy g) (gNz g) r * ktL K r).
    assert (FO : forall r, (r < 3 * kN K)%nat -> face_ok K wH r).
    { intros r Hr. destruct (ix_surj _ _ _ _ Hr) as [d [i [j [k [Hd [Hi [Hj [Hk ->]]]]]]]].
      destruct (HH d i j k (conj Hd (conj Hi (conj Hj Hk)))) as [X Y].
      unfold face_ok, wH. change (kNx K) with (gNx g). change (kNy K) with (gNy g). change (kNz K) with (gNz g).
      rewrite on_ix_ix by assumption. change (kiA K) with (get (farr (giA g))). change (kimu K) with (get (farr (simu s))).
      rewrite <- (entry_ix (giA g)) by exact SA. rewrite <- (entry_ix (simu s)) by exact Sim.
      set (t := ktL K _).
      transitivity ((mu d i j k * entry (simu s) d i j k) * (A d i j k * entry (giA g) d i j k) * t); [ring|].
      rewrite X, Y. ring. }
    assert (EO : forall r, (r < 3 * kN K)%nat -> edge_ok K wE (te (abs s)) r).
    { intros r Hr. destruct (ix_surj _ _ _ _ Hr) as [d [i [j [k [Hd [Hi [Hj [Hk ->]]]]]]]].
      unfold edge_ok, wE. change (kNx K) with (gNx g). change (kNy K) with (gNy g). change (kNz K) with (gNz g).
      rewrite on_ix_ix by assumption. change (kieps K) with (get (farr (sieps s))). change (kitA K) with (get (farr (gitA g'))).
      rewrite <- (entry_ix (sieps s)) by exact Sie. rewrite <- (entry_ix (gitA g')) by exact StA.
      set (t := kL K _).
      destruct (HE d i j k (conj Hd (conj Hi (conj Hj Hk)))) as [[X Y]|[X Y]].
      - left. transitivity ((eps d i j k * entry (sieps s) d i j k) * (tA d i j k * entry (gitA g') d i j k) * t); [ring|].
        rewrite X, Y. ring.
      - right. split; [destruct X as [-> | ->]; ring|].
        destruct Y as [Y|Y].
        + cbn [abs te]. rewrite <- (entry_ix (sE s)) by exact (gd_E _ _ G). rewrite Y. ring.
        + change (kcol K) with (on_ix (@colv T NT (sbl s) (sbh s) (gNx g) (gNy g) (gNz g)) (gNx g) (gNy g) (gNz g)).
          rewrite on_ix_ix by assumption. rewrite (colv_wall _ _ _ _ _ _ _ _ _ Y). ring. }
    assert (JO : forall r, (r < 3 * kN K)%nat -> tj (abs s) r = 0).
    { intros r Hr. destruct (ix_surj _ _ _ _ Hr) as [d [i [j [k [Hd [Hi [Hj [Hk ->]]]]]]]].
      cbn [abs tj]. rewrite <- (entry_ix (sJ s)) by exact (gd_J _ _ G). apply HJ. repeat split; assumption. }
    destruct (kenergy_iter K wE wH (gd_px _ _ G) (gd_py _ _ G) Hc FO n (abs s) H0 JO EO) as (EE & EF & _).
    assert (H1 : sstep0 s1 = false) by (change (sstep0 s1) with (tfresh (abs s1)); rewrite F1; exact EF).
    rewrite (energy_flat env g g' ar s s0 eps tA mu A Hm H0 Hs0).
    rewrite (energy_flat env g g' ar s1 s2 eps tA mu A Hm1 H1 Hs2). rewrite EK. fold K. fold wE wH.
    change (get (farr (sE s))) with (te (abs s)). change (get (farr (sH s))) with (th (abs s)).
    rewrite <- EE. apply kenergy_ext; intros r Hr; apply B1; exact Hr.
  Qed.
End EnergyRun.
