(** Lemmas: conservation laws of the update. *)
From Coq Require Import List Arith ZArith Bool String Lia Ring Field.
From Verif Require Import Num Vec Index Matrix FieldModel FieldSpec FieldProofs FieldProofs2
  GridModel GridProofs SolverModel SolverPlanes SolverBuild SolverMaterials SolverKern SolverCons SolverSpec.
Import ListNotations.

Section Masks.
  Context {T : Type} {NT : Num T}.
  Lemma named_true s n : named s n = true <-> lower s = n.
  Proof. unfold named. apply String.eqb_eq. Qed.
  Lemma named_false s n : named s n = false <-> lower s <> n.
  Proof. unfold named. apply String.eqb_neq. Qed.
  Lemma is_pec_electric s : is_pec s = true <-> electric s.
  Proof.
    unfold is_pec, electric. rewrite !orb_true_iff, !named_true. tauto.
  Qed.
  Lemma is_pmc_magnetic s : is_pmc_any s = true <-> magnetic s.
  Proof. unfold is_pmc_any, magnetic. rewrite !orb_true_iff, !named_true. tauto. Qed.

  Lemma colv_wall bl bh Nx Ny Nz d i j k :
    electric_wall bl bh Nx Ny Nz d i j k -> colv bl bh Nx Ny Nz d i j k = (nzero : T).
  Proof.
    intros [s [H He]]. apply is_pec_electric in He. revert H.
    unfold deciding_wall, colv, maskv, plo. cbn [coord dim bc_at].
    repeat match goal with |- context [if ?a =? ?b then _ else _] => destruct (a =? b) end;
      intros H; try discriminate; injection H as H; rewrite H, He; reflexivity.
  Qed.
  Lemma colv_free bl bh Nx Ny Nz d i j k :
    ~ electric_wall bl bh Nx Ny Nz d i j k -> colv bl bh Nx Ny Nz d i j k = (none_ : T).
  Proof.
    intros Hn.
    assert (A : forall s, deciding_wall bl bh Nx Ny Nz d i j k = Some s -> is_pec s = false).
    { intros s Hs. destruct (is_pec s) eqn:E; [|reflexivity]. exfalso. apply Hn.
      exists s. split; [exact Hs|]. apply is_pec_electric. exact E. }
    clear Hn. revert A. unfold deciding_wall, colv, maskv, plo. cbn [coord dim bc_at].
    repeat match goal with |- context [if ?a =? ?b then _ else _] => destruct (a =? b) end;
      intros A; try reflexivity; rewrite (A _ eq_refl); reflexivity.
  Qed.
  Lemma rowv_none bl bh Nx Ny Nz d i j k :
    (forall a, a < 3 -> ~ magnetic (bc_at bl a) /\ ~ magnetic (bc_at bh a)) ->
    rowv bl bh Nx Ny Nz d i j k = (none_ : T).
  Proof.
    intros H. unfold rowv, pmc_any.
    assert (A : forall b, (forall a, a < 3 -> ~ magnetic (bc_at b a)) -> any_bc is_pmc_any b = false).
    { intros b Hb. unfold any_bc, axes. cbn [existsb].
      repeat match goal with |- context [is_pmc_any ?x] =>
        let E := fresh in destruct (is_pmc_any x) eqn:E;
        [apply is_pmc_magnetic in E; exfalso; revert E; apply Hb; lia|] end. reflexivity. }
    rewrite !A; [reflexivity|intros a Ha; apply H; exact Ha..].
  Qed.
End Masks.

Section Flux.
  Context {T : Type} {NT : Num T} {LT : NumLaws T} {OT : NumOrd T}.
  Add Field field_T_flux : (@num_field T NT LT).
  Local Open Scope num_scope.

  Lemma ext_in N (x : nat -> T) m : (m < N)%nat -> ext N x m = x m.
  Proof. intros H. unfold ext. destruct (Nat.ltb_spec m N); [reflexivity|lia]. Qed.

  Lemma div_curl Nx Ny N (x : nat -> T) m :
    (m + 1 < N)%nat -> (m + Nx < N)%nat -> (m + Nx * Ny < N)%nat ->
    (curl_at Nx Ny N x 0 (m + 1) - curl_at Nx Ny N x 0 m)
    + (curl_at Nx Ny N x 1 (m + Nx) - curl_at Nx Ny N x 1 m)
    + (curl_at Nx Ny N x 2 (m + Nx * Ny) - curl_at Nx Ny N x 2 m) = 0.
  Proof.
    intros H1 H2 H3. unfold curl_at, Sh.
    replace (m + Nx + 1)%nat with (m + 1 + Nx)%nat by lia.
    replace (m + Nx * Ny + 1)%nat with (m + 1 + Nx * Ny)%nat by lia.
    replace (m + Nx * Ny + Nx)%nat with (m + Nx + Nx * Ny)%nat by lia.
    rewrite !(ext_in N _ (m + 1)), !(ext_in N _ (m + Nx)), !(ext_in N _ (m + Nx * Ny)) by assumption.
    ring.
  Qed.

  Lemma div_curlT Nx Ny N (x : nat -> T) m :
    (1 + Nx + Nx * Ny <= m)%nat ->
    (curlT_at Nx Ny N x 0 m - curlT_at Nx Ny N x 0 (m - 1))
    + (curlT_at Nx Ny N x 1 m - curlT_at Nx Ny N x 1 (m - Nx))
    + (curlT_at Nx Ny N x 2 m - curlT_at Nx Ny N x 2 (m - Nx * Ny)) = 0.
  Proof.
    intros H. unfold curlT_at, ShT.
    repeat match goal with |- context [(?a <=? ?b)%nat] =>
      replace (a <=? b)%nat with true by (symmetry; apply Nat.leb_le; lia) end.
    replace (m - Nx - 1)%nat with (m - 1 - Nx)%nat by lia.
    replace (m - Nx * Ny - 1)%nat with (m - 1 - Nx * Ny)%nat by lia.
    replace (m - Nx * Ny - Nx)%nat with (m - Nx - Nx * Ny)%nat by lia.
    ring.
  Qed.

  Lemma kcurl_ix K e d i j k : (i < kNx K)%nat -> (j < kNy K)%nat -> (k < kNz K)%nat ->
    kcurl K e (ix (kNx K) (kNy K) (kNz K) d i j k) =
    curl_at (kNx K) (kNy K) (kN K) (fun n => kcol K n * kL K n * e n) d (cell (kNx K) (kNy K) i j k).
  Proof.
    intros. unfold kcurl, ix. change (kNx K * kNy K * kNz K)%nat with (kN K).
    rewrite comp_div, comp_mod by (apply cell_lt; assumption). reflexivity.
  Qed.
  Lemma kcurlT_ix K e d i j k : (i < kNx K)%nat -> (j < kNy K)%nat -> (k < kNz K)%nat ->
    kcurlT K e (ix (kNx K) (kNy K) (kNz K) d i j k) =
    curlT_at (kNx K) (kNy K) (kN K) (fun n => krow K n * ktL K n * e n) d (cell (kNx K) (kNy K) i j k).
  Proof.
    intros. unfold kcurlT, ix. change (kNx K * kNy K * kNz K)%nat with (kN K).
    rewrite comp_div, comp_mod by (apply cell_lt; assumption). reflexivity.
  Qed.

  Lemma cell_Si Nx Ny i j k : cell Nx Ny (S i) j k = (cell Nx Ny i j k + 1)%nat.
  Proof. unfold cell. lia. Qed.
  Lemma cell_Sj Nx Ny i j k : cell Nx Ny i (S j) k = (cell Nx Ny i j k + Nx)%nat.
  Proof. unfold cell. lia. Qed.
  Lemma cell_Sk Nx Ny i j k : cell Nx Ny i j (S k) = (cell Nx Ny i j k + Nx * Ny)%nat.
  Proof. unfold cell. lia. Qed.

  (** Magnetic flux of a stored cell, flat form. *)
  Definition kflux (K : Kern T) (w h : nat -> T) (i j k : nat) : T :=
    out_flux (fun d i j k => w (ix (kNx K) (kNy K) (kNz K) d i j k) *
                             h (ix (kNx K) (kNy K) (kNz K) d i j k)) i j k.

  Lemma kflux_step K a w i j k :
    (S i < kNx K)%nat -> (S j < kNy K)%nat -> (S k < kNz K)%nat ->
    (forall d a b c, In (d, a, b, c) (six_faces i j k) ->
       let r := ix (kNx K) (kNy K) (kNz K) d a b c in
       w r * (kiA K r * kimu K r) = 1 /\ krow K r = 1) ->
    kflux K w (th (kstep K a)) i j k = kflux K w (th a) i j k.
  Proof.
    intros Hi Hj Hk HW. unfold kflux, out_flux.
    assert (F : forall d i' j' k', In (d, i', j', k') (six_faces i j k) ->
      let r := ix (kNx K) (kNy K) (kNz K) d i' j' k' in
      (i' < kNx K)%nat -> (j' < kNy K)%nat -> (k' < kNz K)%nat ->
      ghH (kNx K) (kNy K) (kNz K) d i' j' k' = false ->
      w r * th (kstep K a) r = w r * th a r - kdt K *
        curl_at (kNx K) (kNy K) (kN K) (fun n => kcol K n * kL K n * effE K a n) d (cell (kNx K) (kNy K) i' j' k')).
    { intros d i' j' k' Hin r H1 H2 H3 Hg. destruct (HW _ _ _ _ Hin) as [HB Hr]. fold r in HB, Hr.
      cbn [kstep th]. unfold kH. rewrite Hr.
      assert (Eh : effH K a r = th a r).
      { unfold effH, r. rewrite on_ix_ix by assumption. rewrite Hg, andb_false_r. reflexivity. }
      rewrite Eh. unfold r at 5. rewrite kcurl_ix by assumption.
      set (c := curl_at _ _ _ _ _ _).
      transitivity (w r * th a r - kdt K * ((w r * (kiA K r * kimu K r)) * c)); [ring|].
      rewrite HB. ring. }
    assert (B : forall x N, (S x < N)%nat -> (x =? N - 1)%nat = false) by (intros; apply Nat.eqb_neq; lia).
    assert (Hi' : (i < kNx K)%nat) by lia. assert (Hj' : (j < kNy K)%nat) by lia.
    assert (Hk' : (k < kNz K)%nat) by lia.
    rewrite (F 0%nat (S i) j k), (F 0%nat i j k), (F 1%nat i (S j) k), (F 1%nat i j k),
      (F 2%nat i j (S k)), (F 2%nat i j k);
      try assumption; try (cbn; tauto);
      try (unfold ghH; cbn [existsb axes Nat.eqb negb andb orb coord dim]; rewrite ?B by assumption; reflexivity).
    set (x := fun n => kcol K n * kL K n * effE K a n).
    pose proof (div_curl (kNx K) (kNy K) (kN K) x (cell (kNx K) (kNy K) i j k)) as D.
    rewrite <- cell_Si, <- cell_Sj, <- cell_Sk in D.
    specialize (D (cell_lt _ _ _ _ _ _ Hi Hj' Hk') (cell_lt _ _ _ _ _ _ Hi' Hj Hk') (cell_lt _ _ _ _ _ _ Hi' Hj' Hk)).
    match goal with |- ?l = ?r =>
      transitivity (r - kdt K * ((curl_at (kNx K) (kNy K) (kN K) x 0 (cell (kNx K) (kNy K) (S i) j k) -
      curl_at (kNx K) (kNy K) (kN K) x 0 (cell (kNx K) (kNy K) i j k)) +
     (curl_at (kNx K) (kNy K) (kN K) x 1 (cell (kNx K) (kNy K) i (S j) k) -
      curl_at (kNx K) (kNy K) (kN K) x 1 (cell (kNx K) (kNy K) i j k)) +
     (curl_at (kNx K) (kNy K) (kN K) x 2 (cell (kNx K) (kNy K) i j (S k)) -
      curl_at (kNx K) (kNy K) (kN K) x 2 (cell (kNx K) (kNy K) i j k)))) end.
    - ring.
    - rewrite D. ring.
  Qed.

  Lemma kflux_run K w i j k h :
    (S i < kNx K)%nat -> (S j < kNy K)%nat -> (S k < kNz K)%nat ->
    (forall d a b c, In (d, a, b, c) (six_faces i j k) ->
       let r := ix (kNx K) (kNy K) (kNz K) d a b c in
       w r * (kiA K r * kimu K r) = 1 /\ krow K r = 1) ->
    Forall keeps_H h -> forall a, kflux K w (th (krun K a h)) i j k = kflux K w (th a) i j k.
  Proof.
    intros Hi Hj Hk HW. induction 1 as [|o h Ho Hh IH]; intros a; [reflexivity|].
    cbn [krun fold_left]. fold (krun K (kop K a o) h). rewrite IH.
    destruct o; cbn in Ho; try contradiction; cbn [kop th]; try reflexivity.
    apply kflux_step; assumption.
  Qed.

  Lemma flux_conserved env g g' ar s h s' (mu A : nat -> nat -> nat -> nat -> T) i j k :
    made env g g' ar s -> run s h = Ok s' -> Forall keeps_H h ->
    (forall a, (a < 3)%nat -> ~ magnetic (bc_at (sbl s) a) /\ ~ magnetic (bc_at (sbh s) a)) ->
    (S i < gNx g)%nat -> (S j < gNy g)%nat -> (S k < gNz g)%nat ->
    (forall d a b c, In (d, a, b, c) (six_faces i j k) ->
       mu d a b c * entry (simu s) d a b c = 1 /\ A d a b c * entry (giA g) d a b c = 1) ->
    out_flux (fun d i j k => mu d i j k * A d i j k * entry (sH s') d i j k) i j k =
    out_flux (fun d i j k => mu d i j k * A d i j k * entry (sH s) d i j k) i j k.
  Proof.
    intros Hm Hr Hh Hn Hi Hj Hk HW.
    destruct (made_run_abs env g g' ar s h s' Hm Hr) as [G [G' [_ [Hst _]]]].
    set (K := kern_of g g' s) in *.
    pose proof (made_grid _ _ _ _ _ Hm) as Hgo. apply grid_obj_ok in Hgo.
    set (w := on_ix (fun d i j k => mu d i j k * A d i j k) (gNx g) (gNy g) (gNz g)).
    assert (Sim : sized (simu s) (gNx g) (gNy g) (gNz g)).
    { clear - Hm LT. revert Hm. induction 1 as [s Hg Hc|s o s' Hm IH E].
      - apply construct_spec in Hc; [|apply (grid_obj_ok env); exact Hg].
        destruct Hc as (bo & M & _ & _ & _ & SM & _ & _ & _ & _ & _ & _ & _ & _ & _ & _ & _ & _ & _ & _ & _ & S & _).
        exact S.
      - destruct (do_op_conf _ s o s' (made_good _ _ _ _ _ Hm) E) as (_ & _ & _ & _ & -> & _). exact IH. }
    assert (X : forall F, sized F (gNx g) (gNy g) (gNz g) ->
      out_flux (fun d i j k => mu d i j k * A d i j k * entry F d i j k) i j k = kflux K w (get (farr F)) i j k).
    { intros F SF. unfold kflux, out_flux. cbn [K kern_of kNx kNy kNz]. unfold w.
      rewrite !on_ix_ix by lia. rewrite !(entry_ix F _ _ _ _ _ _ _ SF). reflexivity. }
    rewrite !X; [|apply G|apply G'].
    transitivity (kflux K w (th (krun K (abs s) h)) i j k).
    - unfold kflux, out_flux.
      assert (Y : forall d a b c, (d < 3)%nat -> (a < gNx g)%nat -> (b < gNy g)%nat -> (c < gNz g)%nat ->
        get (farr (sH s')) (ix (kNx K) (kNy K) (kNz K) d a b c) = th (krun K (abs s) h) (ix (kNx K) (kNy K) (kNz K) d a b c)).
      { intros. apply Hst. apply ix_lt; assumption. }
      rewrite !Y by lia. reflexivity.
    - apply kflux_run; try assumption.
      intros d a b c Hin. cbn [K kern_of kNx kNy kNz kiA kimu krow].
      destruct (HW d a b c Hin) as [Hmu HA].
      assert (R : (a < gNx g)%nat /\ (b < gNy g)%nat /\ (c < gNz g)%nat).
      { cbn in Hin. repeat (destruct Hin as [Hin|Hin]; [injection Hin as <- <- <- <-; lia|]). destruct Hin. }
      destruct R as [Ra [Rb Rc]]. unfold w. rewrite !on_ix_ix by assumption.
      rewrite <- (entry_ix (simu s)) by exact Sim. rewrite <- (entry_ix (giA g)) by apply Hgo.
      split; [|apply rowv_none; exact Hn].
      match goal with |- ?l = _ => transitivity ((mu d a b c * entry (simu s) d a b c) * (A d a b c * entry (giA g) d a b c)); [ring|] end.
      rewrite Hmu, HA. ring.
  Qed.
End Flux.
