(** Lemmas: what the constructor builds (operators, materials, sizes). *)
From Coq Require Import List Arith ZArith Bool String Lia Ring Field.
From Verif Require Import Num Vec Index Matrix FieldModel FieldSpec FieldProofs FieldProofs2
  GridModel GridProofs SolverModel SolverPlanes.
Import ListNotations.

Lemma bind_ok {A B} (r : result A) (f : A -> result B) b :
  bind r f = Ok b -> exists a, r = Ok a /\ f a = Ok b.
Proof. destruct r as [a|e]; cbn; [eauto|discriminate]. Qed.

Ltac binv H x Hx := apply bind_ok in H; destruct H as [x [Hx H]].

Lemma seq_upd_inv {A B} (P : A -> Prop) (f : A -> B -> result A) l : forall a,
  P a -> (forall a b a', In b l -> P a -> f a b = Ok a' -> P a') ->
  forall a', seq_upd f a l = Ok a' -> P a'.
Proof.
  induction l as [|b l IH]; intros a Pa H a' E; cbn in E.
  - injection E as <-. exact Pa.
  - binv E a1 E1. apply (IH a1) with (a' := a'); [|intros; eapply H; eauto; right; assumption|exact E].
    apply (H a b a1 (or_introl eq_refl) Pa E1).
Qed.

Lemma seq_upd_ok {A B} (P : A -> Prop) (f : A -> B -> result A) l : forall a,
  P a -> (forall a b, In b l -> P a -> exists a', f a b = Ok a' /\ P a') ->
  exists a', seq_upd f a l = Ok a' /\ P a'.
Proof.
  induction l as [|b l IH]; intros a Pa H; cbn.
  - eauto.
  - destruct (H a b (or_introl eq_refl) Pa) as [a1 [E1 P1]]. rewrite E1. cbn [bind].
    apply IH; [exact P1|]. intros a2 b2 Hb. apply H. right. exact Hb.
Qed.

Lemma seq_upd_app {A B} (f : A -> B -> result A) l1 l2 a :
  seq_upd f a (l1 ++ l2) = bind (seq_upd f a l1) (fun a' => seq_upd f a' l2).
Proof.
  revert a. induction l1 as [|b l1 IH]; intros a; cbn; [reflexivity|].
  destruct (f a b); cbn; [apply IH|reflexivity].
Qed.

Section Build.
  Context {T : Type} {NT : Num T} {OT : NumOrd T}.
  Implicit Types F G : Field T.

  (** A grid object whose metric fields have the grid's sizes. *)
  Definition grid_ok (g : Grid T) : Prop :=
    0 < gNx g /\ 0 < gNy g /\ 0 < gNz g /\
    sized (gL g) (gNx g) (gNy g) (gNz g) /\ sized (giA g) (gNx g) (gNy g) (gNz g) /\
    sized (gtL g) (gNx g) (gNy g) (gNz g) /\ sized (gitA g) (gNx g) (gNy g) (gNz g).

  Lemma compute_grid_ok x y z g : compute_grid x y z = Ok g -> grid_ok g.
  Proof.
    intros E. assert (H : 2 <= List.length x /\ 2 <= List.length y /\ 2 <= List.length z).
    { unfold compute_grid in E.
      destruct (2 <=? List.length x) eqn:E1, (2 <=? List.length y) eqn:E2, (2 <=? List.length z) eqn:E3;
        try discriminate. apply Nat.leb_le in E1, E2, E3. auto. }
    destruct H as [H1 [H2 H3]].
    destruct (compute_grid_spec x y z H1 H2 H3) as [g' [E' [Ex [Ey [Ez [S1 [S2 [S3 [S4 _]]]]]]]]].
    rewrite E in E'. injection E' as <-.
    unfold grid_ok. repeat (split; [unfold gNx, gNy, gNz; rewrite ?Ex, ?Ey, ?Ez; lia|]).
    auto.
  Qed.

  (** ** Periodic / ABC metric wrap *)
  Lemma wrap_axis_spec L iA tL itA a Nx Ny Nz :
    0 < Nx -> 0 < Ny -> 0 < Nz ->
    sized L Nx Ny Nz -> sized iA Nx Ny Nz -> sized tL Nx Ny Nz -> sized itA Nx Ny Nz -> a < 3 ->
    exists tL' itA', wrap_axis L iA (tL, itA) a = Ok (tL', itA') /\
      sized tL' Nx Ny Nz /\ sized itA' Nx Ny Nz /\
      forall c i j k, c < 3 -> i < Nx -> j < Ny -> k < Nz ->
        entry tL' c i j k =
          (if (c =? a) && (coord a i j k =? dim a Nx Ny Nz - 1)
           then entry3 L c (set_coord a 0 i j k) else entry tL c i j k) /\
        entry itA' c i j k =
          (if negb (c =? a) && (coord a i j k =? dim a Nx Ny Nz - 1)
           then entry3 iA c (set_coord a 0 i j k) else entry itA c i j k).
  Proof.
    intros HX HY HZ SL SA StL StA Ha.
    assert (Hd : 0 < dim a Nx Ny Nz) by (destruct a as [|[|]]; assumption).
    pose proof (in_axis_last _ Hd) as Il. pose proof (in_axis_first _ Hd) as If.
    unfold wrap_axis. cbn [fst snd].
    destruct (copy_plane_spec tL L a (-1) 0 a Nx Ny Nz StL SL Ha Ha Il If) as [tL' [E1 [S1 A1]]].
    rewrite E1. cbn [bind].
    assert (forall d1 d2, d1 < 3 -> d2 < 3 -> d1 <> d2 ->
      exists itA', seq_upd (fun F d => copy_plane F a (-1) iA 0 d) itA [d1; d2] = Ok itA' /\
        sized itA' Nx Ny Nz /\
        forall c i j k, c < 3 -> i < Nx -> j < Ny -> k < Nz ->
        entry itA' c i j k =
          (if ((c =? d1) || (c =? d2)) && (coord a i j k =? dim a Nx Ny Nz - 1)
           then entry3 iA c (set_coord a 0 i j k) else entry itA c i j k)) as H2.
    { intros d1 d2 H1 H2 Hne. cbn [seq_upd].
      destruct (copy_plane_spec itA iA a (-1) 0 d1 Nx Ny Nz StA SA H1 Ha Il If) as [G1 [F1 [T1 B1]]].
      rewrite F1. cbn [bind].
      destruct (copy_plane_spec G1 iA a (-1) 0 d2 Nx Ny Nz T1 SA H2 Ha Il If) as [G2 [F2 [T2 B2]]].
      rewrite F2. cbn [bind]. exists G2. split; [reflexivity|]. split; [exact T2|].
      intros c i j k Hc Hi Hj Hk. rewrite B2, B1 by assumption. rewrite pypos_last, pypos_first by exact Hd.
      destruct (Nat.eqb_spec c d2), (Nat.eqb_spec c d1); subst; try lia; cbn [orb andb];
        try (destruct (_ =? _); reflexivity); reflexivity. }
    assert (exists itA', seq_upd (fun F d => copy_plane F a (-1) iA 0 d) itA
                      (filter (fun d => negb (d =? a)) axes) = Ok itA' /\ sized itA' Nx Ny Nz /\
       forall c i j k, c < 3 -> i < Nx -> j < Ny -> k < Nz ->
        entry itA' c i j k =
          (if negb (c =? a) && (coord a i j k =? dim a Nx Ny Nz - 1)
           then entry3 iA c (set_coord a 0 i j k) else entry itA c i j k)) as [itA' [E2 [S2 A2]]].
    { destruct a as [|[|[|a]]]; [| | |lia]; cbn [axes filter Nat.eqb negb];
        [destruct (H2 1 2) as [X [EX [SX AX]]]|destruct (H2 0 2) as [X [EX [SX AX]]]
        |destruct (H2 0 1) as [X [EX [SX AX]]]]; try lia;
        exists X; (split; [exact EX|split; [exact SX|]]); intros c i j k Hc Hi Hj Hk;
        rewrite AX by assumption; destruct c as [|[|[|c]]]; try lia; reflexivity. }
    rewrite E2. cbn [bind]. exists tL', itA'. split; [reflexivity|]. split; [exact S1|].
    split; [exact S2|]. intros c i j k Hc Hi Hj Hk. split.
    - rewrite A1 by assumption. rewrite pypos_last, pypos_first by exact Hd.
      destruct (Nat.eqb_spec c a); subst; reflexivity.
    - apply A2; assumption.
  Qed.

  (** Effect of a wrap test [w] over the three axes. *)
  Definition wrapL (w : nat -> bool) (L : Field T) (Nx Ny Nz c i j k : nat) (acc : T) : T :=
    if w c && (coord c i j k =? dim c Nx Ny Nz - 1) then entry3 L c (set_coord c 0 i j k) else acc.
  Definition wrapA1 (w : nat -> bool) (iA : Field T) (Nx Ny Nz c i j k a : nat) (acc : T) : T :=
    if w a && negb (c =? a) && (coord a i j k =? dim a Nx Ny Nz - 1)
    then entry3 iA c (set_coord a 0 i j k) else acc.
  Definition wrapA (w : nat -> bool) (iA : Field T) (Nx Ny Nz c i j k : nat) (acc : T) : T :=
    wrapA1 w iA Nx Ny Nz c i j k 2 (wrapA1 w iA Nx Ny Nz c i j k 1 (wrapA1 w iA Nx Ny Nz c i j k 0 acc)).

  Lemma wrap_axes_spec (w : nat -> bool) L iA tL itA Nx Ny Nz :
    0 < Nx -> 0 < Ny -> 0 < Nz ->
    sized L Nx Ny Nz -> sized iA Nx Ny Nz -> sized tL Nx Ny Nz -> sized itA Nx Ny Nz ->
    exists tL' itA',
      seq_upd (fun tm a => if w a then wrap_axis L iA tm a else Ok tm) (tL, itA) axes = Ok (tL', itA') /\
      sized tL' Nx Ny Nz /\ sized itA' Nx Ny Nz /\
      forall c i j k, c < 3 -> i < Nx -> j < Ny -> k < Nz ->
        entry tL' c i j k = wrapL w L Nx Ny Nz c i j k (entry tL c i j k) /\
        entry itA' c i j k = wrapA w iA Nx Ny Nz c i j k (entry itA c i j k).
  Proof.
    intros HX HY HZ SL SA StL StA.
    assert (Hone : forall a tL itA, a < 3 -> sized tL Nx Ny Nz -> sized itA Nx Ny Nz ->
      exists tL' itA', (if w a then wrap_axis L iA (tL, itA) a else Ok (tL, itA)) = Ok (tL', itA') /\
      sized tL' Nx Ny Nz /\ sized itA' Nx Ny Nz /\
      forall c i j k, c < 3 -> i < Nx -> j < Ny -> k < Nz ->
        entry tL' c i j k = (if c =? a then wrapL w L Nx Ny Nz c i j k (entry tL c i j k) else entry tL c i j k) /\
        entry itA' c i j k = wrapA1 w iA Nx Ny Nz c i j k a (entry itA c i j k)).
    { intros a t1 t2 Ha S1 S2. destruct (w a) eqn:Ew.
      - destruct (wrap_axis_spec L iA t1 t2 a Nx Ny Nz HX HY HZ SL SA S1 S2 Ha)
          as [u1 [u2 [E [U1 [U2 A]]]]].
        exists u1, u2. split; [exact E|]. split; [exact U1|]. split; [exact U2|].
        intros c i j k Hc Hi Hj Hk. destruct (A c i j k Hc Hi Hj Hk) as [A1 A2].
        unfold wrapL, wrapA1. rewrite A1, A2, Ew. split; [|reflexivity].
        destruct (Nat.eqb_spec c a); [subst; rewrite Ew; reflexivity|reflexivity].
      - exists t1, t2. split; [reflexivity|]. split; [exact S1|]. split; [exact S2|].
        intros c i j k _ _ _ _. unfold wrapL, wrapA1. rewrite Ew. split; [|reflexivity].
        destruct (Nat.eqb_spec c a); [subst; rewrite Ew; reflexivity|reflexivity]. }
    cbn [axes seq_upd].
    destruct (Hone 0 tL itA ltac:(lia) StL StA) as [a1 [b1 [E1 [P1 [Q1 A1]]]]]. rewrite E1. cbn [bind].
    destruct (Hone 1 a1 b1 ltac:(lia) P1 Q1) as [a2 [b2 [E2 [P2 [Q2 A2]]]]]. rewrite E2. cbn [bind].
    destruct (Hone 2 a2 b2 ltac:(lia) P2 Q2) as [a3 [b3 [E3 [P3 [Q3 A3]]]]]. rewrite E3. cbn [bind].
    exists a3, b3. split; [reflexivity|]. split; [exact P3|]. split; [exact Q3|].
    intros c i j k Hc Hi Hj Hk.
    destruct (A1 c i j k Hc Hi Hj Hk) as [X1 Y1]. destruct (A2 c i j k Hc Hi Hj Hk) as [X2 Y2].
    destruct (A3 c i j k Hc Hi Hj Hk) as [X3 Y3]. split.
    - rewrite X3, X2, X1. destruct c as [|[|[|c]]]; try lia; reflexivity.
    - rewrite Y3, Y2, Y1. reflexivity.
  Qed.

  Definition w_per (bl bh : bc3) (a : nat) : bool :=
    named (bc_at bl a) "periodic" && named (bc_at bh a) "periodic".
  Definition w_abc (bh : bc3) (a : nat) : bool := named (bc_at bh a) "abc".
  Definition plo (b : bc3) (a : nat) : T := if is_pec (bc_at b a) then nzero else none_.
  Definition rlo (b : bc3) (a : nat) : T := if is_pmc_face (bc_at b a) then nzero else plo b a.
  Definition pmc_any (bl bh : bc3) : bool := any_bc is_pmc_any bl || any_bc is_pmc_any bh.
  Definition colv (bl bh : bc3) := maskv (plo bl) (plo bh).
  Definition rowv (bl bh : bc3) (Nx Ny Nz d i j k : nat) : T :=
    if pmc_any bl bh then maskv (rlo bl) (rlo bh) Nx Ny Nz d i j k else none_.

  Lemma any_bc_false p b : any_bc p b = false -> forall a, a < 3 -> p (bc_at b a) = false.
  Proof.
    unfold any_bc, axes. cbn. intros H a Ha.
    destruct (p (bcx b)) eqn:E1; [discriminate|]. destruct (p (bcy b)) eqn:E2; [discriminate|].
    destruct (p (bcz b)) eqn:E3; [discriminate|].
    destruct a as [|[|[|a]]]; [assumption..|lia].
  Qed.

  Lemma entry_ones Nx Ny Nz c i j k : c < 3 -> i < Nx -> j < Ny -> k < Nz ->
    entry (field_ones Nx Ny Nz : Field T) c i j k = none_.
  Proof.
    intros Hc Hi Hj Hk. rewrite entry_at. unfold at_, field_ones, fN; cbn.
    rewrite get_tab; [reflexivity|]. pose proof (cell_lt _ _ _ _ _ _ Hi Hj Hk). nia.
  Qed.
  Lemma entry_zeros Nx Ny Nz c i j k :
    entry (field_zeros Nx Ny Nz : Field T) c i j k = nzero.
  Proof.
    unfold entry, field_zeros. cbn [farr].
    destruct (Nat.lt_ge_cases (flat {| fNx := Nx; fNy := Ny; fNz := Nz; farr := tab (Nx * Ny * Nz * 3) (fun _ : nat => nzero) |} c i j k) (Nx * Ny * Nz * 3)).
    - rewrite get_tab by assumption. reflexivity.
    - apply get_tab_over. assumption.
  Qed.
End Build.

Section BuildC.
  Context {T : Type} {NT : Num T} {LT : NumLaws T} {OT : NumOrd T}.
  Add Field field_T_build : (@num_field T NT LT).
  Local Open Scope num_scope.

  Lemma apply_bc_spec (g : Grid T) bl bh : grid_ok g ->
    let Nx := gNx g in let Ny := gNy g in let Nz := gNz g in
    let N := (Nx * Ny * Nz)%nat in
    exists bo Fr Fc, apply_bc g bl bh = Ok bo /\
      sized (bo_tL bo) Nx Ny Nz /\ sized (bo_itA bo) Nx Ny Nz /\
      sized Fr Nx Ny Nz /\ sized Fc Nx Ny Nz /\
      (forall d i j k, (d < 3)%nat -> (i < Nx)%nat -> (j < Ny)%nat -> (k < Nz)%nat ->
         entry Fr d i j k = rowv bl bh Nx Ny Nz d i j k /\
         entry Fc d i j k = colv bl bh Nx Ny Nz d i j k /\
         entry (bo_tL bo) d i j k =
           wrapL (w_abc bh) (gL g) Nx Ny Nz d i j k
             (wrapL (w_per bl bh) (gL g) Nx Ny Nz d i j k (entry (gtL g) d i j k)) /\
         entry (bo_itA bo) d i j k =
           wrapA (w_abc bh) (giA g) Nx Ny Nz d i j k
             (wrapA (w_per bl bh) (giA g) Nx Ny Nz d i j k (entry (gitA g) d i j k))) /\
      (forall r c, (r < 3 * N)%nat -> (c < 3 * N)%nat ->
         bo_C bo r c = get (farr Fr) r * (curl Nx Ny N r c * get (farr Fc) c)) /\
      bo_abc bo = (any_bc (fun s => named s "abc") bl || any_bc (fun s => named s "abc") bh)%bool /\
      bo_pml bo = (any_bc (fun s => named s "pml") bl || any_bc (fun s => named s "pml") bh)%bool.
  Proof.
    intros [HX [HY [HZ [SL [SA [StL StA]]]]]] Nx Ny Nz N.
    unfold apply_bc. fold Nx Ny Nz. fold N.
    fold Nx in HX. fold Ny in HY. fold Nz in HZ. fold Nx Ny Nz in SL, SA, StL, StA.
    (* periodic *)
    destruct (wrap_axes_spec (w_per bl bh) (gL g) (giA g) (gtL g) (gitA g) Nx Ny Nz
                HX HY HZ SL SA StL StA) as [t1 [a1 [E1 [S1 [Q1 A1]]]]].
    set (tm0 := if any_bc _ bl then _ else _).
    assert (Etm : tm0 = Ok (t1, a1)).
    { unfold tm0. destruct (any_bc (fun s => named s "periodic") bl) eqn:Ea; [exact E1|].
      f_equal. pose proof (any_bc_false _ _ Ea) as Hf.
      assert (Hw : forall a, (a < 3)%nat -> w_per bl bh a = false)
        by (intros a Ha; unfold w_per; rewrite (Hf a Ha); reflexivity).
      revert E1. cbn [axes seq_upd]. rewrite !Hw by lia. cbn [bind]. intros H. injection H. intros -> ->. reflexivity. }
    rewrite Etm. cbn [bind].
    (* PEC *)
    destruct (bc_mask_spec Nx Ny Nz (plo bl) (plo bh) HX HY HZ) as [Fc [Ec [Sc Ac]]].
    change (fun a => if is_pec (bc_at bl a) then nzero else none_) with (plo bl : nat -> T).
    change (fun a => if is_pec (bc_at bh a) then nzero else none_) with (plo bh : nat -> T).
    set (c1 := if (any_bc is_pec bl || any_bc is_pec bh)%bool then _ else _).
    assert (EC1 : exists C1, c1 = Ok C1 /\ forall r c, (r < 3 * N)%nat -> (c < 3 * N)%nat ->
               C1 r c = curl Nx Ny N r c * get (farr Fc) c).
    { unfold c1. destruct (any_bc is_pec bl || any_bc is_pec bh)%bool eqn:Ea.
      - rewrite Ec. cbn [bind]. eexists. split; [reflexivity|]. intros r c Hr Hc.
        unfold diags. rewrite mmul_mdiag_r by exact Hc. reflexivity.
      - eexists. split; [reflexivity|]. intros r c Hr Hc.
        apply orb_false_iff in Ea. destruct Ea as [Ea1 Ea2].
        pose proof (any_bc_false _ _ Ea1) as H1. pose proof (any_bc_false _ _ Ea2) as H2.
        replace (get (farr Fc) c) with (none_ (T := T)); [ring|].
        destruct Sc as [Wc [Xc [Yc Zc]]].
        assert (Hc' : (c < 3 * fN Fc)%nat) by (unfold fN; rewrite Xc, Yc, Zc; exact Hc).
        destruct (flat_surj Fc c Hc') as [d [i [j [k [Hd [Hi [Hj [Hk <-]]]]]]]].
        change (get (farr Fc) (flat Fc d i j k)) with (entry Fc d i j k).
        rewrite Xc in Hi. rewrite Yc in Hj. rewrite Zc in Hk. rewrite Ac by assumption.
        unfold maskv, plo. rewrite !H1, !H2 by lia.
        repeat match goal with |- context [if ?b then _ else _] => destruct b end; reflexivity. }
    destruct EC1 as [C1 [EC1 HC1]]. rewrite EC1. cbn [bind].
    (* PMC *)
    set (c2 := if (any_bc is_pmc_any bl || any_bc is_pmc_any bh)%bool then _ else _).
    assert (EC2 : exists C2 Fr, c2 = Ok C2 /\ sized Fr Nx Ny Nz /\
               (forall d i j k, (d < 3)%nat -> (i < Nx)%nat -> (j < Ny)%nat -> (k < Nz)%nat ->
                  entry Fr d i j k = rowv bl bh Nx Ny Nz d i j k) /\
               forall r c, (r < 3 * N)%nat -> (c < 3 * N)%nat -> C2 r c = get (farr Fr) r * C1 r c).
    { unfold c2, rowv, pmc_any.
      destruct (any_bc is_pmc_any bl || any_bc is_pmc_any bh)%bool eqn:Ea.
      - destruct (bc_mask_spec Nx Ny Nz (rlo bl) (rlo bh) HX HY HZ) as [Fr [Er [Sr Ar]]].
        match goal with |- context [bc_mask Nx Ny Nz ?f ?h] =>
          change (bc_mask Nx Ny Nz f h) with (bc_mask Nx Ny Nz (rlo bl : nat -> T) (rlo bh)) end.
        rewrite Er. cbn [bind]. eexists _, Fr. split; [reflexivity|]. split; [exact Sr|].
        split; [exact Ar|]. intros r c Hr Hc. unfold diags. rewrite mmul_mdiag_l by exact Hr. reflexivity.
      - exists C1, (field_ones Nx Ny Nz). split; [reflexivity|]. split; [apply sized_ones|].
        split; [intros; apply entry_ones; assumption|].
        intros r c Hr Hc. unfold field_ones; cbn [farr]. rewrite get_tab by (unfold N in Hr; lia). ring. }
    destruct EC2 as [C2 [Fr [EC2 [Sr [Ar HC2]]]]]. rewrite EC2. cbn [bind].
    (* ABC *)
    destruct (wrap_axes_spec (w_abc bh) (gL g) (giA g) t1 a1 Nx Ny Nz
                HX HY HZ SL SA S1 Q1) as [t2 [a2 [E2 [S2 [Q2 A2]]]]].
    set (tm2 := if (any_bc (fun s => named s "abc") bl || any_bc (fun s => named s "abc") bh)%bool then _ else _).
    assert (Etm2 : tm2 = Ok (t2, a2)).
    { unfold tm2. destruct (any_bc (fun s => named s "abc") bl || any_bc (fun s => named s "abc") bh)%bool eqn:Ea; [exact E2|].
      apply orb_false_iff in Ea. destruct Ea as [_ Ea].
      f_equal. pose proof (any_bc_false _ _ Ea) as Hf.
      assert (Hw : forall a, (a < 3)%nat -> w_abc bh a = false)
        by (intros a Ha; unfold w_abc; rewrite (Hf a Ha); reflexivity).
      revert E2. cbn [axes seq_upd]. rewrite !Hw by lia. cbn [bind]. intros H. injection H. intros -> ->. reflexivity. }
    rewrite Etm2. cbn [bind].
    eexists _, Fr, Fc. split; [reflexivity|]. cbn [bo_tL bo_itA bo_C bo_abc bo_pml fst snd].
    split; [exact S2|]. split; [exact Q2|]. split; [exact Sr|]. split; [exact Sc|]. split.
    - intros d i j k Hd Hi Hj Hk. split; [apply Ar; assumption|]. split; [apply Ac; assumption|].
      destruct (A2 d i j k Hd Hi Hj Hk) as [X Y]. destruct (A1 d i j k Hd Hi Hj Hk) as [X1 Y1].
      rewrite X, Y, X1, Y1. split; reflexivity.
    - split; [|split; reflexivity].
      intros r c Hr Hc. rewrite HC2, HC1 by assumption. reflexivity.
  Qed.
End BuildC.
