(** Lemmas: which entries one step reads (light cone and ghost layers). *)
From Coq Require Import List Arith ZArith Bool String Lia Ring Field.
From Verif Require Import Num Vec Index Matrix FieldModel FieldSpec FieldProofs FieldProofs2
  GridModel GridProofs SolverModel SolverPlanes SolverBuild SolverMaterials SolverKern SolverCons SolverSpec
  SolverFlux SolverEnergy SolverOps SolverFrozen.
Import ListNotations.

Definition up (a b x : nat) : nat := if a =? b then S x else x.
Definition dn (a b x : nat) : nat := if a =? b then x - 1 else x.
Definition aoff (Nx Ny a : nat) : nat := match a with 0 => 1 | 1 => Nx | _ => Nx * Ny end.

Section Local.
  Context {T : Type} {NT : Num T} {LT : NumLaws T} {OT : NumOrd T}.
  Add Field field_T_loc : (@num_field T NT LT).
  Local Open Scope num_scope.

  Lemma sh_in Nx Ny Nz (f : nat -> T) a i j k :
    (a < 3)%nat -> (i < Nx)%nat -> (j < Ny)%nat -> (k < Nz)%nat ->
    (S (coord a i j k) < dim a Nx Ny Nz)%nat ->
    ext (Nx * Ny * Nz) f (cell Nx Ny i j k + aoff Nx Ny a) = f (cell Nx Ny (up a 0 i) (up a 1 j) (up a 2 k)).
  Proof.
    intros Ha Hi Hj Hk Hc.
    assert (E : (cell Nx Ny i j k + aoff Nx Ny a = cell Nx Ny (up a 0 i) (up a 1 j) (up a 2 k))%nat).
    { destruct a as [|[|[|a]]]; [..|lia]; cbn [aoff]; unfold up; cbn [Nat.eqb];
        rewrite ?cell_Si, ?cell_Sj, ?cell_Sk; reflexivity. }
    rewrite E. apply ext_in. apply cell_lt; destruct a as [|[|[|a]]]; try lia; unfold up; cbn in *; lia.
  Qed.

  Lemma sh_out Nx Ny Nz (f : nat -> T) a i j k :
    (a < 3)%nat -> (i < Nx)%nat -> (j < Ny)%nat -> (k < Nz)%nat ->
    coord a i j k = (dim a Nx Ny Nz - 1)%nat ->
    (forall i j k, (i < Nx)%nat -> (j < Ny)%nat -> (k < Nz)%nat -> coord a i j k = 0%nat -> f (cell Nx Ny i j k) = 0) ->
    ext (Nx * Ny * Nz) f (cell Nx Ny i j k + aoff Nx Ny a) = 0.
  Proof.
    intros Ha Hi Hj Hk Hc Hz. unfold ext.
    destruct (Nat.ltb_spec (cell Nx Ny i j k + aoff Nx Ny a) (Nx * Ny * Nz)) as [H|H]; [|reflexivity].
    destruct (cell_decode _ _ _ _ H) as [A [B [C D]]].
    rewrite <- D. apply Hz; try assumption.
    destruct a as [|[|[|a]]]; [..|lia]; cbn [coord dim aoff] in *.
    - subst i. replace (cell Nx Ny (Nx - 1) j k + 1)%nat with (S (j + Ny * k) * Nx)%nat by (unfold cell; nia).
      apply Nat.mod_mul. lia.
    - subst j. replace (cell Nx Ny i (Ny - 1) k + Nx)%nat with (i + Nx * (S k * Ny))%nat by (unfold cell; nia).
      rewrite div_add_l by exact Hi. apply Nat.mod_mul. lia.
    - exfalso. subst k. pose proof (cell_lt Nx Ny Nz i j (Nz - 1) Hi Hj Hk). unfold cell in *. nia.
  Qed.

  (** Mask of a box with electric walls all around. *)
  Definition boxed (K : Kern T) : Prop :=
    forall d i j k, in_box (kNx K) (kNy K) (kNz K) d i j k -> tangential (kNx K) (kNy K) (kNz K) d i j k ->
      kcol K (ix (kNx K) (kNy K) (kNz K) d i j k) = 0.

  Lemma comp_ix (K : Kern T) (x : nat -> T) c i j k :
    comp (kN K) x c (cell (kNx K) (kNy K) i j k) = x (ix (kNx K) (kNy K) (kNz K) c i j k).
  Proof. reflexivity. Qed.

  (** One difference of the curl reads the cell and, inside, its upper neighbour. *)
  Lemma sh_dep (K : Kern T) e e' a c i j k : boxed K -> (a < 3)%nat -> (c < 3)%nat -> a <> c ->
    (i < kNx K)%nat -> (j < kNy K)%nat -> (k < kNz K)%nat ->
    (forall n, n = ix (kNx K) (kNy K) (kNz K) c i j k -> e n = e' n) ->
    ((S (coord a i j k) < dim a (kNx K) (kNy K) (kNz K))%nat ->
      e (ix (kNx K) (kNy K) (kNz K) c (up a 0 i) (up a 1 j) (up a 2 k)) =
      e' (ix (kNx K) (kNy K) (kNz K) c (up a 0 i) (up a 1 j) (up a 2 k))) ->
    Sh (kN K) (aoff (kNx K) (kNy K) a) (comp (kN K) (fun n => kcol K n * kL K n * e n) c) (cell (kNx K) (kNy K) i j k) =
    Sh (kN K) (aoff (kNx K) (kNy K) a) (comp (kN K) (fun n => kcol K n * kL K n * e' n) c) (cell (kNx K) (kNy K) i j k).
  Proof.
    intros HB Ha Hc Hac Hi Hj Hk H0 H1. unfold Sh. rewrite !comp_ix, (H0 _ eq_refl). f_equal.
    assert (Q : (coord a i j k < dim a (kNx K) (kNy K) (kNz K))%nat)
      by (destruct a as [|[|[|a]]]; cbn; lia).
    destruct (Nat.eq_dec (coord a i j k) (dim a (kNx K) (kNy K) (kNz K) - 1)) as [E|E].
    - unfold kN at 1 3. rewrite !sh_out; try assumption; try reflexivity;
        intros i' j' k' Hi' Hj' Hk' Hz; rewrite comp_ix, HB; try ring; repeat split; try assumption;
        exists a; auto.
    - unfold kN at 1 3. rewrite !sh_in by (assumption || lia). rewrite !comp_ix, H1 by lia. reflexivity.
  Qed.

  Lemma kH_dep (K : Kern T) e e' h h' d i j k : boxed K -> in_box (kNx K) (kNy K) (kNz K) d i j k ->
    h (ix (kNx K) (kNy K) (kNz K) d i j k) = h' (ix (kNx K) (kNy K) (kNz K) d i j k) ->
    (forall c a, (c < 3)%nat -> (a < 3)%nat -> c <> d -> a <> d -> a <> c ->
      e (ix (kNx K) (kNy K) (kNz K) c i j k) = e' (ix (kNx K) (kNy K) (kNz K) c i j k) /\
      ((S (coord a i j k) < dim a (kNx K) (kNy K) (kNz K))%nat ->
       e (ix (kNx K) (kNy K) (kNz K) c (up a 0 i) (up a 1 j) (up a 2 k)) =
       e' (ix (kNx K) (kNy K) (kNz K) c (up a 0 i) (up a 1 j) (up a 2 k)))) ->
    kH K e h (ix (kNx K) (kNy K) (kNz K) d i j k) = kH K e' h' (ix (kNx K) (kNy K) (kNz K) d i j k).
  Proof.
    intros HB (Hd & Hi & Hj & Hk) Hh He. unfold kH. rewrite Hh. f_equal. f_equal. f_equal.
    rewrite !kcurl_ix by assumption.
    assert (S : forall c a, (c < 3)%nat -> (a < 3)%nat -> c <> d -> a <> d -> a <> c ->
      Sh (kN K) (aoff (kNx K) (kNy K) a) (comp (kN K) (fun n => kcol K n * kL K n * e n) c) (cell (kNx K) (kNy K) i j k) =
      Sh (kN K) (aoff (kNx K) (kNy K) a) (comp (kN K) (fun n => kcol K n * kL K n * e' n) c) (cell (kNx K) (kNy K) i j k)).
    { intros c a Hc Ha H1 H2 H3. destruct (He c a Hc Ha H1 H2 H3) as [X Y].
      apply sh_dep; try assumption. intros n ->. exact X. }
    destruct d as [|[|[|d]]]; [..|lia]; cbn [curl_at].
    - pose proof (S 2 1)%nat as S1. pose proof (S 1 2)%nat as S2. cbn [aoff] in *.
      rewrite S1, S2 by lia. reflexivity.
    - pose proof (S 0 2)%nat as S1. pose proof (S 2 0)%nat as S2. cbn [aoff] in *.
      rewrite S1, S2 by lia. reflexivity.
    - pose proof (S 1 0)%nat as S1. pose proof (S 0 1)%nat as S2. cbn [aoff] in *.
      rewrite S1, S2 by lia. reflexivity.
  Qed.

  Lemma sht_in (K : Kern T) (f : nat -> T) a c i j k : (a < 3)%nat ->
    (0 < coord a i j k)%nat ->
    ShT (aoff (kNx K) (kNy K) a) (comp (kN K) f c) (cell (kNx K) (kNy K) i j k) =
    f (ix (kNx K) (kNy K) (kNz K) c (dn a 0 i) (dn a 1 j) (dn a 2 k)) - f (ix (kNx K) (kNy K) (kNz K) c i j k).
  Proof.
    intros Ha Hp. unfold ShT.
    assert (E : (cell (kNx K) (kNy K) i j k =
                 cell (kNx K) (kNy K) (dn a 0 i) (dn a 1 j) (dn a 2 k) + aoff (kNx K) (kNy K) a)%nat).
    { destruct a as [|[|[|a]]]; [..|lia]; cbn [aoff coord] in *; unfold dn; cbn [Nat.eqb].
      - rewrite <- cell_Si. f_equal. lia.
      - rewrite <- cell_Sj. f_equal. lia.
      - rewrite <- cell_Sk. f_equal. lia. }
    destruct (Nat.leb_spec (aoff (kNx K) (kNy K) a) (cell (kNx K) (kNy K) i j k)) as [H|H]; [|lia].
    rewrite comp_ix. f_equal. rewrite E, Nat.add_sub. apply comp_ix.
  Qed.

  Lemma kE_dep (K : Kern T) e e' h h' c c' d i j k : in_box (kNx K) (kNy K) (kNz K) d i j k ->
    e (ix (kNx K) (kNy K) (kNz K) d i j k) = e' (ix (kNx K) (kNy K) (kNz K) d i j k) ->
    c (ix (kNx K) (kNy K) (kNz K) d i j k) = c' (ix (kNx K) (kNy K) (kNz K) d i j k) ->
    (kcol K (ix (kNx K) (kNy K) (kNz K) d i j k) = 0 \/
     forall b a, (b < 3)%nat -> (a < 3)%nat -> b <> d -> a <> d -> a <> b ->
      (0 < coord a i j k)%nat /\
      h (ix (kNx K) (kNy K) (kNz K) b i j k) = h' (ix (kNx K) (kNy K) (kNz K) b i j k) /\
      h (ix (kNx K) (kNy K) (kNz K) b (dn a 0 i) (dn a 1 j) (dn a 2 k)) =
      h' (ix (kNx K) (kNy K) (kNz K) b (dn a 0 i) (dn a 1 j) (dn a 2 k))) ->
    kE K e h c (ix (kNx K) (kNy K) (kNz K) d i j k) = kE K e' h' c' (ix (kNx K) (kNy K) (kNz K) d i j k).
  Proof.
    intros (Hd & Hi & Hj & Hk) He Hc Hh. unfold kE. rewrite He, Hc. f_equal. f_equal. f_equal.
    destruct Hh as [->|Hh]; [ring|]. f_equal. rewrite !kcurlT_ix by assumption.
    assert (S : forall b a, (b < 3)%nat -> (a < 3)%nat -> b <> d -> a <> d -> a <> b ->
      ShT (aoff (kNx K) (kNy K) a) (comp (kN K) (fun n => krow K n * ktL K n * h n) b) (cell (kNx K) (kNy K) i j k) =
      ShT (aoff (kNx K) (kNy K) a) (comp (kN K) (fun n => krow K n * ktL K n * h' n) b) (cell (kNx K) (kNy K) i j k)).
    { intros b a Hb Ha H1 H2 H3. destruct (Hh b a Hb Ha H1 H2 H3) as [X [Y Z]].
      rewrite !sht_in by assumption. rewrite Y, Z. reflexivity. }
    destruct d as [|[|[|d]]]; [..|lia]; cbn [curlT_at].
    - pose proof (S 1 2)%nat as S1. pose proof (S 2 1)%nat as S2. cbn [aoff] in *.
      rewrite S1, S2 by lia. reflexivity.
    - pose proof (S 2 0)%nat as S1. pose proof (S 0 2)%nat as S2. cbn [aoff] in *.
      rewrite S1, S2 by lia. reflexivity.
    - pose proof (S 0 1)%nat as S1. pose proof (S 1 0)%nat as S2. cbn [aoff] in *.
      rewrite S1, S2 by lia. reflexivity.
  Qed.

  (** Decide whether a component is tangential to an outer face. *)
  Lemma tangential_dec Nx Ny Nz d i j k : in_box Nx Ny Nz d i j k ->
    tangential Nx Ny Nz d i j k \/
    forall a, (a < 3)%nat -> a <> d -> (0 < coord a i j k)%nat /\ (S (coord a i j k) < dim a Nx Ny Nz)%nat.
  Proof.
    intros (Hd & Hi & Hj & Hk).
    assert (W : forall a, (a < 3)%nat -> tangential Nx Ny Nz d i j k \/ a = d \/
       ((0 < coord a i j k)%nat /\ (S (coord a i j k) < dim a Nx Ny Nz)%nat)).
    { intros a Ha. destruct (Nat.eq_dec a d) as [E|E]; [auto|].
      assert (coord a i j k < dim a Nx Ny Nz)%nat by (destruct a as [|[|[|a]]]; cbn; lia).
      destruct (Nat.eq_dec (coord a i j k) 0); [left; exists a; auto|].
      destruct (Nat.eq_dec (coord a i j k) (dim a Nx Ny Nz - 1)); [left; exists a; auto|].
      right. right. lia. }
    destruct (W 0%nat) as [?|W0]; [lia|auto|]. destruct (W 1%nat) as [?|W1]; [lia|auto|].
    destruct (W 2%nat) as [?|W2]; [lia|auto|]. right. intros a Ha Hne.
    assert (a = 0 \/ a = 1 \/ a = 2)%nat as [-> | [-> | ->]] by lia;
      [destruct W0|destruct W1|destruct W2]; congruence || assumption.
  Qed.

  Lemma made_boxed env g g' ar s : made env g g' ar s ->
    (forall a, (a < 3)%nat -> electric (bc_at (sbl s) a) /\ electric (bc_at (sbh s) a)) ->
    boxed (kern_of g g' s).
  Proof.
    intros Hm He d i j k (Hd & Hi & Hj & Hk) Ht. set (K := kern_of g g' s) in *.
    change (kcol K) with (on_ix (@colv T NT (sbl s) (sbh s) (gNx g) (gNy g) (gNz g)) (gNx g) (gNy g) (gNz g)).
    change (kNx K) with (gNx g) in *. change (kNy K) with (gNy g) in *. change (kNz K) with (gNz g) in *.
    rewrite on_ix_ix by assumption. apply colv_wall. apply all_electric_wall; assumption.
  Qed.

  (** ** Light cone *)
  Definition k_agree (K : Kern T) (n i j k : nat) (x y : nat -> T) : Prop :=
    forall d a b c, in_box (kNx K) (kNy K) (kNz K) d a b c -> near n i j k a b c ->
      x (ix (kNx K) (kNy K) (kNz K) d a b c) = y (ix (kNx K) (kNy K) (kNz K) d a b c).

  Lemma up_box Nx Ny Nz c a i j k : (c < 3)%nat -> (a < 3)%nat -> (i < Nx)%nat -> (j < Ny)%nat -> (k < Nz)%nat ->
    (S (coord a i j k) < dim a Nx Ny Nz)%nat -> in_box Nx Ny Nz c (up a 0 i) (up a 1 j) (up a 2 k).
  Proof.
    intros Hc Ha Hi Hj Hk H. destruct a as [|[|[|a]]]; [..|lia]; unfold up; cbn in *; repeat split; lia.
  Qed.
  Lemma dn_box Nx Ny Nz c a i j k : (c < 3)%nat -> (i < Nx)%nat -> (j < Ny)%nat -> (k < Nz)%nat ->
    in_box Nx Ny Nz c (dn a 0 i) (dn a 1 j) (dn a 2 k).
  Proof. intros. unfold dn. repeat split; try assumption; destruct (_ =? _)%nat; lia. Qed.

  Ltac near_tac := unfold near, up, dn in *;
    repeat match goal with |- context [(?x =? ?y)%nat] => destruct (Nat.eqb_spec x y) end; lia.

  Lemma kH_agree (K : Kern T) i j k e e' h h' n : boxed K ->
    k_agree K (S n) i j k e e' -> k_agree K (S n) i j k h h' ->
    k_agree K n i j k (kH K e h) (kH K e' h').
  Proof.
    intros HB He Hh d a b c Hin Hn. apply kH_dep; [exact HB|exact Hin|apply Hh; [exact Hin|near_tac]|].
    destruct Hin as (Hd & Ha & Hb & Hc). intros c' a' Hc' Ha' H1 H2 H3. split.
    - apply He; [repeat split; assumption|near_tac].
    - intros Hup. apply He; [apply up_box; assumption|]. near_tac.
  Qed.

  (** The E update reads H at lower neighbours, which read E at upper neighbours: still within
      one index step. *)
  Lemma kE_agree (K : Kern T) i j k e e' h h' q q' n : boxed K ->
    k_agree K (S n) i j k e e' -> k_agree K (S n) i j k h h' -> k_agree K (S n) i j k q q' ->
    k_agree K n i j k (kE K e (kH K e h) q) (kE K e' (kH K e' h') q').
  Proof.
    intros HB He Hh Hq d a b c Hin Hn.
    assert (N1 : near (S n) i j k a b c) by near_tac.
    apply kE_dep; [exact Hin|apply He; assumption|apply Hq; assumption|].
    destruct (tangential_dec _ _ _ _ _ _ _ Hin) as [Ht|Ht]; [left; apply HB; assumption|right].
    pose proof Hin as (Hd & Ha & Hb & Hc).
    intros b' a' Hb' Ha' H1 H2 H3. destruct (Ht a' Ha' H2) as [P _]. split; [exact P|].
    split; apply kH_dep; try exact HB.
    - repeat split; assumption.
    - apply Hh; [repeat split; assumption|exact N1].
    - intros c0 a0 Hc0 Ha0 _ _ _. split; [apply He; [repeat split; assumption|exact N1]|].
      intros Hup. apply He; [apply up_box; assumption|near_tac].
    - apply dn_box; assumption.
    - apply Hh; [apply dn_box; assumption|near_tac].
    - intros c0 a0 Hc0 Ha0 G1 G2 G3. split; [apply He; [apply dn_box; assumption|near_tac]|].
      destruct (dn_box (kNx K) (kNy K) (kNz K) c0 a' a b c Hc0 Ha Hb Hc) as (_ & D1 & D2 & D3).
      intros Hup. apply He; [apply up_box; assumption|near_tac].
  Qed.

  Definition st_agree (K : Kern T) (n i j k : nat) (a b : St T) : Prop :=
    k_agree K n i j k (te a) (te b) /\ k_agree K n i j k (th a) (th b) /\ k_agree K n i j k (tj a) (tj b) /\
    tfresh a = tfresh b.

  Lemma eff_agree (K : Kern T) n i j k a b : st_agree K n i j k a b ->
    k_agree K n i j k (effE K a) (effE K b) /\ k_agree K n i j k (effH K a) (effH K b).
  Proof.
    intros (A & B & _ & F). split; intros d x y z Hin Hn; unfold effE, effH; rewrite F;
      destruct (_ && _)%bool; try reflexivity; [apply A|apply B]; assumption.
  Qed.

  Lemma kstep_agree (K : Kern T) n i j k a b : boxed K -> st_agree K (S n) i j k a b ->
    st_agree K n i j k (kstep K a) (kstep K b).
  Proof.
    intros HB S. destruct (eff_agree _ _ _ _ _ _ _ S) as [E1 H1]. destruct S as (_ & _ & J1 & _).
    assert (XE : k_agree K n i j k (te (kstep K a)) (te (kstep K b)))
      by (cbn [kstep te]; apply kE_agree; assumption).
    split; [exact XE|]. split; [cbn [kstep th]; apply kH_agree; assumption|]. split; [|reflexivity].
    intros d x y z Hin Hn. specialize (XE d x y z Hin Hn). cbn [kstep te tj] in *. unfold kJ.
    destruct (kcond K); [rewrite XE; reflexivity|]. apply J1; [exact Hin|near_tac].
  Qed.

  Lemma krun_agree (K : Kern T) i j k n h h' : boxed K -> cone (kNx K) (kNy K) (kNz K) i j k n h h' ->
    forall a b, st_agree K n i j k a b -> st_agree K 0 i j k (krun K a h) (krun K b h').
  Proof.
    intros HB. induction 1 as [|n h h' Hc IH|n l l' h h' Hl Hc IH|n l l' h h' Hl Hc IH|n l l' h h' Hl Hc IH];
      intros a b S; [exact S|..]; cbn [krun fold_left]; apply IH.
    - apply kstep_agree; assumption.
    - destruct S as (A & B & C & D). repeat split; cbn [kop te th tj tfresh]; try assumption.
    - destruct S as (A & B & C & D). repeat split; cbn [kop te th tj tfresh]; try assumption.
    - destruct S as (A & B & C & D). repeat split; cbn [kop te th tj tfresh]; try assumption.
  Qed.

  Lemma fields_agree_ix (K : Kern T) n i j k F F' : sized F (kNx K) (kNy K) (kNz K) -> sized F' (kNx K) (kNy K) (kNz K) ->
    fields_agree (kNx K) (kNy K) (kNz K) n i j k F F' <-> k_agree K n i j k (get (farr F)) (get (farr F')).
  Proof.
    intros S S'. unfold fields_agree, k_agree.
    split; intros H d a b c Hin Hn; specialize (H d a b c Hin Hn);
      rewrite !(entry_ix _ (kNx K) (kNy K) (kNz K)) in * by assumption; exact H.
  Qed.

  Lemma light_cone env g g' ar s1 s2 i j k n h1 h2 t1 t2 :
    made env g g' ar s1 -> made env g g' ar s2 -> sstep0 s1 = sstep0 s2 ->
    (forall a, (a < 3)%nat -> electric (bc_at (sbl s1) a) /\ electric (bc_at (sbh s1) a)) ->
    states_agree (gNx g) (gNy g) (gNz g) n i j k s1 s2 ->
    cone (gNx g) (gNy g) (gNz g) i j k n h1 h2 ->
    run s1 h1 = Ok t1 -> run s2 h2 = Ok t2 ->
    (i < gNx g)%nat -> (j < gNy g)%nat -> (k < gNz g)%nat ->
    forall d, (d < 3)%nat -> entry (sE t1) d i j k = entry (sE t2) d i j k /\
      entry (sH t1) d i j k = entry (sH t2) d i j k /\ entry (sJ t1) d i j k = entry (sJ t2) d i j k.
  Proof.
    intros M1 M2 F He (SE & SH & SJ) HC R1 R2 Hi Hj Hk d Hd.
    pose proof (made_boxed _ _ _ _ _ M1 He) as HB.
    destruct (made_run_abs _ _ _ _ _ _ _ M1 R1) as (G1 & G1' & _ & A1 & _).
    destruct (made_run_abs _ _ _ _ _ _ _ M2 R2) as (G2 & G2' & _ & A2 & _).
    rewrite (made_same _ _ _ _ _ _ M1 M2) in *. set (K := kern_of g g' s1) in *.
    assert (S : st_agree K n i j k (abs s1) (abs s2)).
    { split; [|split; [|split; [|exact F]]]; cbn [abs te th tj].
      - apply fields_agree_ix; [apply G1|apply G2|exact SE].
      - apply fields_agree_ix; [apply G1|apply G2|exact SH].
      - apply fields_agree_ix; [apply G1|apply G2|exact SJ]. }
    destruct (krun_agree K i j k n h1 h2 HB HC _ _ S) as (XE & XH & XJ & _).
    assert (Hin : in_box (kNx K) (kNy K) (kNz K) d i j k) by (repeat split; assumption).
    assert (Hn : near 0 i j k i j k) by near_tac.
    pose proof (ix_lt (kNx K) (kNy K) (kNz K) d i j k Hd Hi Hj Hk) as Hlt.
    rewrite !(entry_ix _ (kNx K) (kNy K) (kNz K)) by (apply G1' || apply G2').
    destruct (A1 _ Hlt) as (P1 & P2 & P3). destruct (A2 _ Hlt) as (Q1 & Q2 & Q3).
    cbn [abs te th tj] in P1, P2, P3, Q1, Q2, Q3. rewrite P1, P2, P3, Q1, Q2, Q3.
    split; [apply XE; assumption|]. split; [apply XH; assumption|apply XJ; assumption].
  Qed.

  (** ** Ghost layers of an electric box do not feed back *)
  Definition in_agree (K : Kern T) (a b : St T) : Prop :=
    forall d i j k, in_box (kNx K) (kNy K) (kNz K) d i j k ->
      let r := ix (kNx K) (kNy K) (kNz K) d i j k in
      (ghE (kNx K) (kNy K) (kNz K) d i j k = false -> te a r = te b r /\ tj a r = tj b r) /\
      (ghH (kNx K) (kNy K) (kNz K) d i j k = false -> th a r = th b r).

  Lemma ghH_false Nx Ny Nz d i j k : (d < 3)%nat ->
    ghH Nx Ny Nz d i j k = false <->
    (forall a, (a < 3)%nat -> a <> d -> coord a i j k <> (dim a Nx Ny Nz - 1)%nat).
  Proof.
    intros Hd. unfold ghH, axes. cbn [existsb].
    split.
    - intros H. repeat rewrite orb_false_iff in H. destruct H as (H0 & H1 & H2 & _).
      intros a Ha Hne.
      assert (W : forall a, negb (d =? a)%nat && (coord a i j k =? dim a Nx Ny Nz - 1)%nat = false -> a <> d ->
         coord a i j k <> (dim a Nx Ny Nz - 1)%nat).
      { intros b Hb Hbd. destruct (Nat.eqb_spec d b); [congruence|]. cbn in Hb. apply Nat.eqb_neq. exact Hb. }
      assert (a = 0 \/ a = 1 \/ a = 2)%nat as [-> | [-> | ->]] by lia; apply W; assumption.
    - intros H.
      assert (W : forall a, (a < 3)%nat -> negb (d =? a)%nat && (coord a i j k =? dim a Nx Ny Nz - 1)%nat = false).
      { intros a Ha. destruct (Nat.eqb_spec d a); [reflexivity|]. cbn. apply Nat.eqb_neq, H; [exact Ha|congruence]. }
      rewrite !W by lia. reflexivity.
  Qed.

  Lemma coord_up a b i j k : (a < 3)%nat -> (b < 3)%nat ->
    coord b (up a 0 i) (up a 1 j) (up a 2 k) = if (a =? b)%nat then S (coord b i j k) else coord b i j k.
  Proof. intros Ha Hb. destruct a as [|[|[|a]]]; [..|lia]; destruct b as [|[|[|b]]]; try lia; reflexivity. Qed.
  Lemma coord_dn a b i j k : (a < 3)%nat -> (b < 3)%nat ->
    coord b (dn a 0 i) (dn a 1 j) (dn a 2 k) = if (a =? b)%nat then (coord b i j k - 1)%nat else coord b i j k.
  Proof. intros Ha Hb. destruct a as [|[|[|a]]]; [..|lia]; destruct b as [|[|[|b]]]; try lia; reflexivity. Qed.
  Lemma coord_lt Nx Ny Nz a i j k : (i < Nx)%nat -> (j < Ny)%nat -> (k < Nz)%nat ->
    (coord a i j k < dim a Nx Ny Nz)%nat.
  Proof. intros. destruct a as [|[|[|a]]]; cbn; assumption. Qed.

  Lemma kstep_in (K : Kern T) a b : boxed K -> in_agree K a b -> in_agree K (kstep K a) (kstep K b).
  Proof.
    intros HB S.
    assert (EE : forall d i j k, in_box (kNx K) (kNy K) (kNz K) d i j k -> ghE (kNx K) (kNy K) (kNz K) d i j k = false ->
      effE K a (ix (kNx K) (kNy K) (kNz K) d i j k) = effE K b (ix (kNx K) (kNy K) (kNz K) d i j k)).
    { intros d i j k Hin Hg. pose proof Hin as (_ & Hi & Hj & Hk). unfold effE.
      rewrite on_ix_ix by assumption. rewrite Hg, !andb_false_r. apply (S d i j k Hin). exact Hg. }
    assert (EH : forall d i j k, in_box (kNx K) (kNy K) (kNz K) d i j k -> ghH (kNx K) (kNy K) (kNz K) d i j k = false ->
      effH K a (ix (kNx K) (kNy K) (kNz K) d i j k) = effH K b (ix (kNx K) (kNy K) (kNz K) d i j k)).
    { intros d i j k Hin Hg. pose proof Hin as (_ & Hi & Hj & Hk). unfold effH.
      rewrite on_ix_ix by assumption. rewrite Hg, !andb_false_r. apply (S d i j k Hin). exact Hg. }
    assert (XH : forall d i j k, in_box (kNx K) (kNy K) (kNz K) d i j k -> ghH (kNx K) (kNy K) (kNz K) d i j k = false ->
      th (kstep K a) (ix (kNx K) (kNy K) (kNz K) d i j k) = th (kstep K b) (ix (kNx K) (kNy K) (kNz K) d i j k)).
    { intros d i j k Hin Hg. cbn [kstep th]. pose proof Hin as (Hd & Hi & Hj & Hk).
      pose proof (proj1 (ghH_false _ _ _ d i j k Hd) Hg) as Hg'.
      apply kH_dep; [exact HB|exact Hin|apply EH; assumption|].
      intros c x Hc Hx H1 H2 H3. split.
      - apply EE; [repeat split; assumption|]. unfold ghE. apply Nat.eqb_neq, Hg'; assumption.
      - intros Hup. apply EE; [apply up_box; assumption|]. unfold ghE. apply Nat.eqb_neq.
        rewrite coord_up by assumption. destruct (Nat.eqb_spec x c); [congruence|]. apply Hg'; assumption. }
    assert (XE : forall d i j k, in_box (kNx K) (kNy K) (kNz K) d i j k -> ghE (kNx K) (kNy K) (kNz K) d i j k = false ->
      te (kstep K a) (ix (kNx K) (kNy K) (kNz K) d i j k) = te (kstep K b) (ix (kNx K) (kNy K) (kNz K) d i j k)).
    { intros d i j k Hin Hg. cbn [kstep te]. pose proof Hin as (Hd & Hi & Hj & Hk).
      apply kE_dep; [exact Hin|apply EE; assumption|apply (S d i j k Hin); exact Hg|].
      destruct (tangential_dec _ _ _ _ _ _ _ Hin) as [Ht|Ht]; [left; apply HB; assumption|right].
      unfold ghE in Hg. apply Nat.eqb_neq in Hg.
      intros c x Hc Hx H1 H2 H3. destruct (Ht x Hx H2) as [P P']. split; [exact P|].
      split; apply XH.
      - repeat split; assumption.
      - apply ghH_false; [exact Hc|]. intros y Hy Hyc. destruct (Nat.eq_dec y d) as [->|Hyd]; [exact Hg|].
        destruct (Ht y Hy Hyd). lia.
      - apply dn_box; assumption.
      - apply ghH_false; [exact Hc|]. intros y Hy Hyc. rewrite coord_dn by assumption.
        destruct (Nat.eq_dec y d) as [->|Hyd].
        + destruct (Nat.eqb_spec x d); [congruence|exact Hg].
        + destruct (Ht y Hy Hyd). destruct (x =? y)%nat; lia. }
    intros d i j k Hin r. split; intros Hg.
    - split; [apply XE; assumption|]. pose proof (XE d i j k Hin Hg) as X. cbn [kstep tj te] in *. unfold kJ.
      destruct (kcond K); [fold r in X; rewrite X; reflexivity|]. apply (S d i j k Hin). exact Hg.
    - apply XH; assumption.
  Qed.

  Lemma krun_in (K : Kern T) h : boxed K -> forall a b, in_agree K a b -> in_agree K (krun K a h) (krun K b h).
  Proof.
    intros HB. induction h as [|o h IH]; intros a b S; [exact S|]. cbn [krun fold_left]. apply IH.
    destruct o; cbn [kop]; [apply kstep_in; assumption|..]; intros d i j k Hin r; cbn [te th tj];
      destruct (S d i j k Hin) as [A B]; split; intros Hg; try split; try reflexivity; try (apply A; exact Hg);
      try (apply B; exact Hg).
  Qed.
End Local.
