(** Lemmas: linearity, invertibility, frozen entries, restart. *)
From Coq Require Import List Arith ZArith Bool String Lia Ring Field.
From Verif Require Import Num Vec Index Matrix FieldModel FieldSpec FieldProofs FieldProofs2
  GridModel GridProofs SolverModel SolverPlanes SolverBuild SolverMaterials SolverKern SolverCons SolverSpec
  SolverFlux SolverEnergy.
Import ListNotations.

Section Same.
  Context {T : Type} {NT : Num T} {LT : NumLaws T} {OT : NumOrd T}.

  (** Two solvers made by the same call have the same coefficients. *)
  Lemma made_first env g g' ar (s : Solver T) : made env g g' ar s ->
    exists s0, construct env g ar = Ok (s0, g') /\ made env g g' ar s0 /\ kern_of g g' s = kern_of g g' s0.
  Proof.
    induction 1 as [s Hg Hc|s o s' Hm IH E].
    - exists s. split; [exact Hc|]. split; [constructor; assumption|reflexivity].
    - destruct IH as [s0 [Hc [Hm0 E0]]]. exists s0. split; [exact Hc|]. split; [exact Hm0|].
      rewrite <- E0. eapply kern_of_op; [apply (made_good _ _ _ _ _ Hm)|exact E].
  Qed.
  Lemma made_same env g g' ar (s s' : Solver T) : made env g g' ar s -> made env g g' ar s' ->
    kern_of g g' s' = kern_of g g' s.
  Proof.
    intros H H'. destruct (made_first _ _ _ _ _ H) as [s0 [E [_ ->]]].
    destruct (made_first _ _ _ _ _ H') as [s0' [E' [_ ->]]]. rewrite E in E'. injection E' as <-. reflexivity.
  Qed.

  Lemma entry_abs (K : Kern T) F d i j k : sized F (kNx K) (kNy K) (kNz K) ->
    entry F d i j k = get (farr F) (ix (kNx K) (kNy K) (kNz K) d i j k).
  Proof. apply entry_ix. Qed.

  (** Pointwise statements about entries and about flat indices are the same. *)
  Lemma entries_flat Nx Ny Nz (P : T -> T -> Prop) (F G : Field T) :
    sized F Nx Ny Nz -> sized G Nx Ny Nz ->
    (forall d i j k, in_box Nx Ny Nz d i j k -> P (entry F d i j k) (entry G d i j k)) <->
    (forall n, n < 3 * (Nx * Ny * Nz) -> P (get (farr F) n) (get (farr G) n)).
  Proof.
    intros SF SG. split; intros H.
    - intros n Hn. destruct (ix_surj _ _ _ _ Hn) as [d [i [j [k [Hd [Hi [Hj [Hk ->]]]]]]]].
      rewrite <- (entry_ix F), <- (entry_ix G) by assumption. apply H. repeat split; assumption.
    - intros d i j k (Hd & Hi & Hj & Hk). rewrite (entry_ix F Nx Ny Nz), (entry_ix G Nx Ny Nz) by assumption.
      apply H. apply ix_lt; assumption.
  Qed.
  Lemma field_eq Nx Ny Nz (F G : Field T) : sized F Nx Ny Nz -> sized G Nx Ny Nz ->
    (forall n, n < 3 * (Nx * Ny * Nz) -> get (farr F) n = get (farr G) n) -> F = G.
  Proof.
    intros S S' HF. pose proof (sized_len _ _ _ _ S) as L. pose proof (sized_len _ _ _ _ S') as L'.
    destruct S as [_ [X [Y Z]]], S' as [_ [X' [Y' Z']]].
    assert (farr F = farr G) by (apply vec_eq; [congruence|]; intros n Hn; apply HF; lia).
    destruct F, G; cbn in *; congruence.
  Qed.
End Same.

Section Linear.
  Context {T : Type} {NT : Num T} {LT : NumLaws T} {OT : NumOrd T}.
  Add Field field_T_lin : (@num_field T NT LT).
  Local Open Scope num_scope.

  Lemma kcurl_lin (K : Kern T) p q (e e' : nat -> T) r :
    kcurl K (fun n => p * e n + q * e' n) r = p * kcurl K e r + q * kcurl K e' r.
  Proof.
    unfold kcurl, curl_at, Sh, ext, comp.
    destruct (r / kN K)%nat as [|[|d]];
      repeat match goal with |- context [if ?b then _ else _] => destruct b end; ring.
  Qed.
  Lemma kcurlT_lin (K : Kern T) p q (e e' : nat -> T) r :
    kcurlT K (fun n => p * e n + q * e' n) r = p * kcurlT K e r + q * kcurlT K e' r.
  Proof.
    unfold kcurlT, curlT_at, ShT, comp.
    destruct (r / kN K)%nat as [|[|d]];
      repeat match goal with |- context [if ?b then _ else _] => destruct b end; ring.
  Qed.

  Definition st_lin (K : Kern T) (p q : T) (a b c : St T) : Prop :=
    (forall n, (n < 3 * kN K)%nat -> te c n = p * te a n + q * te b n /\
       th c n = p * th a n + q * th b n /\ tj c n = p * tj a n + q * tj b n) /\
    tfresh a = tfresh c /\ tfresh b = tfresh c.

  Lemma kstep_lin (K : Kern T) p q a b c : st_lin K p q a b c ->
    st_lin K p q (kstep K a) (kstep K b) (kstep K c).
  Proof.
    intros [H [Fa Fb]].
    assert (He : forall n, (n < 3 * kN K)%nat -> effE K c n = p * effE K a n + q * effE K b n).
    { intros n Hn. unfold effE. rewrite Fa, Fb. destruct (_ && _)%bool; [ring|apply H; exact Hn]. }
    assert (Hh : forall n, (n < 3 * kN K)%nat -> effH K c n = p * effH K a n + q * effH K b n).
    { intros n Hn. unfold effH. rewrite Fa, Fb. destruct (_ && _)%bool; [ring|apply H; exact Hn]. }
    assert (AH : forall n, (n < 3 * kN K)%nat -> th (kstep K c) n = p * th (kstep K a) n + q * th (kstep K b) n).
    { intros n Hn. cbn [kstep th]. unfold kH. rewrite Hh by exact Hn.
      rewrite (kcurl_ext K (effE K c) (fun n => p * effE K a n + q * effE K b n) n Hn He).
      rewrite kcurl_lin. ring. }
    assert (AE : forall n, (n < 3 * kN K)%nat -> te (kstep K c) n = p * te (kstep K a) n + q * te (kstep K b) n).
    { intros n Hn. cbn [kstep te]. unfold kE. rewrite He by exact Hn. destruct (H n Hn) as [_ [_ ->]].
      change (kH K (effE K a) (effH K a)) with (th (kstep K a)).
      change (kH K (effE K b) (effH K b)) with (th (kstep K b)).
      change (kH K (effE K c) (effH K c)) with (th (kstep K c)).
      rewrite (kcurlT_ext K (th (kstep K c)) (fun n => p * th (kstep K a) n + q * th (kstep K b) n) n Hn AH).
      rewrite kcurlT_lin. ring. }
    split; [|split; reflexivity]. intros n Hn. split; [apply AE; exact Hn|]. split; [apply AH; exact Hn|].
    cbn [kstep tj]. unfold kJ. destruct (kcond K).
    - change (kE K (effE K c) _ (tj c) n) with (te (kstep K c) n).
      change (kE K (effE K a) _ (tj a) n) with (te (kstep K a) n).
      change (kE K (effE K b) _ (tj b) n) with (te (kstep K b) n). rewrite AE by exact Hn. ring.
    - apply H. exact Hn.
  Qed.

  Lemma fill_lin (K : Kern T) p q a b c n : (0 < kN K)%nat -> arr_ok K c -> arr_lin p q a b c ->
    (n < 3 * kN K)%nat -> fill K c n = p * fill K a n + q * fill K b n.
  Proof.
    intros HN Ho [La [Lb H]] Hn. unfold fill. rewrite La, Lb.
    destruct (Nat.eqb_spec (List.length c) (3 * kN K)) as [E|E]; [apply H; lia|].
    destruct Ho as [Ho|Ho]; [contradiction|]. apply H. lia.
  Qed.

  Lemma kop_lin (K : Kern T) p q a b c o1 o2 o3 : (0 < kN K)%nat -> op_ok K o3 -> op_lin p q o1 o2 o3 ->
    st_lin K p q a b c -> st_lin K p q (kop K a o1) (kop K b o2) (kop K c o3).
  Proof.
    intros HN Ho Hl Hs.
    destruct o1, o2, o3; cbn [op_lin] in Hl; try contradiction; [apply kstep_lin; exact Hs|..];
      destruct Hs as [Hs [Fa Fb]]; (split; [|split; assumption]); intros n Hn;
      destruct (Hs n Hn) as [? [? ?]]; cbn [kop te th tj]; repeat split; try assumption;
      try (apply fill_lin; try assumption; try apply Ho; try apply Hl; assumption); try ring.
  Qed.

  Lemma krun_lin (K : Kern T) p q h1 h2 h3 : (0 < kN K)%nat -> hist_lin p q h1 h2 h3 -> Forall (op_ok K) h3 ->
    forall a b c, st_lin K p q a b c -> st_lin K p q (krun K a h1) (krun K b h2) (krun K c h3).
  Proof.
    intros HN. induction 1 as [|o1 o2 o3 h1 h2 h3 Ho Hh IH]; intros Hok a b c Hs; [exact Hs|].
    inversion Hok as [|? ? Ho3 Hok']; subst. cbn [krun fold_left]. apply (IH Hok').
    apply kop_lin; assumption.
  Qed.

  Lemma states_lin_abs (K : Kern T) p q s1 s2 s3 : good K s1 -> good K s2 -> good K s3 ->
    states_lin p q (kNx K) (kNy K) (kNz K) s1 s2 s3 <->
    (forall n, (n < 3 * kN K)%nat -> te (abs s3) n = p * te (abs s1) n + q * te (abs s2) n /\
       th (abs s3) n = p * th (abs s1) n + q * th (abs s2) n /\
       tj (abs s3) n = p * tj (abs s1) n + q * tj (abs s2) n).
  Proof.
    intros G1 G2 G3. unfold states_lin, fields_lin. split.
    - intros [A [B C]] n Hn. destruct (ix_surj _ _ _ _ Hn) as [d [i [j [k [Hd [Hi [Hj [Hk ->]]]]]]]].
      cbn [abs te th tj].
      rewrite <- !entry_ix by (apply G1 || apply G2 || apply G3).
      assert (X : in_box (kNx K) (kNy K) (kNz K) d i j k) by (repeat split; assumption).
      repeat split; [apply A|apply B|apply C]; exact X.
    - intros H. assert (Q : forall d i j k, in_box (kNx K) (kNy K) (kNz K) d i j k ->
        (ix (kNx K) (kNy K) (kNz K) d i j k < 3 * kN K)%nat) by (intros d i j k (? & ? & ? & ?); apply ix_lt; assumption).
      split; [|split]; intros d i j k X; destruct (H _ (Q _ _ _ _ X)) as [A [B C]];
        rewrite !(entry_ix _ (kNx K) (kNy K) (kNz K)) by (apply G1 || apply G2 || apply G3); assumption.
  Qed.

  Lemma good_N (K : Kern T) s : good K s -> (0 < kN K)%nat.
  Proof. intros G. pose proof (gd_px _ _ G). pose proof (gd_py _ _ G). pose proof (gd_pz _ _ G). unfold kN. nia. Qed.

  Lemma superposition env g g' ar p q s1 s2 s3 h1 h2 h3 t1 t2 t3 :
    made env g g' ar s1 -> made env g g' ar s2 -> made env g g' ar s3 ->
    sstep0 s1 = sstep0 s3 -> sstep0 s2 = sstep0 s3 ->
    states_lin p q (gNx g) (gNy g) (gNz g) s1 s2 s3 -> hist_lin p q h1 h2 h3 ->
    run s1 h1 = Ok t1 -> run s2 h2 = Ok t2 -> run s3 h3 = Ok t3 ->
    states_lin p q (gNx g) (gNy g) (gNz g) t1 t2 t3.
  Proof.
    intros M1 M2 M3 F1 F2 HL HH R1 R2 R3.
    destruct (made_run_abs _ _ _ _ _ _ _ M1 R1) as (G1 & G1' & O1 & A1 & _).
    destruct (made_run_abs _ _ _ _ _ _ _ M2 R2) as (G2 & G2' & O2 & A2 & _).
    destruct (made_run_abs _ _ _ _ _ _ _ M3 R3) as (G3 & G3' & O3 & A3 & _).
    rewrite (made_same _ _ _ _ _ _ M1 M2) in *. rewrite (made_same _ _ _ _ _ _ M1 M3) in *.
    set (K := kern_of g g' s1) in *.
    apply (states_lin_abs K p q t1 t2 t3 G1' G2' G3').
    assert (S0 : st_lin K p q (abs s1) (abs s2) (abs s3)).
    { split; [apply (states_lin_abs K p q s1 s2 s3 G1 G2 G3); exact HL|split; assumption]. }
    destruct (krun_lin K p q h1 h2 h3 (good_N K s1 G1) HH O3 _ _ _ S0) as [S _].
    intros n Hn. destruct (A1 n Hn) as (-> & -> & ->). destruct (A2 n Hn) as (-> & -> & ->).
    destruct (A3 n Hn) as (-> & -> & ->). apply S. exact Hn.
  Qed.

  (** Zero fields stay zero. *)
  Lemma kzero_step (K : Kern T) a : (forall n, (n < 3 * kN K)%nat -> te a n = 0 /\ th a n = 0 /\ tj a n = 0) ->
    forall n, (n < 3 * kN K)%nat -> te (kstep K a) n = 0 /\ th (kstep K a) n = 0 /\ tj (kstep K a) n = 0.
  Proof.
    intros H.
    assert (S : st_lin K 0 0 a a a).
    { split; [|auto]. intros n Hn. destruct (H n Hn) as (-> & -> & ->). repeat split; ring. }
    destruct (kstep_lin K 0 0 a a a S) as [S' _]. intros n Hn. destruct (S' n Hn) as (-> & -> & ->).
    repeat split; ring.
  Qed.

  Lemma silence env g g' ar s n s' : made env g g' ar s -> steps s n = Ok s' ->
    (forall d i j k, in_box (gNx g) (gNy g) (gNz g) d i j k ->
       entry (sE s) d i j k = 0 /\ entry (sH s) d i j k = 0 /\ entry (sJ s) d i j k = 0) ->
    forall d i j k, in_box (gNx g) (gNy g) (gNz g) d i j k ->
       entry (sE s') d i j k = 0 /\ entry (sH s') d i j k = 0 /\ entry (sJ s') d i j k = 0.
  Proof.
    intros Hm Hr H0. pose proof (made_good _ _ _ _ _ Hm) as G. set (K := kern_of g g' s) in *.
    destruct (steps_good K s n G) as [s1 [E1 [G1 [A1 _]]]]. rewrite Hr in E1. injection E1 as <-.
    assert (Z : forall m r, (r < 3 * kN K)%nat -> te (Nat.iter m (kstep K) (abs s)) r = 0 /\
       th (Nat.iter m (kstep K) (abs s)) r = 0 /\ tj (Nat.iter m (kstep K) (abs s)) r = 0).
    { induction m as [|m IH]; [|apply kzero_step; exact IH].
      intros r Hr'. destruct (ix_surj _ _ _ _ Hr') as [d [i [j [k [Hd [Hi [Hj [Hk ->]]]]]]]].
      cbn [Nat.iter nat_rect abs te th tj]. rewrite <- !entry_ix by apply G. apply H0. repeat split; assumption. }
    intros d i j k (Hd & Hi & Hj & Hk).
    pose proof (ix_lt (kNx K) (kNy K) (kNz K) d i j k Hd Hi Hj Hk) as Hlt.
    rewrite !(entry_ix _ (kNx K) (kNy K) (kNz K)) by apply G1.
    destruct (A1 _ Hlt) as (X & Y & W). cbn [abs te th tj] in X, Y, W. rewrite X, Y, W. apply Z. exact Hlt.
  Qed.
End Linear.
