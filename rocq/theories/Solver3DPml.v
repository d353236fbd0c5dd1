(** The absorbing blocks of the three-dimensional solver after the constructor. *)
From Coq Require Import List Arith ZArith Bool String Lia.
From Verif Require Import Num FieldModel GridModel SolverModel WakeModel Grid2DModel Grid3DModel Solver3DModel.
Import ListNotations.

Definition side (q : at3) (a : axis3) : pos3 := match a with AX => fst (fst q) | AY => snd (fst q) | AZ => snd q end.
Lemma at3_eqb_ok a b : at3_eqb a b = true <-> a = b.
Proof. destruct a as [[a1 a2] a3], b as [[b1 b2] b3]. destruct a1, a2, a3, b1, b2, b3; cbn; split; intros H; (reflexivity || discriminate). Qed.
Lemma at3_eqb_refl a : at3_eqb a a = true. Proof. apply at3_eqb_ok. reflexivity. Qed.
Lemma axis3_eqb_ok a b : axis3_eqb a b = true <-> a = b.
Proof. destruct a, b; cbn; split; intros H; (reflexivity || discriminate). Qed.
Definition mem2 (q : at3) (a : axis3) (l : list (at3 * axis3 * bool)) : bool := existsb (fun e => at3_eqb (fst (fst e)) q && axis3_eqb (snd (fst e)) a) l.
(** the walls beside a place are absorbing *)
Definition present (lo hi : axis3 -> bool) (q : at3) : bool :=
  negb (at3_eqb q (Mid, Mid, Mid)) && forallb (fun a => match side q a with Lo => lo a | Mid => true | Hi => hi a end) [AX; AY; AZ].
Definition sane (lo hi : axis3 -> bool) (e : at3 * axis3 * bool) : bool :=
  present lo hi (fst (fst e)) && match side (fst (fst e)) (snd (fst e)), snd e with Lo, true | Hi, false => true | _, _ => false end.

Section Pml3.
  Context {T : Type} {NT : Num T}.
  Local Open Scope num_scope.
  Context (w : @setup3 T).
  Definition layers (q : at3) (a : axis3) : nat := match side q a with Lo => n_lo w a | Mid => 0%nat | Hi => n_hi w a end.
  Definition bsize (q : at3) (a : axis3) : nat := match side q a with Lo => n_lo w a | Mid => w_n w a | Hi => n_hi w a end.
  Definition sm_at (q : at3) (a : axis3) : T := match side q a with Lo => sm_lo w a | Mid => nzero | Hi => sm_hi w a end.
  (** the layer, counted from the grid, of an entry of an array with dim entries *)
  Definition lay (q : at3) (a : axis3) (dim i : nat) : nat := match side q a with Lo => (dim - (i + 1))%nat | _ => i end.
  Definition prof (q : at3) (a : axis3) (dim : nat) (f : T -> T) (i : nat) : T :=
    if (i <? dim)%nat && (lay q a dim i <? layers q a)%nat then f (sm_at q a * ramp (lay q a dim i) (layers q a)) else 0.
  Definition star (v : T) : T := v * (w_mu w / w_eps w).
  Definition inv (dn : list (at3 * axis3 * bool)) (m : mat3) : Prop := forall q,
    match m q with
    | None => present (w_lo w) (w_hi w) q = false
    | Some b => present (w_lo w) (w_hi w) q = true /\ b_done b = false /\ forall a, b_n b a = bsize q a /\
        (forall i, b_sigma b a i = if mem2 q a dn then prof q a (S (bsize q a)) (fun v => v) i else 0) /\
        (forall i, b_star b a i = if mem2 q a dn then prof q a (bsize q a) star i else 0)
    end.
  Lemma prof_0 q a dim f i : layers q a = 0%nat -> prof q a dim f i = 0.
  Proof. intros H. unfold prof. rewrite H. replace (lay q a dim i <? 0)%nat with false by (symmetry; apply Nat.ltb_ge; lia). rewrite andb_false_r. reflexivity. Qed.
  Lemma inv_fill dn m e : inv dn m -> sane (w_lo w) (w_hi w) e = true -> exists m', fill w (fst (fst e)) (snd (fst e)) (snd e) m = Ok m' /\ inv (e :: dn) m'.
  Proof.
    destruct e as [[q a] low]. intros I Sn. cbn [fst snd]. unfold sane in Sn. cbn [fst snd] in Sn. apply andb_true_iff in Sn as [Pq Sd].
    assert (Ln : (if low then n_lo w a else n_hi w a) = layers q a) by (unfold layers; destruct (side q a), low; (reflexivity || discriminate)).
    assert (Sm : (if low then sm_lo w a else sm_hi w a) = sm_at q a) by (unfold sm_at; destruct (side q a), low; (reflexivity || discriminate)).
    assert (Bs : bsize q a = layers q a) by (unfold bsize, layers; destruct (side q a), low; (reflexivity || discriminate)).
    assert (Ly : forall dim i, (if low then (dim - (i + 1))%nat else i) = lay q a dim i) by (intros; unfold lay; destruct (side q a), low; (reflexivity || discriminate)).
    unfold fill. rewrite Ln, Sm. pose proof (I q) as Iq. destruct (m q) as [b|] eqn:Mq; [|congruence]. destruct Iq as (_ & Bd & Ib).
    destruct (layers q a =? 0)%nat eqn:L0.
    - apply Nat.eqb_eq in L0. exists m. split; [reflexivity|]. intros q'. specialize (I q'). destruct (m q') as [b'|]; [|exact I]. destruct I as (P & D & I). split; [exact P|]. split; [exact D|].
      intros a'. destruct (I a') as (I1 & I2 & I3). split; [exact I1|]. split; intros i; [rewrite I2|rewrite I3]; unfold mem2; cbn [existsb fst snd];
        destruct (at3_eqb q q' && axis3_eqb a a') eqn:E; cbn [orb]; try reflexivity; apply andb_true_iff in E as [E1 E2]; apply at3_eqb_ok in E1; apply axis3_eqb_ok in E2; subst;
        rewrite prof_0 by exact L0; destruct (existsb _ dn); reflexivity.
    - destruct (Ib a) as (Ba & _). rewrite Ba, Bs, Nat.ltb_irrefl. eexists. split; [reflexivity|]. intros q'. destruct (at3_eqb q' q) eqn:Eq.
      + apply at3_eqb_ok in Eq. subst q'. split; [exact Pq|]. split; [exact Bd|]. intros a'. cbn [b_n b_sigma b_star]. destruct (Ib a') as (I1 & I2 & I3). split; [exact I1|].
        unfold mem2 in *. cbn [existsb fst snd]. rewrite at3_eqb_refl. destruct (axis3_eqb a' a) eqn:Ea.
        * apply axis3_eqb_ok in Ea. subst a'. replace (axis3_eqb a a) with true by (symmetry; apply axis3_eqb_ok; reflexivity). cbn [andb orb]. rewrite Bs. split; intros i; rewrite Ly; unfold prof.
          -- destruct (_ && _) eqn:K; [reflexivity|]. rewrite I2. destruct (existsb _ dn); [|reflexivity]. unfold prof. rewrite Bs, K. reflexivity.
          -- destruct (_ && _) eqn:K; [reflexivity|]. rewrite I3. destruct (existsb _ dn); [|reflexivity]. unfold prof. rewrite Bs, K. reflexivity.
        * replace (axis3_eqb a a') with false; [|symmetry; apply not_true_is_false; intros X; apply axis3_eqb_ok in X; subst; destruct a'; discriminate]. cbn [andb orb]. split; [exact I2|exact I3].
      + specialize (I q'). destruct (m q') as [b'|]; [|exact I]. destruct I as (P & D & I). split; [exact P|]. split; [exact D|]. intros a'. destruct (I a') as (I1 & I2 & I3). split; [exact I1|].
        unfold mem2 in *. cbn [existsb fst snd]. replace (at3_eqb q q') with false; [cbn [andb orb]; split; [exact I2|exact I3]|].
        symmetry. apply not_true_is_false. intros X. apply at3_eqb_ok in X. subst. rewrite at3_eqb_refl in Eq. discriminate.
  Qed.
  Lemma inv_same dn dn' m : (forall q a, mem2 q a dn = mem2 q a dn') -> inv dn m -> inv dn' m.
  Proof.
    intros E I q. specialize (I q). destruct (m q) as [b|]; [|exact I]. destruct I as (P & D & I). split; [exact P|]. split; [exact D|]. intros a. rewrite <- E. apply I.
  Qed.
  Lemma inv_all l : forall dn m, inv dn m -> forallb (sane (w_lo w) (w_hi w)) l = true -> exists m', fill_all w l (Ok m) = Ok m' /\ inv (rev l ++ dn) m'.
  Proof.
    induction l as [|e l IH]; intros dn m I S; [exists m; split; [reflexivity|exact I]|]. cbn [forallb] in S. apply andb_true_iff in S as [S1 S2].
    destruct (inv_fill dn m e I S1) as (m1 & F & I1). destruct (IH (e :: dn) m1 I1 S2) as (m2 & F2 & I2). exists m2. split.
    - unfold fill_all in *. cbn [fold_left]. rewrite F. exact F2.
    - cbn [rev]. rewrite <- app_assoc. exact I2.
  Qed.

End Pml3.

(** ** The tables *)
Section Tables.
  Context {T : Type} {NT : Num T} (w : @setup3 T).
  Definition tb (x y z : bool) (a : axis3) : bool := match a with AX => x | AY => y | AZ => z end.
  Lemma present_ext lo hi lo' hi' q : (forall a, lo a = lo' a) -> (forall a, hi a = hi' a) -> present lo hi q = present lo' hi' q.
  Proof. intros E F. unfold present. cbn [forallb]. rewrite !E, !F. reflexivity. Qed.
  Lemma sane_ext lo hi lo' hi' e : (forall a, lo a = lo' a) -> (forall a, hi a = hi' a) -> sane lo hi e = sane lo' hi' e.
  Proof. intros E F. unfold sane. rewrite (present_ext lo hi lo' hi') by assumption. reflexivity. Qed.
  Definition good6 (lx hx ly hy lz hz : bool) : bool := Bool.eqb lz hz || negb ((lx || hx) && (ly || hy)).
  Definition fills6 (lx hx ly hy lz hz : bool) : list (at3 * axis3 * bool) :=
    fills {| w_lo := tb lx ly lz; w_hi := tb hx hy hz; w_n := w_n w; w_nlo := w_nlo w; w_nhi := w_nhi w; w_d := w_d w; w_eps := w_eps w; w_mu := w_mu w; w_c := w_c w; w_logr := w_logr w |}.
  Definition places : list at3 := flat_map (fun x => flat_map (fun y => map (fun z => (x, y, z)) [Lo; Mid; Hi]) [Lo; Mid; Hi]) [Lo; Mid; Hi].
  Lemma in_places q : In q places. Proof. destruct q as [[[] []] []]; cbn; tauto. Qed.
  Lemma fills_tab lx hx ly hy lz hz : good6 lx hx ly hy lz hz = true ->
    forallb (sane (tb lx ly lz) (tb hx hy hz)) (fills6 lx hx ly hy lz hz) = true /\
    forallb (fun q => forallb (fun a => Bool.eqb (mem2 q a (fills6 lx hx ly hy lz hz)) (present (tb lx ly lz) (tb hx hy hz) q && negb (pos3_eqb (side q a) Mid))) [AX; AY; AZ]) places = true.
  Proof. destruct lx, hx, ly, hy, lz, hz; intros H; vm_compute in H |- *; (discriminate || split; reflexivity). Qed.
  Definition good_walls3 : Prop := w_lo w AZ = w_hi w AZ \/ ~ ((w_lo w AX = true \/ w_hi w AX = true) /\ (w_lo w AY = true \/ w_hi w AY = true)).
  Lemma good6_ok : good_walls3 -> good6 (w_lo w AX) (w_hi w AX) (w_lo w AY) (w_hi w AY) (w_lo w AZ) (w_hi w AZ) = true.
  Proof.
    unfold good_walls3, good6. destruct (w_lo w AX), (w_hi w AX), (w_lo w AY), (w_hi w AY), (w_lo w AZ), (w_hi w AZ); cbn; try reflexivity; intros [H|H]; try discriminate; exfalso; apply H; split; tauto.
  Qed.
  Lemma fills_ok : good_walls3 -> forallb (sane (w_lo w) (w_hi w)) (fills w) = true /\
    forall q a, mem2 q a (fills w) = present (w_lo w) (w_hi w) q && negb (pos3_eqb (side q a) Mid).
  Proof.
    intros G. apply good6_ok in G. destruct (fills_tab _ _ _ _ _ _ G) as [A B].
    change (fills6 (w_lo w AX) (w_hi w AX) (w_lo w AY) (w_hi w AY) (w_lo w AZ) (w_hi w AZ)) with (fills w) in A, B.
    assert (E : forall a, tb (w_lo w AX) (w_lo w AY) (w_lo w AZ) a = w_lo w a) by (intros []; reflexivity).
    assert (F : forall a, tb (w_hi w AX) (w_hi w AY) (w_hi w AZ) a = w_hi w a) by (intros []; reflexivity).
    split.
    - rewrite forallb_forall in *. intros e He. rewrite <- (A e He). symmetry. apply sane_ext; assumption.
    - intros q a. rewrite forallb_forall in B. specialize (B q (in_places q)). rewrite forallb_forall in B. specialize (B a ltac:(destruct a; cbn; tauto)).
      apply Bool.eqb_prop in B. rewrite B. rewrite (present_ext _ _ (w_lo w) (w_hi w)) by assumption. reflexivity.
  Qed.
  Lemma connect_ok : (w_hi w AY = true -> w_lo w AZ = true \/ w_hi w AZ = true -> n_lo w AY = n_hi w AY) -> inv w [] (connect3 w).
  Proof.
    intros H. unfold inv. intros q. unfold connect3, created, present, bsize, n_lo, n_hi in *. cbn [existsb mem2].
    destruct (w_lo w AX) eqn:E1, (w_hi w AX) eqn:E2, (w_lo w AY) eqn:E3, (w_hi w AY) eqn:E4, (w_lo w AZ) eqn:E5, (w_hi w AZ) eqn:E6; try specialize (H eq_refl (or_introl eq_refl)); try specialize (H eq_refl (or_intror eq_refl));
      destruct q as [[[] []] []]; cbn [List.find fst snd andb at3_eqb pos3_eqb negb side forallb fresh_block b_n b_sigma b_star b_done]; rewrite ?E1, ?E2, ?E3, ?E4, ?E5, ?E6; try reflexivity;
      (split; [reflexivity|split; [reflexivity|intros a; split; [destruct a; cbn [tri side fst snd]; rewrite ?E1, ?E2, ?E3, ?E4, ?E5, ?E6; auto|split; intros; reflexivity]]]).
  Qed.
  Lemma build_ok : good_walls3 -> (w_hi w AY = true -> w_lo w AZ = true \/ w_hi w AZ = true -> n_lo w AY = n_hi w AY) -> exists m, build3 w = Ok m /\ forall q,
    match m q with
    | None => present (w_lo w) (w_hi w) q = false
    | Some b => present (w_lo w) (w_hi w) q = true /\ b_done b = true /\ forall a, b_n b a = bsize w q a /\
        (forall i, b_sigma b a i = prof w q a (S (bsize w q a)) (fun v => v) i) /\ (forall i, b_star b a i = prof w q a (bsize w q a) (star w) i)
    end.
  Proof.
    intros G H. destruct (fills_ok G) as [S M]. destruct (inv_all w (fills w) [] (connect3 w) (connect_ok H) S) as (m & F & I). rewrite app_nil_r in I.
    unfold build3. rewrite F. eexists. split; [reflexivity|]. intros q. specialize (I q). cbv beta. destruct (m q) as [b|]; [|exact I]. destruct I as (P & D & I). cbn [b_n b_sigma b_star b_done].
    split; [exact P|]. split; [reflexivity|]. intros a. destruct (I a) as (I1 & I2 & I3). split; [exact I1|].
    assert (Mr : mem2 q a (rev (fills w)) = negb (pos3_eqb (side q a) Mid)).
    { transitivity (mem2 q a (fills w)); [|rewrite M, P; reflexivity]. unfold mem2. apply eq_true_iff_eq. rewrite !existsb_exists. split; intros (x & X & Y); exists x; (split; [|exact Y]); [apply in_rev|apply in_rev in X]; assumption. }
    rewrite Mr in I2, I3. split; intros i; [rewrite I2|rewrite I3]; destruct (side q a) eqn:Sd; cbn [pos3_eqb negb]; try reflexivity; symmetry; apply prof_0; unfold layers; rewrite Sd; reflexivity.
  Qed.
End Tables.
