(** The cell extensions of the two-dimensional grid. *)
From Coq Require Import List Arith ZArith Bool String Lia Ring Field.
From Verif Require Import Num Vec FieldModel GridModel SolverModel SolverCons SolverBuild WakeModel WakeNum Grid2DModel.
Import ListNotations.

Section Ext.
  Context {T : Type} {NT : Num T} {LT : NumLaws T} {OT : NumOrd T} {FT : NumFl T} {FL : NumFlLaws T}.
  Add Field e2 : (@num_field T NT LT).
  Local Open Scope num_scope.

  Lemma lt_ne (a : T) : nltb nzero a = true -> a <> nzero.
  Proof. intros H ->. rewrite ol_irr in H. discriminate. Qed.
  Lemma lt_asym (a b : T) : nltb a b = true -> nltb b a = false.
  Proof. intros H. destruct (nltb b a) eqn:E; [|reflexivity]. pose proof (ol_trans _ _ _ H E) as X. rewrite ol_irr in X. discriminate. Qed.
  Lemma lt_sub (a b : T) : nltb nzero (b - a) = nltb a b.
  Proof. rewrite <- (ol_add nzero (b - a) a). f_equal; ring. Qed.
  Lemma lt_neg (a : T) : nltb nzero (nzero - a) = nltb a nzero.
  Proof. apply lt_sub. Qed.
  Lemma pos_mul (a b : T) : nltb nzero a = true -> nltb nzero b = true -> nltb nzero (a * b) = true.
  Proof. intros A B. rewrite <- A, <- (ol_mul nzero a b B). f_equal; ring. Qed.
  Lemma pos_div (a b : T) : nltb nzero a = true -> nltb nzero b = true -> nltb nzero (a / b) = true.
  Proof. intros A B. rewrite <- A, <- (ol_mul nzero (a / b) b B). f_equal; field; apply lt_ne; exact B. Qed.

  Definition idle (g : @grid2 T) (s : @ext T) : Prop := (forall a b, e_red s a b = nzero) /\ (forall a b, e_ext s a b = g_unst g a b) /\
    (forall a b, e_bor s a b = []) /\ (forall a b, e_intr s a b = false).

  Context (g : @grid2 T) (nx ny : nat).
  Context (Un : forall i j, g_unst g i j = nltb (g_S g i j) (g_Sstab g i j)) (Av : forall i j, g_avail g i j = true -> nltb nzero (g_S g i j) = true).

  Lemma try_idle i j d s s' : idle g s -> try_one g nx ny i j d s = Ok s' -> s' = s.
  Proof.
    intros (R0 & E0 & _) H. unfold try_one in H. binv H p Hp. destruct p as [a b].
    destruct (nltb _ _ && _ && _) eqn:C; [|congruence]. apply andb_true_iff in C as [C C3]. apply andb_true_iff in C as [C1 C2].
    rewrite E0, Un, <- lt_sub in C3. set (need := g_Sstab g i j - g_S g i j) in *.
    pose proof (lt_ne _ (ol_trans _ _ _ C3 C1)) as Sn.
    replace (need * g_S g a b / g_S g a b) with need in H by (field; exact Sn). rewrite R0, lt_neg, (lt_asym _ _ C3) in H. congruence.
  Qed.
  Lemma fold_idle {B} (P : B -> Prop) (f : @ext T -> B -> result (@ext T)) : (forall s x s', P x -> idle g s -> f s x = Ok s' -> idle g s') ->
    forall l s s', Forall P l -> idle g s -> fold_res f l s = Ok s' -> idle g s'.
  Proof.
    intros F. induction l as [|x l IH]; intros s s' Fa I H; cbn in H; [injection H as <-; exact I|]. inversion Fa; subst. binv H s1 H1.
    apply (IH s1); [assumption| |exact H]. exact (F s x s1 ltac:(assumption) I H1).
  Qed.
  Lemma all_true {B} (l : list B) : Forall (fun _ => True) l.
  Proof. induction l; auto. Qed.
  Lemma one_idle s s' : idle g s -> one_cell g nx ny s = Ok s' -> idle g s'.
  Proof.
    intros I. apply (fold_idle (fun _ => True)); [|apply all_true|exact I]. clear s s' I. intros s [i j] s' _ I H. destruct (e_ext s i j); [|congruence].
    revert H. apply (fold_idle (fun _ => True)); [|apply all_true|exact I]. intros t d t' _ It Ht. rewrite (try_idle _ _ _ _ _ It Ht). exact It.
  Qed.

  Lemma drop_spec s need den : (forall a b, e_red s a b = nzero) -> nltb nzero need = true -> nltb nzero den = true ->
    forall ps st, (forall a b, fst st a b = true -> nltb nzero (g_S g a b) = true) ->
    (forall p, In p ps -> fst (drop8 g s need den ps st) (fst p) (snd p) = false) /\
    (forall a b, fst (drop8 g s need den ps st) a b = true -> fst st a b = true).
  Proof.
    intros R0 Pn Pd. induction ps as [|[a b] ps IH]; intros st St; cbn [drop8 fold_left]; [split; [intros ? []|auto]|].
    unfold drop8 in IH |- *. cbn [fold_left].
    assert (K : forall x y, fst (if fst st a b && nleb (e_red s a b - need * g_S g a b / den) nzero then (upd2 (fst st) a b false, true) else st) x y =
        (if (x =? a)%nat && (y =? b)%nat then false else fst st x y)).
    { intros x y. destruct (fst st a b) eqn:F; cbn [andb].
      - assert (Hx : nltb nzero (e_red s a b - need * g_S g a b / den) = false).
        { rewrite R0, lt_neg. apply lt_asym, pos_div; [|exact Pd]. apply pos_mul; [exact Pn|apply St; exact F]. }
        unfold nleb. rewrite Hx. reflexivity.
      - destruct ((x =? a)%nat && (y =? b)%nat) eqn:E; [|reflexivity]. apply andb_true_iff in E as [E1 E2]. apply Nat.eqb_eq in E1, E2. subst. exact F. }
    destruct (IH (if fst st a b && nleb (e_red s a b - need * g_S g a b / den) nzero then (upd2 (fst st) a b false, true) else st)) as [I1 I2].
    { intros x y. rewrite K. destruct ((x =? a)%nat && (y =? b)%nat); [intros X; discriminate X|apply St]. }
    split.
    - intros p [<-|Hp]; [|exact (I1 p Hp)]. cbn [fst snd].
      destruct (fst (fold_left _ ps _) a b) eqn:F; [|reflexivity]. apply I2 in F. rewrite K, !Nat.eqb_refl in F. discriminate.
    - intros x y F. apply I2 in F. rewrite K in F. destruct ((x =? a)%nat && (y =? b)%nat); [discriminate|exact F].
  Qed.
  Lemma denom_zero ps avail : (forall p, In p ps -> avail (fst p) (snd p) = false) -> denom8 g ps avail = nzero.
  Proof.
    unfold denom8. induction ps as [|p ps IH]; intros H; [reflexivity|]. cbn [fold_left]. rewrite (H p (or_introl eq_refl)).
    replace (nzero + nzero) with (nzero : T) by ring. apply IH. intros q Hq. apply H. right. exact Hq.
  Qed.
  Lemma loop_idle s need ps : (forall a b, e_red s a b = nzero) -> nltb nzero need = true ->
    nleb need (snd (loop8 10 g s need ps (g_avail g) (denom8 g ps (g_avail g)) true)) = false.
  Proof.
    intros R0 Pn. cbn [loop8]. rewrite andb_true_r. destruct (nleb need (denom8 g ps (g_avail g))) eqn:E; [|exact E].
    assert (Pd : nltb nzero (denom8 g ps (g_avail g)) = true).
    { unfold nleb in E. apply negb_true_iff in E. destruct (nltb nzero (denom8 g ps (g_avail g))) eqn:F; [reflexivity|exfalso].
      destruct (nltb (denom8 g ps (g_avail g)) nzero) eqn:G; [rewrite (ol_trans _ _ _ G Pn) in E; discriminate|].
      rewrite (ol_total _ _ F G) in Pn. rewrite Pn in E. discriminate. }
    pose proof (drop_spec s need _ R0 Pn Pd ps (g_avail g, false) Av) as [D _].
    destruct (drop8 g s need (denom8 g ps (g_avail g)) ps (g_avail g, false)) as [av ng]. cbn [fst] in D.
    assert (E2 : nleb need nzero = false) by (unfold nleb; rewrite Pn; reflexivity).
    rewrite (denom_zero ps av D), E2. cbn [andb snd]. exact E2.
  Qed.
  Local Arguments loop8 : simpl never.
  Lemma eight_idle s s' : idle g s -> eight_cell g nx ny s = Ok s' -> idle g s'.
  Proof.
    intros I. apply (fold_idle (fun _ => True)); [|apply all_true|exact I]. clear s s' I. intros s [i j] s' _ I H.
    destruct (g_unst g i j && g_int g i j && e_ext s i j) eqn:C; [|congruence]. binv H ps Hp.
    apply andb_true_iff in C as [C _]. apply andb_true_iff in C as [C _]. rewrite Un, <- lt_sub in C. destruct I as (I1 & I2 & I3 & I4).
    cbn zeta in H.
    match type of H with context [loop8 10 g ?t _ _ _ _ _] => pose proof (loop_idle t _ ps I1 C) as L end.
    destruct (loop8 10 g _ _ _ _ _ _) as [av den]. cbn [snd] in L. rewrite L in H. injection H as <-. repeat split; assumption.
  Qed.
  Lemma any_spec (s : @ext T) : any_ext nx ny s = false <-> forall i j, i < nx -> j < ny -> e_ext s i j = false.
  Proof.
    unfold any_ext. split.
    - intros H i j Hi Hj. destruct (e_ext s i j) eqn:E; [|reflexivity]. rewrite <- H. symmetry. apply existsb_exists. exists (i, j). split; [|exact E].
      apply in_flat_map. exists i. split; [apply in_seq; lia|]. apply in_map, in_seq. lia.
    - intros H. destruct (existsb _ _) eqn:E; [|reflexivity]. apply existsb_exists in E. destruct E as ([i j] & Hc & E). apply in_flat_map in Hc.
      destruct Hc as (i' & Hi & Hj). apply in_map_iff in Hj. destruct Hj as (j' & X & Hj). injection X as -> ->. apply in_seq in Hi, Hj. cbn in E. rewrite H in E by lia. discriminate.
  Qed.
  Lemma extensions_idle s : extensions g nx ny = Ok s -> (forall i j, i < nx -> j < ny -> g_unst g i j = false) /\ idle g s.
  Proof.
    unfold extensions. intros H. binv H s1 H1. binv H s2 H2.
    assert (I1 : idle g s1) by (refine (one_idle _ _ _ H1); repeat split; reflexivity).
    assert (I2 : idle g s2) by (destruct (any_ext nx ny s1); [exact (eight_idle _ _ I1 H2)|injection H2 as <-; exact I1]).
    destruct (any_ext nx ny s2) eqn:E; [discriminate|]. injection H as <-. split; [|exact I2]. intros i j Hi Hj.
    rewrite any_spec in E. rewrite <- (proj1 (proj2 I2)). apply E; assumption.
  Qed.
  (** and when no cell is unstable the construction succeeds *)
  Lemma fold_stay {B} (f : @ext T -> B -> result (@ext T)) l s : (forall x, In x l -> f s x = Ok s) -> fold_res f l s = Ok s.
  Proof. induction l as [|x l IH]; intros H; [reflexivity|]. cbn. rewrite (H x (or_introl eq_refl)). cbn. apply IH. intros y Hy. apply H. right. exact Hy. Qed.
  Lemma extensions_ok : (forall i j, i < nx -> j < ny -> g_unst g i j = false) -> exists s, extensions g nx ny = Ok s.
  Proof.
    intros H. unfold extensions, one_cell. rewrite fold_stay.
    - cbn [bind]. match goal with |- context [any_ext nx ny ?s] => replace (any_ext nx ny s) with false by (symmetry; apply any_spec; exact H); cbn [bind];
        replace (any_ext nx ny s) with false by (symmetry; apply any_spec; exact H) end. eexists. reflexivity.
    - intros [i j] Hc. apply in_flat_map in Hc. destruct Hc as (i' & Hi & Hj). apply in_map_iff in Hj. destruct Hj as (j' & X & Hj). injection X as -> ->.
      apply in_seq in Hi, Hj. cbn [e_ext]. rewrite H by lia. reflexivity.
  Qed.
End Ext.
