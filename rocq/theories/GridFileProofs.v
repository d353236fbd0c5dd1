(** Lemmas on saving and reloading a grid. *)
From Coq Require Import List Arith ZArith Bool String Lia Permutation Sorting.Sorted OrderedTypeEx.
From Verif Require Import Num Vec Index Matrix FieldModel FieldSpec FieldProofs FieldProofs2
  GridModel GridProofs SolverModel SolverPlanes SolverBuild SolverMaterials SolverKern SolverCons
  SolverSpec SolverFlux SolverEnergy SolverOps SolverFrozen SolverNames SolverTime SolverPmlSpec SolverPml
  SolverConstruct GridFileModel.
Import ListNotations.

(** ** Key order *)
Definition slt (a b : string) : Prop := String.compare a b = Lt.
Lemma slt_trans a b c : slt a b -> slt b c -> slt a c.
Proof.
  unfold slt. intros H1 H2. apply (proj2 (String_as_OT.cmp_lt a c)).
  apply (String_as_OT.lt_trans a b c); [exact (proj1 (String_as_OT.cmp_lt a b) H1)|exact (proj1 (String_as_OT.cmp_lt b c) H2)].
Qed.
Lemma slt_irr a : ~ slt a a.
Proof.
  unfold slt. assert (E : String.compare a a = Eq) by (exact (proj2 (String_as_OT.cmp_eq a a) eq_refl)). rewrite E. discriminate.
Qed.
Lemma slt_ltb a b : slt a b <-> String.ltb a b = true.
Proof. unfold slt, String.ltb. destruct (String.compare a b); split; congruence. Qed.

Section Sorted.
  Context {A : Type} (key : A -> string).
  Definition klt (a b : A) : Prop := slt (key a) (key b).
  Definition ksorted (l : list A) : Prop := StronglySorted klt l.

  Lemma sorted_perm_eq : forall l1 l2, ksorted l1 -> ksorted l2 -> Permutation l1 l2 -> l1 = l2.
  Proof.
    induction l1 as [|a l1 IH]; intros l2 S1 S2 P.
    { apply Permutation_nil in P. congruence. }
    destruct l2 as [|b l2]. { apply Permutation_sym, Permutation_nil in P. discriminate. }
    inversion S1 as [|? ? S1' F1]; subst. inversion S2 as [|? ? S2' F2]; subst.
    assert (a = b).
    { assert (Ha : In a (b :: l2)) by (eapply Permutation_in; [exact P|left; reflexivity]).
      assert (Hb : In b (a :: l1)) by (eapply Permutation_in; [apply Permutation_sym; exact P|left; reflexivity]).
      destruct Ha as [->|Ha]; [reflexivity|]. destruct Hb as [->|Hb]; [reflexivity|].
      rewrite Forall_forall in F1, F2. pose proof (F1 b Hb) as X. pose proof (F2 a Ha) as Y.
      destruct (slt_irr (key a) (slt_trans _ _ _ X Y)). }
    subst b. f_equal. apply IH; [assumption|assumption|]. eapply Permutation_cons_inv. exact P.
  Qed.
  Lemma ksorted_filter P l : ksorted l -> ksorted (filter P l).
  Proof.
    induction 1 as [|a l S IH F]; cbn; [constructor|]. destruct (P a); [|exact IH].
    constructor; [exact IH|]. rewrite Forall_forall in *. intros b Hb. apply filter_In in Hb. apply F, Hb.
  Qed.
  Lemma perm_filter P (l l' : list A) : Permutation l l' -> Permutation (filter P l) (filter P l').
  Proof.
    induction 1 as [|a l l' H IH|a b l|l l' l'' H1 IH1 H2 IH2]; cbn.
    - constructor.
    - destruct (P a); [constructor; exact IH|exact IH].
    - destruct (P a), (P b); try constructor; apply Permutation_refl.
    - eapply Permutation_trans; eassumption.
  Qed.
  Lemma ksorted_nodup l : ksorted l -> NoDup (map key l).
  Proof.
    induction 1 as [|a l S IH F]; cbn; constructor; [|exact IH].
    rewrite in_map_iff. intros [b [E Hb]]. rewrite Forall_forall in F. pose proof (F b Hb) as X.
    unfold klt in X. rewrite E in X. exact (slt_irr _ X).
  Qed.
  (** Pairs in increasing positions that satisfy P are in key order. *)
  Lemma filter_sorted P l :
    (forall p q a b, p < q -> nth_error l p = Some a -> nth_error l q = Some b -> P a = true -> P b = true -> slt (key a) (key b)) ->
    ksorted (filter P l).
  Proof.
    induction l as [|a l IH]; intros H; cbn; [constructor|].
    assert (IH' : ksorted (filter P l)).
    { apply IH. intros p q x y Hpq Hx Hy. apply (H (S p) (S q)); [lia|exact Hx|exact Hy]. }
    destruct (P a) eqn:Pa; [|exact IH']. constructor; [exact IH'|].
    apply Forall_forall. intros b Hb. apply filter_In in Hb. destruct Hb as [Hb Pb].
    apply In_nth_error in Hb. destruct Hb as [n Hn]. apply (H 0 (S n)); [lia|reflexivity|exact Hn|exact Pa|exact Pb].
  Qed.
End Sorted.

(** ** Dictionaries and groups *)
Lemma dget_in {A} (d : dict A) k v : dget d k = Ok v -> In (k, v) d.
Proof.
  induction d as [|[k' v'] d IH]; cbn; [discriminate|].
  destruct (String.eqb_spec k' k) as [->|N]; [intros [= ->]; left; reflexivity|intros H; right; apply IH, H].
Qed.
Lemma dget_nodup {A} (d : dict A) k v : NoDup (map fst d) -> In (k, v) d -> dget d k = Ok v.
Proof.
  induction d as [|[k' v'] d IH]; cbn; [intros _ []|]. intros ND [E|H].
  - injection E as -> ->. rewrite String.eqb_refl. reflexivity.
  - inversion ND as [|? ? N ND']; subst. destruct (String.eqb_spec k' k) as [->|Nk].
    + destruct N. apply in_map_iff. exists (k, v). split; [reflexivity|exact H].
    + apply IH; assumption.
Qed.
Lemma dget_perm {A} (d d' : dict A) k : NoDup (map fst d) -> Permutation d d' -> dget d k = dget d' k.
Proof.
  intros ND P. assert (ND' : NoDup (map fst d')) by (eapply Permutation_NoDup; [apply Permutation_map; exact P|exact ND]).
  destruct (dget d k) as [v|e] eqn:E.
  - symmetry. apply dget_nodup; [exact ND'|]. eapply Permutation_in; [exact P|]. apply dget_in, E.
  - destruct (dget d' k) as [v|e'] eqn:E'.
    + apply dget_in in E'. rewrite (dget_nodup d k v ND) in E; [discriminate|].
      eapply Permutation_in; [apply Permutation_sym; exact P|exact E'].
    + assert (X : forall d0 : dict A, dget d0 k = Err e \/ (exists v, dget d0 k = Ok v) \/ dget d0 k = Err KeyError).
      { intros d0. induction d0 as [|[a b] d0 IH]; cbn; [right; right; reflexivity|]. destruct (String.eqb a k); [right; left; eauto|exact IH]. }
      assert (Y : forall (d0 : dict A) x, dget d0 k = Err x -> x = KeyError).
      { intros d0 x. induction d0 as [|[a b] d0 IH]; cbn; [congruence|]. destruct (String.eqb a k); [discriminate|exact IH]. }
      rewrite (Y _ _ E), (Y _ _ E'). reflexivity.
Qed.

Lemma h5_create_spec {A} k (v : A) g g' : ksorted fst g -> h5_create k v g = Ok g' ->
  ksorted fst g' /\ Permutation g' ((k, v) :: g).
Proof.
  revert g'. induction g as [|[k' v'] g IH]; intros g' S H; cbn in H.
  - injection H as <-. split; [constructor; constructor|apply Permutation_refl].
  - inversion S as [|? ? S' F]; subst. destruct (String.compare k k') eqn:C; [discriminate| |].
    + injection H as <-. split; [|apply Permutation_refl]. constructor; [exact S|].
      constructor; [exact C|]. eapply Forall_impl; [|exact F]. intros [a b] X. exact (slt_trans _ _ _ C X).
    + destruct (h5_create k v g) as [r|e] eqn:E; [|discriminate]. cbn in H. injection H as <-.
      destruct (IH r S' eq_refl) as [Sr Pr]. split.
      * constructor; [exact Sr|]. apply Forall_forall. intros x Hx.
        apply (Permutation_in _ Pr) in Hx. destruct Hx as [<-|Hx].
        -- unfold klt, slt. cbn. rewrite String.compare_antisym, C. reflexivity.
        -- rewrite Forall_forall in F. apply F, Hx.
      * eapply Permutation_trans; [constructor; exact Pr|constructor].
Qed.
Lemma h5_create_ok {A} k (v : A) g : ~ In k (map fst g) -> exists g', h5_create k v g = Ok g'.
Proof.
  induction g as [|[k' v'] g IH]; cbn; intros N; [eauto|].
  destruct (String.compare k k') eqn:C.
  - destruct N. left. symmetry. apply String.compare_eq_iff, C.
  - eauto.
  - destruct IH as [r E]; [tauto|]. rewrite E. cbn. eauto.
Qed.

(** Writing one dataset per key. *)
Lemma group_spec {A B} (ky : B -> string) (h : B -> result A) (f : dict A -> B -> result (dict A)) l :
  (forall g b, f g b = bind (h b) (fun v => h5_create (ky b) v g)) ->
  forall g g', ksorted fst g -> seq_upd f g l = Ok g' ->
  ksorted fst g' /\ exists xs, Permutation g' (xs ++ g) /\ Forall2 (fun b x => fst x = ky b /\ h b = Ok (snd x)) l xs.
Proof.
  intros Hf. induction l as [|b l IH]; intros g g' S H; cbn in H.
  - injection H as <-. split; [exact S|]. exists []. split; [apply Permutation_refl|constructor].
  - rewrite Hf in H. destruct (h b) as [v|e] eqn:Hb; [|discriminate]. cbn in H.
    destruct (h5_create (ky b) v g) as [g1|e] eqn:E; [|discriminate]. cbn in H.
    destruct (h5_create_spec _ _ _ _ S E) as [S1 P1]. destruct (IH g1 g' S1 H) as [S' [xs [P' F']]].
    split; [exact S'|]. exists ((ky b, v) :: xs). split.
    + eapply Permutation_trans; [exact P'|]. cbn. apply Permutation_sym.
      eapply Permutation_trans; [apply Permutation_middle|]. apply Permutation_app_head, Permutation_sym, P1.
    + constructor; [split; [reflexivity|exact Hb]|exact F'].
Qed.
Lemma group_ok {A B} (ky : B -> string) (h : B -> result A) (f : dict A -> B -> result (dict A)) l :
  (forall g b, f g b = bind (h b) (fun v => h5_create (ky b) v g)) ->
  forall g, ksorted fst g -> NoDup (map ky l) -> (forall b, In b l -> exists v, h b = Ok v) ->
  (forall b, In b l -> ~ In (ky b) (map fst g)) -> exists g', seq_upd f g l = Ok g'.
Proof.
  intros Hf. induction l as [|b l IH]; intros g S ND Hh Hn; cbn; [eauto|].
  rewrite Hf. destruct (Hh b (or_introl eq_refl)) as [v Hv]. rewrite Hv. cbn.
  destruct (h5_create_ok (ky b) v g (Hn b (or_introl eq_refl))) as [g1 E]. rewrite E. cbn.
  destruct (h5_create_spec _ _ _ _ S E) as [S1 P1]. inversion ND as [|? ? N ND']; subst.
  apply IH; [exact S1|exact ND'|intros; apply Hh; right; assumption|].
  intros b' Hb' Hi. apply (Permutation_in _ (Permutation_map fst P1)) in Hi. cbn in Hi. destruct Hi as [Hi|Hi].
  - apply N. rewrite Hi. apply in_map, Hb'.
  - apply (Hn b'); [right; exact Hb'|exact Hi].
Qed.
Lemma h5_group_spec {A} (d g : dict A) : h5_group d = Ok g -> ksorted fst g /\ Permutation g d.
Proof.
  intros H. destruct (group_spec fst (fun p => Ok (snd p)) _ d (fun g b => eq_refl) [] g (SSorted_nil _) H) as [S [xs [P F]]].
  split; [exact S|]. rewrite app_nil_r in P. eapply Permutation_trans; [exact P|].
  assert (E : xs = d).
  { clear -F. induction F as [|b x l xs [E1 E2] F IH]; [reflexivity|]. rewrite IH. f_equal.
    destruct b, x; cbn in *. injection E2 as ->. congruence. }
  rewrite E. apply Permutation_refl.
Qed.
Lemma h5_group_ok {A} (d : dict A) : NoDup (map fst d) -> exists g, h5_group d = Ok g.
Proof.
  intros ND. apply (group_ok fst (fun p => Ok (snd p)) _ d (fun g b => eq_refl) [] (SSorted_nil _) ND); [eauto|].
  intros b _ [].
Qed.

(** Building a list one entry per key. *)
Lemma collect_inv {A B} (h : B -> result A) (f : list A -> B -> result (list A)) l :
  (forall a b, f a b = bind (h b) (fun x => Ok (a ++ [x]))) ->
  forall a r, seq_upd f a l = Ok r -> exists xs, r = a ++ xs /\ Forall2 (fun b x => h b = Ok x) l xs.
Proof.
  intros Hf. induction l as [|b l IH]; intros a r H; cbn in H.
  - injection H as <-. exists []. split; [rewrite app_nil_r; reflexivity|constructor].
  - rewrite Hf in H. destruct (h b) as [x|e] eqn:E; [|discriminate]. cbn in H.
    destruct (IH _ _ H) as [xs [-> F]]. exists (x :: xs). split; [rewrite <- app_assoc; reflexivity|constructor; assumption].
Qed.
Lemma collect_ok {A B} (h : B -> result A) (f : list A -> B -> result (list A)) l :
  (forall a b, f a b = bind (h b) (fun x => Ok (a ++ [x]))) ->
  forall xs, Forall2 (fun b x => h b = Ok x) l xs -> forall a, seq_upd f a l = Ok (a ++ xs).
Proof.
  intros Hf xs F. induction F as [|b x l xs E F IH]; intros a; cbn; [rewrite app_nil_r; reflexivity|].
  rewrite Hf, E. cbn. rewrite IH, <- app_assoc. reflexivity.
Qed.

Lemma forall2_perm {A B} (R : A -> B -> Prop) l l' xs : Permutation l l' -> Forall2 R l xs ->
  exists xs', Permutation xs xs' /\ Forall2 R l' xs'.
Proof.
  intros P. revert xs. induction P as [|a l l' P IH|a b l|l l' l'' P1 IH1 P2 IH2]; intros xs F.
  - inversion F; subst. exists []. split; constructor.
  - inversion F as [|? x ? xs0 Ra F0]; subst. destruct (IH xs0 F0) as [xs' [P' F']].
    exists (x :: xs'). split; constructor; assumption.
  - inversion F as [|? x ? xs0 Ra F0]; subst. inversion F0 as [|? y ? xs1 Rb F1]; subst.
    exists (y :: x :: xs1). split; [constructor|]. repeat constructor; assumption.
  - destruct (IH1 xs F) as [xs' [Q1 F1]]. destruct (IH2 xs' F1) as [xs'' [Q2 F2]].
    exists xs''. split; [eapply Permutation_trans; eassumption|exact F2].
Qed.
Lemma forall2_in {A B} (R R' : A -> B -> Prop) l xs : (forall a x, In a l -> R a x -> R' a x) -> Forall2 R l xs -> Forall2 R' l xs.
Proof.
  intros H F. induction F as [|a x l xs Ra F IH]; constructor.
  - apply H; [left; reflexivity|exact Ra].
  - apply IH. intros. apply H; [right|]; assumption.
Qed.

Section SaveLoad.
  Context {T : Type} {NT : Num T}.

  Definition read_solid (masks : dict (list bool)) (mats : dict (material T)) (p : string * string) : result (solid T) :=
    bind (dget masks (fst p)) (fun mk => bind (dget mats (fst p)) (fun mt =>
      Ok {| so_key := fst p; so_mask := mk; so_mat := mt |})).
  Lemma solids_of_spec (s : StlGrid T) so sol : sg_solids s = Some so ->
    (solids_of s = Ok sol <-> Forall2 (fun p x => read_solid (sg_masks s) (sg_mats s) p = Ok x) so sol).
  Proof.
    intros E. unfold solids_of. rewrite E.
    assert (X : forall (a : list (solid T)) (b : string * string),
      bind (dget (sg_masks s) (fst b)) (fun mk => bind (dget (sg_mats s) (fst b)) (fun mt =>
        Ok (a ++ [{| so_key := fst b; so_mask := mk; so_mat := mt |}])))
      = bind (read_solid (sg_masks s) (sg_mats s) b) (fun x => Ok (a ++ [x]))).
    { intros a b. unfold read_solid. destruct (dget (sg_masks s) (fst b)); cbn; [|reflexivity].
      destruct (dget (sg_mats s) (fst b)); reflexivity. }
    split.
    - intros H. destruct (collect_inv (read_solid (sg_masks s) (sg_mats s)) _ so X [] sol H) as [xs [Ex F]].
      cbn in Ex. subst. exact F.
    - intros F. exact (collect_ok (read_solid (sg_masks s) (sg_mats s)) _ so X sol F []).
  Qed.

  Lemma load_save (s : StlGrid T) so sol f :
    sg_solids s = Some so -> solids_of s = Ok sol -> save_h5 s = Ok f ->
    exists s' sol', load_h5 f = Ok s' /\ grid_of s' = grid_of s /\ solids_of s' = Ok sol' /\
      Permutation sol sol' /\ ksorted so_key sol'.
  Proof.
    intros Eso Hs Hf. pose proof Hf as Hf0. unfold save_h5 in Hf. rewrite Eso in Hf.
    destruct (h5_group so) as [gs|e] eqn:E1; [|discriminate]. cbn in Hf.
    destruct (h5_group (sg_mats s)) as [gm|e] eqn:E2; [|discriminate]. cbn in Hf.
    destruct (sg_dicts s); [|discriminate].
    match type of Hf with bind ?r _ = _ => destruct r as [gk|e] eqn:E3; [|discriminate] end. cbn in Hf.
    apply (f_equal (fun r => match r with Ok x => x | Err _ => f end)) in Hf. cbn in Hf.
    destruct (h5_group_spec _ _ E1) as [S1 P1]. destruct (h5_group_spec _ _ E2) as [S2 P2].
    destruct (group_spec fst (fun p : string * string => dget (sg_masks s) (fst p)) _ so (fun g b => eq_refl) [] gk (SSorted_nil _) E3)
      as [S3 [xs [P3 F3]]]. rewrite app_nil_r in P3.
    pose proof (ksorted_nodup fst gs S1) as ND1. pose proof (ksorted_nodup fst gm S2) as ND2. pose proof (ksorted_nodup fst gk S3) as ND3.
    assert (Hk : forall p, In p so -> dget gk (fst p) = dget (sg_masks s) (fst p)).
    { intros p Hp. destruct (in_split _ _ Hp) as [l1 [l2 ->]].
      apply Forall2_app_inv_l in F3. destruct F3 as [x1 [x2 [_ [F3 ->]]]]. inversion F3 as [|? x ? x3 [X1 X2] _]; subst.
      rewrite X2. apply dget_nodup; [exact ND3|]. apply (Permutation_in (l := x1 ++ x :: x3)); [apply Permutation_sym, P3|].
      apply in_or_app. right. left. destruct x; cbn in *; congruence. }
    assert (Hm : forall k, dget gm k = dget (sg_mats s) k) by (intros k; apply dget_perm; assumption).
    (* loading *)
    assert (Hms : exists ms, Forall2 (fun (p : string * string) x => bind (dget gk (fst p)) (fun m => Ok (fst p, m)) = Ok x) gs ms).
    { assert (X : forall l, (forall p, In p l -> In p so) ->
        exists ms, Forall2 (fun (p : string * string) x => bind (dget gk (fst p)) (fun m => Ok (fst p, m)) = Ok x) l ms).
      { induction l as [|p l IH]; intros Hl; [exists []; constructor|].
        destruct (IH (fun q Hq => Hl q (or_intror Hq))) as [ms F].
        destruct (dget gk (fst p)) as [m|e] eqn:Em.
        - exists ((fst p, m) :: ms). constructor; [rewrite Em; reflexivity|exact F].
        - rewrite Hk in Em by (apply Hl; left; reflexivity).
          assert (Hp : In p so) by (apply Hl; left; reflexivity). destruct (in_split _ _ Hp) as [l1 [l2 E]].
          rewrite E in F3. apply Forall2_app_inv_l in F3. destruct F3 as [x1 [x2 [_ [F3 _]]]].
          inversion F3 as [|? x ? x3 [X1 X2] _]; subst. congruence. }
      apply X. intros p Hp. eapply Permutation_in; [exact P1|exact Hp]. }
    destruct Hms as [ms Fms].
    assert (Lms : load_h5 f = Ok {| sg_x := sg_x s; sg_y := sg_y s; sg_z := sg_z s; sg_solids := Some gs;
                                     sg_mats := gm; sg_masks := ms; sg_dicts := true |}).
    { rewrite <- Hf. unfold load_h5. cbn [h5_x h5_y h5_z h5_solids h5_mats h5_masks].
      rewrite (collect_ok (fun p : string * string => bind (dget gk (fst p)) (fun m => Ok (fst p, m))) _ gs) with (xs := ms).
      - reflexivity.
      - intros a b. destruct (dget gk (fst b)); reflexivity.
      - exact Fms. }
    assert (Hd : forall p, In p gs -> dget ms (fst p) = dget gk (fst p)).
    { assert (Eks : map fst ms = map fst gs).
      { clear -Fms. induction Fms as [|p x l ms H F IH]; [reflexivity|]. cbn. rewrite IH. f_equal.
        destruct (dget gk (fst p)); cbn in H; [injection H as <-; reflexivity|discriminate]. }
      intros p Hp. destruct (in_split _ _ Hp) as [l1 [l2 E]]. pose proof Fms as F. rewrite E in F.
      apply Forall2_app_inv_l in F. destruct F as [x1 [x2 [_ [F Ex]]]]. inversion F as [|? x ? x3 X _]; subst x2. 
      destruct (dget gk (fst p)) as [m|e]; cbn in X; [|discriminate]. 
      apply dget_nodup; [rewrite Eks; exact ND1|]. rewrite Ex. apply in_or_app. right. left. congruence. }
    apply (solids_of_spec s so sol Eso) in Hs.
    destruct (forall2_perm _ so gs sol (Permutation_sym P1) Hs) as [sol' [Psol Fsol]].
    eexists. exists sol'. split; [exact Lms|]. split; [reflexivity|].
    assert (Fs : Forall2 (fun p x => read_solid ms gm p = Ok x) gs sol').
    { eapply forall2_in; [|exact Fsol]. intros p x Hp H. cbn beta in *. unfold read_solid in *.
      rewrite (Hd p Hp), (Hk p), Hm; [exact H|]. eapply Permutation_in; [exact P1|exact Hp]. }
    split; [apply (solids_of_spec _ gs sol'); [reflexivity|exact Fs]|]. split; [exact Psol|].
    clear -Fs S1. revert sol' Fs. induction S1 as [|p gs S IH F]; intros sol' Fs; inversion Fs as [|? x ? xs Hx Fx]; subst; [constructor|].
    constructor; [apply IH, Fx|].
    assert (Kx : forall p x, read_solid ms gm p = Ok x -> so_key x = fst p).
    { clear. intros p x. unfold read_solid. destruct (dget ms (fst p)); cbn; [|discriminate].
      destruct (dget gm (fst p)); cbn; [|discriminate]. intros [= <-]. reflexivity. }
    clear -F Fx Kx Hx. induction Fx as [|q y gs ys Hy Fy IH]; [constructor|]. inversion F as [|? ? F1 F2]; subst.
    constructor; [|apply IH; assumption]. unfold klt. rewrite (Kx _ _ Hx), (Kx _ _ Hy). exact F1.
  Qed.

  Lemma save_ok (s : StlGrid T) so : sg_solids s = Some so -> sg_dicts s = true -> NoDup (map fst so) ->
    NoDup (map fst (sg_mats s)) -> (forall p, In p so -> exists m, dget (sg_masks s) (fst p) = Ok m) ->
    exists f, save_h5 s = Ok f.
  Proof.
    intros E D N1 N2 H. unfold save_h5. rewrite E, D.
    destruct (h5_group_ok so N1) as [g1 ->]. destruct (h5_group_ok (sg_mats s) N2) as [g2 ->]. cbn [bind].
    destruct (group_ok fst (fun p : string * string => dget (sg_masks s) (fst p))
      (fun g (p : string * string) => bind (dget (sg_masks s) (fst p)) (fun m => h5_create (fst p) m g)) so
      (fun g b => eq_refl) [] (SSorted_nil _) N1 H) as [g3 E3].
    { intros b _ []. }
    rewrite E3. cbn [bind]. eauto.
  Qed.
End SaveLoad.

(** ** Materials in another order of the solids *)
Section Reorder.
  Context {T : Type} {NT : Num T} {LT : NumLaws T} {OT : NumOrd T}.

  Definition mstep (env : Env T) (sbg : T) (a : T * T * T) (so : solid T) : T * T * T :=
    match find_material (so_mat so) with
    | Err _ => a
    | Ok e => (over_ext none_ (me_eps e) (e_eps0 env), over_ext none_ (me_mu e) (e_mu0 env),
               match me_sigma e with Some s => s | None => if nltb nzero sbg then nzero else snd a end)
    end.
  Definition has_sigma (so : solid T) : bool :=
    match find_material (so_mat so) with Ok e => match me_sigma e with Some _ => true | None => false end | Err _ => false end.
  Definition cellv (M : Mats T) c i j k : T * T * T :=
    (entry (mt_ieps M) c i j k, entry (mt_imu M) c i j k, entry (mt_sigma M) c i j k).
  Definition covers (Ny Nz i j k : nat) (so : solid T) : bool := cell_mask Ny Nz (so_mask so) i j k.

  Lemma solids_fold env Nx Ny Nz sbg l : forall M M', mats_sized M Nx Ny Nz ->
    seq_upd (apply_solid env Nx Ny Nz sbg) M l = Ok M' ->
    mats_sized M' Nx Ny Nz /\ mt_cond M' = mt_cond M || existsb has_sigma l /\
    forall c i j k, c < 3 -> i < Nx -> j < Ny -> k < Nz ->
      cellv M' c i j k = fold_left (mstep env sbg) (filter (covers Ny Nz i j k) l) (cellv M c i j k).
  Proof.
    induction l as [|so l IH]; intros M M' S H; cbn [seq_upd] in H.
    - injection H as <-. split; [exact S|]. split; [cbn; rewrite orb_false_r; reflexivity|reflexivity].
    - binv H M1 H1. destruct (apply_solid_spec _ _ _ _ _ _ _ _ S H1) as [S1 [e [He [Hc V]]]].
      destruct (IH M1 M' S1 H) as [S' [Hc' V']]. split; [exact S'|]. split.
      + rewrite Hc', Hc. cbn [existsb]. unfold has_sigma at 2. rewrite He. destruct (me_sigma e); cbn.
        * rewrite orb_true_r. reflexivity.
        * reflexivity.
      + intros c i j k Hc3 Hi Hj Hk. rewrite (V' c i j k Hc3 Hi Hj Hk).
        destruct (V c i j k Hc3 Hi Hj Hk) as [V1 [V2 V3]]. cbn [filter]. unfold covers at 2.
        unfold cellv at 1. rewrite V1, V2, V3. destruct (cell_mask Ny Nz (so_mask so) i j k) eqn:Em.
        * cbn [fold_left]. unfold mstep at 3. rewrite He. cbn [snd cellv]. rewrite andb_true_r. reflexivity.
        * rewrite andb_false_r. destruct (me_sigma e); reflexivity.
  Qed.

  Lemma solids_valid env Nx Ny Nz sbg l : forall M M', mats_sized M Nx Ny Nz ->
    seq_upd (apply_solid env Nx Ny Nz sbg) M l = Ok M' -> valid_solids Nx Ny Nz l.
  Proof.
    induction l as [|so l IH]; intros M M' S H; cbn [seq_upd] in H; [intros x []|].
    binv H M1 H1. pose proof H1 as H0. destruct (apply_solid_spec _ _ _ _ _ _ _ _ S H1) as [S1 [e [He _]]].
    intros x [<-|Hx]; [|exact (IH M1 M' S1 H x Hx)].
    split; [eauto|]. unfold apply_solid in H0. binv H0 e0 He0. binv H0 ie Hie. unfold clear_mask, mask_arr in Hie.
    destruct (List.length (so_mask so) =? Nx * Ny * Nz) eqn:L; [apply Nat.eqb_eq, L|discriminate].
  Qed.

  Lemma existsb_perm {A} (P : A -> bool) l l' : Permutation l l' -> existsb P l = existsb P l'.
  Proof.
    induction 1; cbn; [reflexivity|congruence| |congruence]. destruct (P x), (P y); reflexivity.
  Qed.

  Lemma cellv_eq Nx Ny Nz (M M' : Mats T) : mats_sized M Nx Ny Nz -> mats_sized M' Nx Ny Nz -> mt_cond M = mt_cond M' ->
    (forall c i j k, c < 3 -> i < Nx -> j < Ny -> k < Nz -> cellv M c i j k = cellv M' c i j k) -> M = M'.
  Proof.
    intros [S1 [S2 S3]] [S1' [S2' S3']] Hc V.
    assert (E1 : mt_ieps M = mt_ieps M').
    { apply (field_eq Nx Ny Nz); [assumption|assumption|]. apply (entries_flat Nx Ny Nz eq); [assumption|assumption|].
      intros d i j k (Hd & Hi & Hj & Hk). exact (f_equal (fun p => fst (fst p)) (V d i j k Hd Hi Hj Hk)). }
    assert (E2 : mt_imu M = mt_imu M').
    { apply (field_eq Nx Ny Nz); [assumption|assumption|]. apply (entries_flat Nx Ny Nz eq); [assumption|assumption|].
      intros d i j k (Hd & Hi & Hj & Hk). exact (f_equal (fun p => snd (fst p)) (V d i j k Hd Hi Hj Hk)). }
    assert (E3 : mt_sigma M = mt_sigma M').
    { apply (field_eq Nx Ny Nz); [assumption|assumption|]. apply (entries_flat Nx Ny Nz eq); [assumption|assumption|].
      intros d i j k (Hd & Hi & Hj & Hk). exact (f_equal snd (V d i j k Hd Hi Hj Hk)). }
    destruct M, M'; cbn in *; congruence.
  Qed.

  Lemma build_reorder env Nx Ny Nz bg c0 l l' (M : Mats T) : Permutation l l' ->
    (forall i j k, i < Nx -> j < Ny -> k < Nz -> filter (covers Ny Nz i j k) l = filter (covers Ny Nz i j k) l') ->
    build_materials env Nx Ny Nz bg c0 l = Ok M -> build_materials env Nx Ny Nz bg c0 l' = Ok M.
  Proof.
    intros P HF H.
    unfold build_materials in H. binv H e He. binv H ie H1. binv H im H2. binv H sg H3.
    destruct (uniform_field_spec Nx Ny Nz (over_ext none_ (me_eps e) (e_eps0 env))) as [F1 [E1 [S1 _]]].
    destruct (uniform_field_spec Nx Ny Nz (over_ext none_ (me_mu e) (e_mu0 env))) as [F2 [E2 [S2 _]]].
    destruct (uniform_field_spec Nx Ny Nz (match me_sigma e with Some s => s | None => nzero end)) as [F3 [E3 [S3 _]]].
    assert (Q1 : F1 = ie) by congruence. assert (Q2 : F2 = im) by congruence. assert (Q3 : F3 = sg) by congruence. subst F1 F2 F3.
    match type of H with seq_upd _ ?M0 _ = _ => assert (S0 : mats_sized M0 Nx Ny Nz) by (split; [exact S1|split; [exact S2|exact S3]]) end.
    pose proof (solids_valid _ _ _ _ _ _ _ _ S0 H) as Hv. destruct (solids_fold _ _ _ _ _ _ _ _ S0 H) as [SM [CM VM]].
    destruct (build_ok env Nx Ny Nz bg e c0 l' He) as [M' HM'].
    { intros so Hso. apply Hv. eapply Permutation_in; [apply Permutation_sym; exact P|exact Hso]. }
    rewrite HM'. f_equal. unfold build_materials in HM'. rewrite He in HM'. cbn [bind] in HM'.
    rewrite E1, E2, E3 in HM'. cbn [bind] in HM'.
    destruct (solids_fold _ _ _ _ _ _ _ _ S0 HM') as [SM' [CM' VM']].
    apply (cellv_eq Nx Ny Nz); [exact SM'|exact SM| |].
    - rewrite CM, CM'. rewrite (existsb_perm _ _ _ P). reflexivity.
    - intros c i j k Hc Hi Hj Hk. rewrite (VM c i j k Hc Hi Hj Hk), (VM' c i j k Hc Hi Hj Hk), (HF i j k Hi Hj Hk). reflexivity.
  Qed.

  (** The constructor arguments with other solids. *)
  Definition with_solids (ar : Args T) (l : list (solid T)) : Args T :=
    {| ar_bl := ar_bl ar; ar_bh := ar_bh ar; ar_bg := ar_bg ar; ar_solids := l;
       ar_npml := ar_npml ar; ar_cfln := ar_cfln ar; ar_dt := ar_dt ar; ar_mpi := ar_mpi ar |}.

  Lemma construct_reorder env (g : Grid T) ar l l' r : Permutation l l' ->
    (forall i j k, i < gNx g -> j < gNy g -> k < gNz g ->
       filter (covers (gNy g) (gNz g) i j k) l = filter (covers (gNy g) (gNz g) i j k) l') ->
    construct env g (with_solids ar l) = Ok r -> construct env g (with_solids ar l') = Ok r.
  Proof.
    intros P HF H. unfold construct in *. destruct ar as [bl bh bg so np cf dt mp]. unfold with_solids in *.
    cbn [ar_bl ar_bh ar_bg ar_solids ar_npml ar_cfln ar_dt ar_mpi] in *.
    destruct (mpi_bc mp bl bh) as [bl' bh']. binv H bo Hbo. rewrite Hbo. cbn [bind]. binv H M HM.
    rewrite (build_reorder _ _ _ _ _ _ _ _ _ P HF HM). cbn [bind]. exact H.
  Qed.

  Lemma reload_construct env (s : StlGrid T) sol f g ar r :
    (exists so, sg_solids s = Some so) -> solids_of s = Ok sol -> grid_of s = Ok g -> save_h5 s = Ok f ->
    (forall p q a b i j k, p < q -> nth_error sol p = Some a -> nth_error sol q = Some b ->
       i < gNx g -> j < gNy g -> k < gNz g ->
       cell_mask (gNy g) (gNz g) (so_mask a) i j k = true -> cell_mask (gNy g) (gNz g) (so_mask b) i j k = true ->
       String.ltb (so_key a) (so_key b) = true) ->
    construct env g (with_solids ar sol) = Ok r ->
    exists s' sol', load_h5 f = Ok s' /\ grid_of s' = Ok g /\ solids_of s' = Ok sol' /\
      construct env g (with_solids ar sol') = Ok r.
  Proof.
    intros [so Eso] Hs Hg Hf Ho Hc. destruct (load_save s so sol f Eso Hs Hf) as (s' & sol' & L & G & S' & P & K).
    exists s', sol'. split; [exact L|]. split; [rewrite G; exact Hg|]. split; [exact S'|].
    eapply construct_reorder; [exact P| |exact Hc]. intros i j k Hi Hj Hk.
    apply (sorted_perm_eq so_key).
    - apply filter_sorted. intros p q a b Hpq Ha Hb Ca Cb. apply slt_ltb. exact (Ho p q a b i j k Hpq Ha Hb Hi Hj Hk Ca Cb).
    - apply ksorted_filter, K.
    - apply perm_filter, P.
  Qed.
End Reorder.
