(** Property C137: the renaming of CST exports. *)
From Coq Require Import List Arith ZArith Bool String Ascii Lia Permutation.
From Verif Require Import Num Vec FieldModel GridModel SolverModel SolverCons SolverBuild WakeModel CstNameModel.
Import ListNotations.
Open Scope string_scope.
Open Scope list_scope.
Open Scope nat_scope.

Fixpoint has (c : ascii) (s : string) : bool := match s with "" => false | String d r => Ascii.eqb d c || has c r end.
Lemma split_app c a b : has c a = false -> split c (a ++ String c b)%string = a :: split c b.
Proof.
  induction a as [|d a IH]; cbn [has split append]; [rewrite Ascii.eqb_refl; reflexivity|].
  intros H. apply orb_false_iff in H. destruct H as [H1 H2]. rewrite H1, (IH H2). reflexivity.
Qed.
Lemma split_no c a : has c a = false -> split c a = [a].
Proof.
  induction a as [|d a IH]; cbn [has split]; [reflexivity|]. intros H. apply orb_false_iff in H. destruct H as [H1 H2].
  rewrite H1, (IH H2). reflexivity.
Qed.
Lemma has_app c a b : has c (a ++ b)%string = has c a || has c b.
Proof. induction a as [|d a IH]; cbn; [reflexivity|]. rewrite IH, orb_assoc. reflexivity. Qed.
Lemma append_assoc a b c : ((a ++ b) ++ c = a ++ (b ++ c))%string.
Proof. induction a as [|d a IH]; cbn; [reflexivity|]. rewrite IH. reflexivity. Qed.
Lemma ends_app suf a : ends suf (a ++ suf)%string = true.
Proof.
  induction a as [|d a IH]; [destruct suf; cbn [append ends]; [reflexivity|rewrite String.eqb_refl; reflexivity]|].
  cbn [append ends]. rewrite IH. apply orb_true_r.
Qed.
Lemma ends_inv suf s : ends suf s = true -> exists a, s = (a ++ suf)%string.
Proof.
  induction s as [|d s IH]; cbn [ends]; intros H.
  - rewrite orb_false_r in H. apply String.eqb_eq in H. exists "". exact H.
  - apply orb_true_iff in H. destruct H as [H|H]; [apply String.eqb_eq in H; exists ""; exact H|].
    destruct (IH H) as [a ->]. exists (String d a). reflexivity.
Qed.

Section Dir.
  Context {C : Type}.
  Implicit Types d : list (string * C).
  Lemma look_drop d n k : look k (drop n d) = if String.eqb n k then None else look k d.
  Proof.
    induction d as [|[m c] d IH]; cbn [drop List.filter look fst]; [destruct (String.eqb n k); reflexivity|].
    fold (drop n d). destruct (String.eqb_spec m n) as [->|E]; cbn [negb].
    - rewrite IH. destruct (String.eqb_spec n k); [reflexivity|]. reflexivity.
    - cbn [look]. rewrite IH. destruct (String.eqb_spec m k) as [->|_]; [|reflexivity]. destruct (String.eqb_spec n k); [congruence|reflexivity].
  Qed.
  Lemma look_app d d' k : look k (d ++ d') = match look k d with Some c => Some c | None => look k d' end.
  Proof. induction d as [|[m c] d IH]; cbn [look app]; [reflexivity|]. destruct (String.eqb m k); [reflexivity|exact IH]. Qed.
  Lemma look_put d n c k : look k (put n c d) = if String.eqb n k then Some c else look k d.
  Proof.
    unfold put. rewrite look_app, look_drop. cbn [look]. destruct (String.eqb_spec n k); [reflexivity|]. destruct (look k d); reflexivity.
  Qed.
  Lemma look_in d k : look k d <> None <-> In k (map fst d).
  Proof.
    induction d as [|[n c] d IH]; cbn [look map fst In]; [tauto|]. destruct (String.eqb_spec n k) as [->|E]; [split; [left; reflexivity|discriminate]|].
    rewrite IH. split; [right; assumption|intros [?|?]; [contradiction|assumption]].
  Qed.
  Lemma drop_names d n : map fst (drop n d) = List.filter (fun k => negb (String.eqb k n)) (map fst d).
  Proof. induction d as [|[m c] d IH]; cbn; [reflexivity|]. destruct (String.eqb m n); cbn; rewrite <- IH; reflexivity. Qed.
  Lemma drop_nodup d n : NoDup (map fst d) -> NoDup (map fst (drop n d)).
  Proof. intros H. rewrite drop_names. apply NoDup_filter, H. Qed.
  Lemma put_nodup d n c : NoDup (map fst d) -> NoDup (map fst (put n c d)).
  Proof.
    intros H. unfold put. rewrite map_app, drop_names. cbn [map fst].
    assert (X : NoDup (n :: List.filter (fun k => negb (String.eqb k n)) (map fst d))).
    { constructor; [|apply NoDup_filter, H]. intros I. apply filter_In in I. rewrite String.eqb_refl in I. destruct I. discriminate. }
    apply (Permutation.Permutation_NoDup (l := n :: List.filter (fun k => negb (String.eqb k n)) (map fst d))); [|exact X]. apply Permutation.Permutation_cons_append.
  Qed.
End Dir.

(** *** Endings *)
Lemma has_ends c s x : has c x = false -> ends s x = true -> has c s = false.
Proof. intros H E. destruct (ends_inv _ _ E) as [a ->]. rewrite has_app in H. apply orb_false_iff in H. apply H. Qed.
Lemma append_len a b : String.length (a ++ b)%string = String.length a + String.length b.
Proof. induction a as [|d a IH]; cbn; [reflexivity|]. rewrite IH. reflexivity. Qed.
Lemma append_inj a b x y : String.length b = String.length y -> (a ++ b = x ++ y)%string -> a = x /\ b = y.
Proof.
  revert x. induction a as [|d a IH]; intros [|e x] L H; cbn in H.
  - auto.
  - exfalso. apply (f_equal String.length) in H. cbn in H. rewrite append_len in H. lia.
  - exfalso. apply (f_equal String.length) in H. cbn in H. rewrite append_len in H. lia.
  - injection H as -> H. destruct (IH x L H) as [-> ->]. auto.
Qed.
(** An ending without the character c that fits behind a c ends in what follows it. *)
Lemma ends_after c s x t : has c s = false -> ends s (x ++ String c t)%string = true -> ends s t = true.
Proof.
  intros Hs H. induction x as [|d x IH]; cbn [append ends] in H; apply orb_true_iff in H; destruct H as [H|H].
  - apply String.eqb_eq in H. subst s. cbn [has] in Hs. rewrite Ascii.eqb_refl in Hs. discriminate.
  - exact H.
  - apply String.eqb_eq in H. subst s. cbn [has] in Hs. rewrite has_app in Hs. cbn [has] in Hs. rewrite Ascii.eqb_refl in Hs.
    rewrite orb_true_r, orb_true_r in Hs. discriminate.
  - exact (IH H).
Qed.
Lemma ends_cut s x q : ends (s ++ q)%string (x ++ q)%string = true -> ends s x = true.
Proof.
  intros H. destruct (ends_inv _ _ H) as [a E]. rewrite <- append_assoc in E. apply append_inj in E; [|reflexivity]. destruct E as [-> _]. apply ends_app.
Qed.
Lemma ends_trans s q x : ends (s ++ q)%string x = true -> ends q x = true.
Proof. intros H. destruct (ends_inv _ _ H) as [a ->]. rewrite <- append_assoc. apply ends_app. Qed.
Lemma append_nil a : (a ++ "" = a)%string.
Proof. induction a as [|d a IH]; cbn; [reflexivity|]. rewrite IH. reflexivity. Qed.

(** *** One loop *)
Section Loop.
  Context {T : Type} {NT : Num T} {C : Type} (num : string -> option T) (show : T -> string) (sep : ascii) (f : T -> T).
  Implicit Types d : list (string * C).
  Lemma rename_each_spec (g : string -> string) (h : string -> C) ns : forall d, NoDup ns ->
    (forall n, In n ns -> new_name num show sep f n = Ok (g n) /\ look n d = Some (h n)) ->
    (forall n k, In n ns -> In k ns -> n <> k -> g n <> k /\ g n <> g k) -> (forall n k, In n ns -> In k ns -> (n ++ ".old")%string <> k /\ (n ++ ".old")%string <> g k) ->
    exists d', rename_each num show sep f d ns = Ok d' /\
      (forall n, In n ns -> look (g n) d' = Some (h n) /\ look (n ++ ".old")%string d' = Some (h n) /\ (g n <> n -> look n d' = None)) /\
      (forall k, ~ In k ns -> (forall n, In n ns -> k <> g n /\ k <> (n ++ ".old")%string) -> look k d' = look k d).
  Proof.
    induction ns as [|n ns IH]; intros d ND H1 H2 H3; [exists d; split; [reflexivity|]; split; [intros n []|intros; reflexivity]|].
    inversion ND as [|? ? Nn ND']; subst. destruct (H1 n (or_introl eq_refl)) as [En El].
    cbn [rename_each]. unfold rename1. rewrite En. cbn [bind]. rewrite El. cbn [some bind].
    set (d1 := put (g n) (h n) (drop n (put (n ++ ".old")%string (h n) d))).
    assert (L1 : forall k, look k d1 = if String.eqb (g n) k then Some (h n) else if String.eqb n k then None else if String.eqb (n ++ ".old") k then Some (h n) else look k d)
      by (intros k; unfold d1; rewrite look_put, look_drop, look_put; reflexivity).
    destruct (IH d1 ND') as (d' & E & A & B).
    - intros m Hm. destruct (H1 m (or_intror Hm)) as [X Y]. split; [exact X|]. rewrite L1.
      destruct (H2 n m (or_introl eq_refl) (or_intror Hm)) as [Z _]; [intros ->; contradiction|].
      destruct (String.eqb_spec (g n) m); [contradiction|]. destruct (String.eqb_spec n m); [subst; contradiction|].
      destruct (String.eqb_spec (n ++ ".old") m) as [e|]; [exfalso; apply (proj1 (H3 n m (or_introl eq_refl) (or_intror Hm))); exact e|exact Y].
    - intros; apply H2; try (right; assumption); assumption.
    - intros; apply H3; right; assumption.
    - exists d'. split; [exact E|]. split.
      + intros m [<-|Hm]; [|exact (A m Hm)]. split; [|split].
        * rewrite B; [rewrite L1, String.eqb_refl; reflexivity| |].
          -- intros I. destruct (String.eqb_spec n (g n)) as [e|e]; [rewrite <- e in I; contradiction|].
             destruct (H2 n (g n) (or_introl eq_refl) (or_intror I) e) as [X _]. apply X. reflexivity.
          -- intros m Hm. assert (Ne : n <> m) by (intros ->; contradiction). split; [apply (H2 n m (or_introl eq_refl) (or_intror Hm) Ne)|].
             intros e. apply (proj2 (H3 m n (or_intror Hm) (or_introl eq_refl))). symmetry. exact e.
        * rewrite B; [rewrite L1| |].
          -- destruct (String.eqb_spec (g n) (n ++ ".old")); [reflexivity|]. destruct (String.eqb_spec n (n ++ ".old")) as [e|]; [|rewrite String.eqb_refl; reflexivity].
             exfalso. apply (f_equal String.length) in e. rewrite append_len in e. cbn in e. lia.
          -- intros I. apply (proj1 (H3 n _ (or_introl eq_refl) (or_intror I))). reflexivity.
          -- intros m Hm. split; [apply (proj2 (H3 n m (or_introl eq_refl) (or_intror Hm)))|].
             intros e. apply append_inj in e; [|reflexivity]. destruct e as [-> _]. contradiction.
        * intros Ne. rewrite B; [rewrite L1| |].
          -- destruct (String.eqb_spec (g n) n); [contradiction|]. rewrite String.eqb_refl. reflexivity.
          -- exact Nn.
          -- intros m Hm. assert (Ne' : m <> n) by (intros ->; contradiction). split.
             ++ intros e. apply (proj1 (H2 m n (or_intror Hm) (or_introl eq_refl) Ne')). symmetry. exact e.
             ++ intros e. apply (proj1 (H3 m n (or_intror Hm) (or_introl eq_refl))). symmetry. exact e.
      + intros k Hk Hg. rewrite B; [rewrite L1| |].
        * destruct (Hg n (or_introl eq_refl)) as [X Y]. destruct (String.eqb_spec (g n) k); [congruence|].
          destruct (String.eqb_spec n k) as [->|]; [exfalso; apply Hk; left; reflexivity|]. destruct (String.eqb_spec (n ++ ".old") k); [congruence|reflexivity].
        * intros I. apply Hk. right. exact I.
        * intros m Hm. apply Hg. right. exact Hm.
  Qed.

  Lemma rename_each_nodup ns : forall d d', NoDup (map fst d) -> rename_each num show sep f d ns = Ok d' -> NoDup (map fst d').
  Proof.
    induction ns as [|n ns IH]; intros d d' H E; cbn [rename_each] in E; [injection E as <-; exact H|].
    binv E d1 E1. unfold rename1 in E1. binv E1 n' En. binv E1 c Ec. injection E1 as <-. apply (IH _ _ (put_nodup _ _ _ (drop_nodup _ _ (put_nodup _ _ _ H))) E).
  Qed.
End Loop.

(** *** A loop over a directory of exports *)
Section Pass.
  Context {T : Type} {NT : Num T} {C X : Type} (num : string -> option T) (show : T -> string) (l : list (X * C)).
  (** [cur]: the present name of each export. *)
  Definition holds (cur : X -> string) (d : list (string * C)) : Prop :=
    NoDup (map fst d) /\ (forall e c, In (e, c) l -> look (cur e) d = Some c) /\
    (forall k, ends ".txt" k = true -> look k d <> None -> exists e c, In (e, c) l /\ k = cur e).
  Lemma pass (cur cur' : X -> string) (sel : X -> bool) sep f suf d : NoDup (map fst l) -> holds cur d ->
    (forall k, ends suf k = true -> ends ".txt" k = true) ->
    (forall e c, In (e, c) l -> ends ".txt" (cur e) = true /\ ends ".txt" (cur' e) = true /\
       if sel e then ends suf (cur e) = true /\ new_name num show sep f (cur e) = Ok (cur' e) /\ cur' e <> cur e else ends suf (cur e) = false /\ cur' e = cur e) ->
    (forall e1 c1 e2 c2, In (e1, c1) l -> In (e2, c2) l -> e1 <> e2 -> cur e1 <> cur e2 /\ cur' e1 <> cur e2 /\ cur' e1 <> cur' e2) ->
    exists d', rename_each num show sep f d (glob suf d) = Ok d' /\ holds cur' d' /\
      (forall e c, In (e, c) l -> sel e = true -> look (cur e ++ ".old")%string d' = Some c) /\
      (forall k, ends ".txt" k = false -> (forall e c, In (e, c) l -> sel e = true -> k <> (cur e ++ ".old")%string) -> look k d' = look k d).
  Proof.
    intros NDl (ND & H1 & H2) Hs Hc Hx.
    assert (Old : forall n k, ends ".txt" k = true -> (n ++ ".old")%string <> k).
    { intros n k K <-. destruct (ends_inv _ _ K) as [a E]. apply append_inj in E; [|reflexivity]. destruct E as [_ E]. discriminate. }
    assert (Gl : forall n, In n (glob suf d) <-> exists e c, In (e, c) l /\ n = cur e /\ sel e = true).
    { intros n. unfold glob. rewrite filter_In. rewrite <- (look_in d n). split.
      - intros [A B]. destruct (H2 n (Hs n B) A) as (e & c & I & ->). exists e, c. split; [exact I|]. split; [reflexivity|].
        destruct (Hc e c I) as (_ & _ & K). destruct (sel e); [reflexivity|]. destruct K as [K _]. congruence.
      - intros (e & c & I & -> & S). destruct (Hc e c I) as (_ & _ & K). rewrite S in K. destruct K as [K _]. split; [|exact K].
        rewrite (H1 e c I). discriminate. }
    (* the new name and the content belonging to a name *)
    set (g := fun n => match new_name num show sep f n with Ok n' => n' | Err _ => "" end).
    assert (Gg : forall e c, In (e, c) l -> sel e = true -> g (cur e) = cur' e).
    { intros e c I S. unfold g. destruct (Hc e c I) as (_ & _ & K). rewrite S in K. destruct K as (_ & -> & _). reflexivity. }
    assert (Hne : forall e1 c1 e2 c2, In (e1, c1) l -> In (e2, c2) l -> cur e1 <> cur e2 -> e1 <> e2) by (intros; intros ->; congruence).
    assert (D : (forall e c, ~ In (e, c) l) \/ exists e0 c0, In (e0, c0) l) by (destruct l as [|[a b] ?]; [left; intros ? ? []|right; exists a, b; left; reflexivity]).
    destruct D as [D|(e0 & c0 & _)].
    { exists d. assert (Gn : glob suf d = []). { destruct (glob suf d) as [|n r]; [reflexivity|]. destruct (proj1 (Gl n) (or_introl eq_refl)) as (e & c & I & _). destruct (D e c I). }
      rewrite Gn. split; [reflexivity|]. split; [split; [exact ND|split]|split].
      - intros e c I. destruct (D e c I).
      - intros k K1 K2. destruct (H2 k K1 K2) as (e & c & I & _). destruct (D e c I).
      - intros e c I. destruct (D e c I).
      - reflexivity. }
    set (h := fun n => match look n d with Some c => c | None => c0 end).
    destruct (rename_each_spec num show sep f g h (glob suf d) d) as (d' & E & A & B).
    - unfold glob. apply NoDup_filter, ND.
    - intros n I. apply Gl in I. destruct I as (e & c & I & -> & S). destruct (Hc e c I) as (_ & _ & K). rewrite S in K. destruct K as (_ & K & _).
      rewrite (Gg e c I S). split; [exact K|]. unfold h. rewrite (H1 e c I). reflexivity.
    - intros n k I J Ne. apply Gl in I, J. destruct I as (e & c & I & -> & S), J as (e' & c' & J & -> & S').
      rewrite (Gg e c I S), (Gg e' c' J S'). destruct (Hx e c e' c' I J (Hne _ _ _ _ I J Ne)) as (_ & P & Q). auto.
    - intros n k I J. apply Gl in I, J. destruct I as (e & c & I & -> & S), J as (e' & c' & J & -> & S'). rewrite (Gg e' c' J S').
      destruct (Hc e' c' J) as (P & Q & _). split; apply Old; assumption.
    - exists d'. split; [exact E|].
      assert (Keep : forall k, (forall e c, In (e, c) l -> sel e = true -> k <> cur e /\ k <> cur' e /\ k <> (cur e ++ ".old")%string) -> look k d' = look k d).
      { intros k K. apply B.
        - intros I. apply Gl in I. destruct I as (e & c & I & -> & S). destruct (K e c I S) as [Q _]. apply Q. reflexivity.
        - intros n I. apply Gl in I. destruct I as (e & c & I & -> & S). destruct (K e c I S) as (_ & Q1 & Q2). rewrite (Gg e c I S). auto. }
      split; [split; [|split]|split].
      + apply (rename_each_nodup _ _ _ _ _ _ _ ND E).
      + intros e c I. destruct (Hc e c I) as (K1 & K2 & K). destruct (sel e) eqn:S.
        * assert (J : In (cur e) (glob suf d)) by (apply Gl; eauto). destruct (A _ J) as (Q & _ & _). rewrite (Gg e c I S) in Q. rewrite Q. unfold h. rewrite (H1 e c I). reflexivity.
        * destruct K as [_ ->]. rewrite Keep; [apply (H1 e c I)|]. intros e' c' J S'. assert (Ne : e <> e') by congruence.
          destruct (Hx e' c' e c J I (not_eq_sym Ne)) as (P1 & P2 & _). split; [exact (not_eq_sym P1)|]. split; [exact (not_eq_sym P2)|]. apply not_eq_sym, Old, K1.
      + intros k K1 K2.
        destruct (in_dec string_dec k (glob suf d)) as [I|I].
        * assert (I' := I). apply Gl in I. destruct I as (e & c & I & -> & S). destruct (Hc e c I) as (_ & _ & K). rewrite S in K. destruct K as (_ & _ & K).
          exfalso. apply K2. apply (A _ I'). rewrite (Gg e c I S). exact K.
        * destruct (in_dec string_dec k (map g (glob suf d))) as [J|J].
          -- apply in_map_iff in J. destruct J as (n & <- & J). apply Gl in J. destruct J as (e & c & J & -> & S). exists e, c. split; [exact J|]. apply (Gg e c J S).
          -- assert (Ek : look k d' = look k d).
             { apply B; [exact I|]. intros n J'. split; [intros ->; apply J; apply in_map; exact J'|]. apply not_eq_sym, Old, K1. }
             rewrite Ek in K2. destruct (H2 k K1 K2) as (e & c & Q & ->). exists e, c. split; [exact Q|]. destruct (Hc e c Q) as (_ & _ & K).
             destruct (sel e) eqn:S; [exfalso; apply I; apply Gl; eauto|]. destruct K as [_ ->]. reflexivity.
      + intros e c I S. assert (J : In (cur e) (glob suf d)) by (apply Gl; eauto). destruct (A _ J) as (_ & Q & _). rewrite Q. unfold h. rewrite (H1 e c I). reflexivity.
      + intros k K1 K2. apply Keep. intros e c I S. destruct (Hc e c I) as (P & Q & _). split; [intros ->; congruence|]. split; [intros ->; congruence|]. apply (K2 e c I S).
  Qed.
End Pass.

(** ** C137 *)
(** The word between the underscore and ".txt" in the name of an export: hundredths or thousandths in the notation of CST,
    the time zero, or anything else. *)
Inductive word : Type := WE2 (m : string) | WE3 (m : string) | W0 | WOther (w : string).
Definition export : Type := (string * word)%type.
Definition text (w : word) : string :=
  match w with WE2 m => (m ++ "E-02")%string | WE3 m => (m ++ "E-03")%string | W0 => "0" | WOther w => w end.
Definition named (a t : string) : string := (a ++ "_" ++ t ++ ".txt")%string.
Definition name (e : export) : string := named (fst e) (text (snd e)).
(** One underscore, a number in front of the exponent. *)
Definition proper {T} (num : string -> option T) (e : export) : Prop :=
  has "_" (fst e) = false /\
  match snd e with
  | WE2 m | WE3 m => has "_" m = false /\ has "E" m = false /\ num m <> None
  | W0 => num "0" <> None
  | WOther w => has "_" w = false /\ ends "E-02" w = false /\ ends "E-03" w = false /\ w <> "0"
  end.
(** The time an export is of. *)
Definition time {T} {NT : Num T} (num : string -> option T) (e : export) : option T :=
  match snd e with
  | WE2 m => option_map (fun x => ndiv x (nofnat 100)) (num m)
  | WE3 m => option_map (fun x => ndiv x (nofnat 1000)) (num m)
  | W0 => num "0"
  | WOther w => num w
  end.
Definition renamed (e : export) : bool := match snd e with WOther _ => false | _ => true end.
(** Where an export should be found: under str() of its time when it is renamed. *)
Definition target {T} {NT : Num T} (num : string -> option T) (show : T -> string) (e : export) : string :=
  match renamed e, time num e with true, Some x => named (fst e) (show x) | _, _ => name e end.

Lemma named_cut a t : named a t = ((a ++ String "_" t) ++ ".txt")%string.
Proof. unfold named. rewrite append_assoc. reflexivity. Qed.
Lemma append_cancel a b c : (a ++ b = a ++ c)%string -> b = c.
Proof. induction a as [|d a IH]; cbn; intros H; [exact H|]. injection H as H. exact (IH H). Qed.
Lemma named_inj a t t' : named a t = named a t' -> t = t'.
Proof. rewrite !named_cut. intros H. apply append_inj in H; [|reflexivity]. destruct H as [H _]. apply append_cancel in H. injection H as H. exact H. Qed.
Lemma named_txt a t : ends ".txt" (named a t) = true.
Proof. rewrite named_cut. apply ends_app. Qed.
Lemma named_ends a t s : has "_" s = false -> ends (s ++ ".txt") (named a t) = true -> ends s t = true.
Proof. intros Hs H. rewrite named_cut in H. apply ends_cut in H. exact (ends_after "_" s a t Hs H). Qed.
Lemma named_zero a t : has "_" t = false -> ends "_0.txt" (named a t) = true -> t = "0".
Proof.
  intros Ht H. rewrite named_cut in H. change "_0.txt" with ("_0" ++ ".txt")%string in H. apply ends_cut in H.
  induction a as [|d a IH]; cbn [append] in H; cbn [ends] in H; apply orb_true_iff in H; destruct H as [H|H].
  - apply String.eqb_eq in H. injection H as H. exact H.
  - apply (has_ends "_" _ _ Ht) in H. discriminate.
  - apply String.eqb_eq in H. injection H as _ H. destruct a as [|d' a]; [discriminate|]. injection H as _ H. destruct a; discriminate.
  - exact (IH H).
Qed.

Section Names.
  Context {T : Type} {NT : Num T} (num : string -> option T) (show : T -> string).
  Lemma new_exp a m s (f : T -> T) x : has "_" a = false -> has "_" m = false -> has "E" m = false -> has "_" s = false -> num m = Some x ->
    new_name num show "E" f (named a (m ++ String "E" s)) = Ok (named a (show (f x))).
  Proof.
    intros Ha Hm He Hs Hx. unfold new_name, named. change ("_" ++ ?u)%string with (String "_" u). rewrite split_app by exact Ha.
    rewrite split_no by (rewrite !has_app; cbn [has]; rewrite Hm, Hs; reflexivity). cbn [nth_error some bind]. rewrite append_assoc. cbn [append].
    rewrite split_app by exact He. cbn [nth_error some bind]. rewrite Hx. reflexivity.
  Qed.
  Lemma new_zero a x : has "_" a = false -> num "0" = Some x -> new_name num show "." (fun x => x) (named a "0") = Ok (named a (show x)).
  Proof. intros Ha Hx. unfold new_name, named. change ("_" ++ ?u)%string with (String "_" u). rewrite split_app by exact Ha. cbn. rewrite Hx. reflexivity. Qed.
End Names.

(** Exports with one underscore in their names, whose places are different from each other and from the names of the other
    exports: after the renaming each is found under str() of its time, renamed ones also as a copy with ".old" behind the
    old name, and there are no other .txt files; so reading and sorting the files by name sees the same times and fields. *)
Theorem C137_renamed_partial : forall (T : Type) (NT : Num T) (C : Type) (num : string -> option T) (show : T -> string) (l : list (export * C)),
  (forall e c x, In (e, c) l -> renamed e = true -> time num e = Some x ->
     num (show x) = Some x /\ has "_" (show x) = false /\ has "E" (show x) = false /\ show x <> "0") ->
  NoDup (map fst l) -> (forall e c, In (e, c) l -> proper num e) ->
  (forall e1 c1 e2 c2, In (e1, c1) l -> In (e2, c2) l -> e1 <> e2 ->
     name e1 <> name e2 /\ target num show e1 <> name e2 /\ target num show e1 <> target num show e2) ->
  exists d, rename_all num show (map (fun ec => (name (fst ec), snd ec)) l) = Ok d /\
    (forall e c, In (e, c) l -> look (target num show e) d = Some c /\ (renamed e = true -> look (name e ++ ".old")%string d = Some c) /\
       nth_error (split "_" (target num show e)) 1 = Some ((if renamed e then match time num e with Some x => show x | None => "" end else text (snd e)) ++ ".txt")%string /\
       (renamed e = true -> exists x, time num e = Some x /\ num (show x) = Some x)) /\
    (forall k, ends ".txt" k = true -> look k d <> None -> exists e c, In (e, c) l /\ k = target num show e).
Proof.
  intros T NT C num show l Hsh ND Hp Hd.
  set (tg := target num show). set (d0 := map (fun ec : export * C => (name (fst ec), snd ec)) l).
  set (c1 := fun e : export => match snd e with WE2 _ => tg e | _ => name e end).
  set (c2 := fun e : export => match snd e with WE2 _ | WE3 _ => tg e | _ => name e end).
  assert (Tx : forall e, ends ".txt" (name e) = true /\ ends ".txt" (tg e) = true).
  { intros e. split; [apply named_txt|]. unfold tg, target. destruct (renamed e); [|apply named_txt]. destruct (time num e); apply named_txt. }
  assert (H0 : holds l name d0).
  { assert (Nm : NoDup (map fst d0)).
    { unfold d0. rewrite map_map. cbn [fst]. clear - ND Hd. induction l as [|[e c] r IH]; [constructor|]. cbn [map fst] in *. inversion ND as [|? ? N1 N2]; subst. constructor.
      - intros I. apply in_map_iff in I. destruct I as ([e' c'] & E & I). cbn [fst] in E.
        assert (Ne : e' <> e) by (intros ->; apply N1; apply in_map_iff; exists (e, c'); auto).
        destruct (Hd e' c' e c (or_intror I) (or_introl eq_refl) Ne) as [Q _]. congruence.
      - apply IH; [exact N2|]. intros e1 k1 e2 k2 I1 I2. apply (Hd e1 k1 e2 k2); right; assumption. }
    split; [exact Nm|]. split.
    - intros e c I. assert (I' : In (name e, c) d0) by (unfold d0; apply in_map_iff; exists (e, c); auto). clear - Nm I'.
      induction d0 as [|[n k] r IH]; [destruct I'|]. cbn [look map fst] in *. inversion Nm as [|? ? N1 N2]; subst. destruct I' as [E|I'].
      + injection E as -> ->. rewrite String.eqb_refl. reflexivity.
      + destruct (String.eqb_spec n (name e)) as [->|_]; [exfalso; apply N1; apply in_map_iff; exists (name e, c); auto|exact (IH N2 I')].
    - intros k _ K. apply look_in in K. unfold d0 in K. rewrite map_map in K. apply in_map_iff in K. destruct K as ([e c] & <- & I). exists e, c. auto. }
  assert (Dx : forall ca cb : export -> string, (forall e, ca e = name e \/ ca e = tg e) -> (forall e, cb e = name e \/ cb e = tg e) ->
    forall e1 k1 e2 k2, In (e1, k1) l -> In (e2, k2) l -> e1 <> e2 -> ca e1 <> ca e2 /\ cb e1 <> ca e2 /\ cb e1 <> cb e2).
  { intros ca cb Ea Eb e1 k1 e2 k2 I1 I2 Ne. destruct (Hd e1 k1 e2 k2 I1 I2 Ne) as (P1 & P2 & P3). destruct (Hd e2 k2 e1 k1 I2 I1 (not_eq_sym Ne)) as (_ & P4 & _).
    fold tg in P2, P3, P4. apply not_eq_sym in P4.
    destruct (Ea e1) as [-> | ->], (Ea e2) as [-> | ->], (Eb e1) as [-> | ->], (Eb e2) as [-> | ->]; auto. }
  assert (Cn : forall e, name e = name e \/ name e = tg e) by auto.
  assert (C1 : forall e, c1 e = name e \/ c1 e = tg e) by (intros [a []]; cbn; auto).
  assert (C2 : forall e, c2 e = name e \/ c2 e = tg e) by (intros [a []]; cbn; auto).
  assert (Ct : forall e, tg e = name e \/ tg e = tg e) by auto.
  assert (Txc : forall (ca : export -> string) e, ca e = name e \/ ca e = tg e -> ends ".txt" (ca e) = true) by (intros ca e [-> | ->]; apply Tx).
  destruct (pass num show l name c1 (fun e => match snd e with WE2 _ => true | _ => false end) "E" (fun x => ndiv x (nofnat 100)) "E-02.txt" d0 ND H0) as (d1 & E1 & K1 & B1 & _).
  { intros k K. exact (ends_trans "E-02" ".txt" k K). }
  { intros e c I. split; [apply Txc, Cn|]. split; [apply Txc, C1|]. destruct (Hp e c I) as [Ha Hw]. destruct e as [a w]. unfold c1, name. cbn [fst snd] in *. destruct w as [m|m| |w].
    - destruct Hw as (W1 & W2 & W3). destruct (num m) as [x|] eqn:Ex; [|contradiction].
      assert (Et : tg (a, WE2 m) = named a (show (ndiv x (nofnat 100)))) by (unfold tg, target, time; cbn; rewrite Ex; reflexivity).
      rewrite Et. cbn [text]. split; [rewrite named_cut; change "E-02.txt" with ("E-02" ++ ".txt")%string; replace ((a ++ String "_" (m ++ "E-02")) ++ ".txt")%string with ((a ++ String "_" m) ++ ("E-02" ++ ".txt"))%string by (rewrite !append_assoc; cbn [append]; rewrite !append_assoc; reflexivity); apply ends_app|].
      split; [exact (new_exp num show a m "-02" (fun x => ndiv x (nofnat 100)) x Ha W1 W2 eq_refl Ex)|]. intros Q. apply named_inj in Q. destruct (Hsh _ c (ndiv x (nofnat 100)) I eq_refl ltac:(unfold time; cbn; rewrite Ex; reflexivity)) as (_ & _ & Q2 & _). rewrite Q, has_app in Q2. cbn in Q2. rewrite orb_true_r in Q2. discriminate.
    - split; [|reflexivity]. apply not_true_iff_false. intros Q. apply (named_ends a _ "E-02" eq_refl) in Q. destruct (ends_inv _ _ Q) as [b E]. cbn [text] in E. apply append_inj in E; [|reflexivity]. destruct E. discriminate.
    - split; [|reflexivity]. apply not_true_iff_false. intros Q. apply (named_ends a _ "E-02" eq_refl) in Q. discriminate.
    - split; [|reflexivity]. apply not_true_iff_false. intros Q. apply (named_ends a _ "E-02" eq_refl) in Q. cbn [text] in Q. destruct Hw as (_ & W & _). congruence. }
  { intros e1 k1 e2 k2 I1 I2 Ne. exact (Dx name c1 Cn C1 e1 k1 e2 k2 I1 I2 Ne). }
  destruct (pass num show l c1 c2 (fun e => match snd e with WE3 _ => true | _ => false end) "E" (fun x => ndiv x (nofnat 1000)) "E-03.txt" d1 ND K1) as (d2 & E2 & K2 & B2 & O2).
  { intros k K. exact (ends_trans "E-03" ".txt" k K). }
  { intros e c I. split; [apply Txc, C1|]. split; [apply Txc, C2|]. destruct (Hp e c I) as [Ha Hw]. destruct e as [a w]. unfold c1, c2, name. cbn [fst snd] in *. destruct w as [m|m| |w].
    - split; [|reflexivity]. destruct Hw as (W1 & W2 & W3). destruct (num m) as [x|] eqn:Ex; [|contradiction].
      assert (Et : tg (a, WE2 m) = named a (show (ndiv x (nofnat 100)))) by (unfold tg, target, time; cbn; rewrite Ex; reflexivity).
      rewrite Et. apply not_true_iff_false. intros Q. apply (named_ends a _ "E-03" eq_refl) in Q. destruct (Hsh _ c (ndiv x (nofnat 100)) I eq_refl ltac:(unfold time; cbn; rewrite Ex; reflexivity)) as (_ & _ & Q2 & _). apply (has_ends "E" _ _ Q2) in Q. discriminate.
    - destruct Hw as (W1 & W2 & W3). destruct (num m) as [x|] eqn:Ex; [|contradiction].
      assert (Et : tg (a, WE3 m) = named a (show (ndiv x (nofnat 1000)))) by (unfold tg, target, time; cbn; rewrite Ex; reflexivity).
      rewrite Et. cbn [text]. split; [rewrite named_cut; change "E-03.txt" with ("E-03" ++ ".txt")%string; replace ((a ++ String "_" (m ++ "E-03")) ++ ".txt")%string with ((a ++ String "_" m) ++ ("E-03" ++ ".txt"))%string by (rewrite !append_assoc; cbn [append]; rewrite !append_assoc; reflexivity); apply ends_app|].
      split; [exact (new_exp num show a m "-03" (fun x => ndiv x (nofnat 1000)) x Ha W1 W2 eq_refl Ex)|]. intros Q. apply named_inj in Q. destruct (Hsh _ c (ndiv x (nofnat 1000)) I eq_refl ltac:(unfold time; cbn; rewrite Ex; reflexivity)) as (_ & _ & Q2 & _). rewrite Q, has_app in Q2. cbn in Q2. rewrite orb_true_r in Q2. discriminate.
    - split; [|reflexivity]. apply not_true_iff_false. intros Q. apply (named_ends a _ "E-03" eq_refl) in Q. discriminate.
    - split; [|reflexivity]. apply not_true_iff_false. intros Q. apply (named_ends a _ "E-03" eq_refl) in Q. cbn [text] in Q. destruct Hw as (_ & _ & W & _). congruence. }
  { intros e1 k1 e2 k2 I1 I2 Ne. exact (Dx c1 c2 C1 C2 e1 k1 e2 k2 I1 I2 Ne). }
  destruct (pass num show l c2 tg (fun e => match snd e with W0 => true | _ => false end) "." (fun x => x) "_0.txt" d2 ND K2) as (d3 & E3 & K3 & B3 & O3).
  { intros k K. exact (ends_trans "_0" ".txt" k K). }
  { intros e c I. split; [apply Txc, C2|]. split; [apply Tx|]. destruct (Hp e c I) as [Ha Hw]. destruct e as [a w]. unfold c2, name. cbn [fst snd] in *. destruct w as [m|m| |w].
    - split; [|reflexivity]. destruct Hw as (W1 & W2 & W3). destruct (num m) as [x|] eqn:Ex; [|contradiction].
      assert (Et : tg (a, WE2 m) = named a (show (ndiv x (nofnat 100)))) by (unfold tg, target, time; cbn; rewrite Ex; reflexivity).
      rewrite Et. apply not_true_iff_false. intros Q. destruct (Hsh _ c (ndiv x (nofnat 100)) I eq_refl ltac:(unfold time; cbn; rewrite Ex; reflexivity)) as (_ & Q1 & _ & Q2). apply (named_zero a _ Q1) in Q. contradiction.
    - split; [|reflexivity]. destruct Hw as (W1 & W2 & W3). destruct (num m) as [x|] eqn:Ex; [|contradiction].
      assert (Et : tg (a, WE3 m) = named a (show (ndiv x (nofnat 1000)))) by (unfold tg, target, time; cbn; rewrite Ex; reflexivity).
      rewrite Et. apply not_true_iff_false. intros Q. destruct (Hsh _ c (ndiv x (nofnat 1000)) I eq_refl ltac:(unfold time; cbn; rewrite Ex; reflexivity)) as (_ & Q1 & _ & Q2). apply (named_zero a _ Q1) in Q. contradiction.
    - destruct (num "0") as [x|] eqn:Ex; [|contradiction].
      assert (Et : tg (a, W0) = named a (show x)) by (unfold tg, target, time; cbn; rewrite Ex; reflexivity).
      rewrite Et. cbn [text]. split; [unfold named; apply (ends_app "_0.txt" a)|]. split; [apply new_zero; assumption|]. intros Q. apply named_inj in Q. destruct (Hsh _ c x I eq_refl ltac:(unfold time; cbn; rewrite Ex; reflexivity)) as (_ & _ & _ & Q2). contradiction.
    - split; [|reflexivity]. apply not_true_iff_false. intros Q. destruct Hw as (W1 & _ & _ & W4). apply (named_zero a _ W1) in Q. contradiction. }
  { intros e1 k1 e2 k2 I1 I2 Ne. exact (Dx c2 tg C2 Ct e1 k1 e2 k2 I1 I2 Ne). }
  exists d3. split; [unfold rename_all; rewrite E1; cbn [bind]; rewrite E2; cbn [bind]; exact E3|].
  split; [|apply K3]. intros e c I. split; [apply K3, I|].
  assert (Nold : forall k, ends ".txt" (k ++ ".old")%string = false).
  { intros k. apply not_true_iff_false. intros Q. destruct (ends_inv _ _ Q) as [b E]. apply append_inj in E; [|reflexivity]. destruct E. discriminate. }
  assert (Dn : forall ca : export -> string, (forall e, ca e = name e \/ ca e = tg e) -> forall e' k', In (e', k') l -> e <> e' -> (name e ++ ".old")%string <> (ca e' ++ ".old")%string).
  { intros ca Ea e' k' I' Ne Q. apply append_inj in Q; [|reflexivity]. destruct Q as [Q _]. destruct (Hd e c e' k' I I' Ne) as (P1 & _ & _). destruct (Hd e' k' e c I' I (not_eq_sym Ne)) as (_ & P2 & _). fold tg in P2.
    destruct (Ea e') as [X|X]; rewrite X in Q; [contradiction|]. symmetry in Q. contradiction. }
  split; [|split].
  - intros R. destruct e as [a w]. destruct w as [m|m| |w]; [| | |discriminate].
    + rewrite O3; [rewrite O2; [apply (B1 _ _ I eq_refl)|apply Nold|]|apply Nold|].
      * intros e' k' I' S. apply (Dn c1 C1 e' k' I'). intros <-. discriminate.
      * intros e' k' I' S. apply (Dn c2 C2 e' k' I'). intros <-. discriminate.
    + rewrite O3; [apply (B2 _ _ I eq_refl)|apply Nold|]. intros e' k' I' S. apply (Dn c2 C2 e' k' I'). intros <-. discriminate.
    + apply (B3 _ _ I eq_refl).
  - destruct (Hp e c I) as [Ha Hw]. unfold tg, target, named. destruct e as [a w]. cbn [fst snd renamed] in *.
    assert (Sp : forall t, has "_" t = false -> nth_error (split "_" (a ++ "_" ++ t ++ ".txt")) 1 = Some (t ++ ".txt")%string).
    { intros t Ht. change ("_" ++ ?u)%string with (String "_" u). rewrite split_app by exact Ha. rewrite split_no by (rewrite has_app, Ht; reflexivity). reflexivity. }
    destruct w as [m|m| |w]; cbn [time snd renamed].
    + destruct Hw as (_ & _ & W). destruct (num m) as [x|] eqn:Ex; [|contradiction]. cbn [option_map]. apply Sp. apply (Hsh _ c _ I eq_refl ltac:(unfold time; cbn; rewrite Ex; reflexivity)).
    + destruct Hw as (_ & _ & W). destruct (num m) as [x|] eqn:Ex; [|contradiction]. cbn [option_map]. apply Sp. apply (Hsh _ c _ I eq_refl ltac:(unfold time; cbn; rewrite Ex; reflexivity)).
    + destruct (num "0") as [x|] eqn:Ex; [|contradiction]. apply Sp. apply (Hsh _ c _ I eq_refl ltac:(unfold time; cbn; rewrite Ex; reflexivity)).
    + unfold name, named. cbn [fst snd text]. apply Sp, Hw.
  - intros R. destruct (Hp e c I) as [_ Hw]. destruct e as [a [m|m| |w]]; cbn [time snd renamed] in *; [| | |discriminate].
    + destruct Hw as (_ & _ & W). destruct (num m) as [x|] eqn:Ex; [|contradiction]. eexists. split; [reflexivity|apply (Hsh _ c _ I eq_refl ltac:(unfold time; cbn; rewrite Ex; reflexivity))].
    + destruct Hw as (_ & _ & W). destruct (num m) as [x|] eqn:Ex; [|contradiction]. eexists. split; [reflexivity|apply (Hsh _ c _ I eq_refl ltac:(unfold time; cbn; rewrite Ex; reflexivity))].
    + destruct (num "0") as [x|] eqn:Ex; [|contradiction]. eexists. split; [reflexivity|apply (Hsh _ c _ I eq_refl ltac:(unfold time; cbn; rewrite Ex; reflexivity))].
Qed.
Print Assumptions C137_renamed_partial.

(** A second underscore in the name, before a word that is no number: the reading stops with a ValueError. *)
Theorem C137_underscore : forall (T : Type) (NT : Num T) (C : Type) (num : string -> option T) (show : T -> string) (a b m : string) (c : C),
  has "_" a = false -> has "_" b = false -> num (hd "" (split "E" b)) = None ->
  rename_all num show [((a ++ "_" ++ b ++ "_" ++ m ++ "E-02.txt")%string, c)] = Err ValueError.
Proof.
  intros T NT C num show a b m c Ha Hb Hn. unfold rename_all, glob. cbn [map fst List.filter].
  replace (a ++ "_" ++ b ++ "_" ++ m ++ "E-02.txt")%string with ((a ++ "_" ++ b ++ "_" ++ m) ++ "E-02.txt")%string by (rewrite !append_assoc; reflexivity).
  rewrite ends_app. rewrite !append_assoc. cbn [rename_each]. unfold rename1, new_name.
  repeat progress (rewrite ?append_assoc; cbn [append]). rewrite split_app by exact Ha. rewrite split_app by exact Hb. cbn [nth_error some bind].
  destruct (split "E" b) as [|h r] eqn:E; cbn [hd] in Hn.
  - exfalso. destruct b; cbn in E; [discriminate|]. destruct (Ascii.eqb a0 "E"); [discriminate|]. destruct (split "E" b); discriminate.
  - cbn [nth_error some bind]. rewrite Hn. reflexivity.
Qed.
Print Assumptions C137_underscore.

(** Numbers for the examples: a table for float() and for str(). *)
Definition dec (p : Z) (q : positive) : Qcanon.Qc := Qcanon.Q2Qc (QArith_base.Qmake p q).
Definition num0 (s : string) : option Qcanon.Qc :=
  match List.find (fun e => String.eqb (fst e) s) [("15", dec 15 1); ("1.5", dec 3 2); ("2", dec 2 1); ("0", dec 0 1); ("0.015", dec 3 200); ("0.02", dec 1 50); ("0.0", dec 0 1); ("0.3", dec 3 10)] with
  | Some e => Some (snd e) | None => None end.
Definition show0 (x : Qcanon.Qc) : string :=
  if Qcanon.Qc_eq_bool x (dec 3 200) then "0.015" else if Qcanon.Qc_eq_bool x (dec 1 50) then "0.02" else "0.0".

(** Two exports of one prefix whose times are equal in different notation: the content of one is in no .txt file any more. *)
Theorem C137_overwrite_refuted : exists (l : list (export * nat)) (d : list (string * nat)) (e : export) (c : nat),
  NoDup (map (fun ec => name (fst ec)) l) /\ (forall e c, In (e, c) l -> proper num0 e /\ exists x, time num0 e = Some x /\ num0 (show0 x) = Some x) /\
  rename_all num0 show0 (map (fun ec => (name (fst ec), snd ec)) l) = Ok d /\ In (e, c) l /\
  forall k, ends ".txt" k = true -> look k d <> Some c.
Proof.
  exists [(("Ez", WE2 "1.5"), 1); (("Ez", WE3 "15"), 2)]. eexists. exists ("Ez", WE2 "1.5"), 1.
  split; [repeat constructor; cbn; intuition discriminate|].
  split. { intros e c [E|[E|[]]]; injection E as <- <-; (split; [vm_compute; repeat split; discriminate|]); eexists; (split; [reflexivity|]); vm_compute; f_equal; apply Qcanon.Qc_is_canon; reflexivity. }
  split; [vm_compute; reflexivity|]. split; [left; reflexivity|].
  intros k K. cbn [look].
  repeat match goal with |- context [String.eqb ?s k] => destruct (String.eqb_spec s k) as [<-|_]; [first [discriminate K | discriminate]|] end. discriminate.
Qed.
Print Assumptions C137_overwrite_refuted.

(** Three exports and a file that needs no new name. *)
Definition exports0 : list (export * nat) := [(("Ez", WE2 "2"), 1); (("Ez", WE3 "15"), 2); (("Ez", W0), 3); (("Ez", WOther "0.3"), 4)].
Example C137_case : (exists d, rename_all num0 show0 (map (fun ec => (name (fst ec), snd ec)) exports0) = Ok d /\
    look "Ez_0.02.txt" d = Some 1 /\ look "Ez_0.015.txt" d = Some 2 /\ look "Ez_0.0.txt" d = Some 3 /\ look "Ez_0.3.txt" d = Some 4) /\
  NoDup (map fst exports0) /\ (forall e c, In (e, c) exports0 -> proper num0 e) /\
  (forall e c x, In (e, c) exports0 -> renamed e = true -> time num0 e = Some x ->
     num0 (show0 x) = Some x /\ has "_" (show0 x) = false /\ has "E" (show0 x) = false /\ show0 x <> "0") /\
  (forall e1 c1 e2 c2, In (e1, c1) exports0 -> In (e2, c2) exports0 -> e1 <> e2 ->
     name e1 <> name e2 /\ target num0 show0 e1 <> name e2 /\ target num0 show0 e1 <> target num0 show0 e2).
Proof.
  split; [eexists; split; [vm_compute; reflexivity|vm_compute; repeat split; reflexivity]|].
  split; [repeat constructor; cbn; intuition discriminate|].
  split. { intros e c I. cbn [In exports0] in I. repeat (destruct I as [E|I]; [injection E as <- <-; vm_compute; repeat split; discriminate|]). destruct I. }
  split.
  { intros e c x I R Tm. cbn [In exports0] in I.
    repeat (destruct I as [E|I]; [injection E as <- <-; first [discriminate R | vm_compute in Tm; injection Tm as <-; (split; [vm_compute; f_equal; apply Qcanon.Qc_is_canon; reflexivity|vm_compute; repeat split; discriminate])]|]). destruct I. }
  intros e1 c1 e2 c2 I1 I2 Ne. cbn [In exports0] in I1, I2.
  repeat (destruct I1 as [E1|I1]; [injection E1 as <- <-;
    repeat (destruct I2 as [E2|I2]; [injection E2 as <- <-; first [exfalso; apply Ne; reflexivity | vm_compute; repeat split; discriminate]|]); destruct I2|]). destruct I1.
Qed.
Example C137_underscore_case : rename_all num0 show0 [("a_b_2E-02.txt", 1)] = Err ValueError.
Proof. apply (C137_underscore _ _ _ num0 show0 "a" "b" "2" 1); reflexivity. Qed.
