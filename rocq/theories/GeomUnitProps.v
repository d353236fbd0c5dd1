(** Properties C99 and C103: the unit of a STEP file and the export of its solids. *)
From Coq Require Import List Arith NArith ZArith Bool String Ascii Lia.
From Verif Require Import Num Vec FieldModel SolverModel GeomModel GeomProofs GeomProps GeomUnitModel.
Import ListNotations.
Open Scope string_scope.

(** ** C99.  A definition of the length unit, as STEP writes it: blanks anywhere, any case, optional prefix. *)
Definition blank (s : string) : Prop := all_chars is_space s = true.
Definition same_ci (p s : string) : Prop := smap upper s = p.
Definition dotted (p : string) : Prop := exists w, p = "." ++ w ++ "." /\ w <> "" /\ all_chars is_word w = true.
Definition unit_def (s : string) (p : option string) (rest : string) : Prop :=
  exists kw b1 b2 b3 b4 m b5, same_ci "SI_UNIT" kw /\ same_ci ".METRE." m /\ blank b1 /\ blank b2 /\ blank b3 /\ blank b4 /\ blank b5 /\
    (forall w, p = Some w -> dotted w) /\
    s = kw ++ b1 ++ "(" ++ b2 ++ match p with Some w => w | None => "" end ++ b3 ++ "," ++ b4 ++ m ++ b5 ++ ")" ++ rest.
(** The powers of ten of the SI prefixes (ISO 10303-41). *)
Definition si_exponent : list (string * Z) :=
  [(".EXA.", 18); (".PETA.", 15); (".TERA.", 12); (".GIGA.", 9); (".MEGA.", 6); (".KILO.", 3); (".HECTO.", 2); (".DECA.", 1);
   (".DECI.", -1); (".CENTI.", -2); (".MILLI.", -3); (".MICRO.", -6); (".NANO.", -9); (".PICO.", -12); (".FEMTO.", -15); (".ATTO.", -18)]%Z.

Lemma app_str_assoc (a b c : string) : (a ++ b) ++ c = a ++ b ++ c.
Proof. induction a; cbn; congruence. Qed.
Lemma lit_ci_app p s r : same_ci p s -> lit_ci p (s ++ r) = Some r.
Proof.
  unfold same_ci. revert s. induction p as [|a p IH]; intros s H; destruct s as [|b s]; cbn in H; try discriminate; [reflexivity|].
  injection H as <- H. cbn. rewrite Ascii.eqb_refl. apply IH. exact H.
Qed.
Lemma lit_ci_inv p : forall s r, lit_ci p s = Some r -> exists k, s = k ++ r /\ same_ci p k.
Proof.
  induction p as [|a p IH]; intros s r H; cbn in H.
  - injection H as <-. exists "". split; reflexivity.
  - destruct s as [|b s]; [discriminate|]. destruct (Ascii.eqb_spec a (upper b)) as [->|]; [|discriminate].
    destruct (IH s r H) as (k & -> & K). exists (String b k). split; [reflexivity|]. unfold same_ci in *. cbn. rewrite K. reflexivity.
Qed.
Lemma lit_inv p : forall s r, lit p s = Some r -> s = p ++ r.
Proof.
  induction p as [|a p IH]; intros s r H; cbn in H; [injection H as <-; reflexivity|]. destruct s as [|b s]; [discriminate|].
  destruct (Ascii.eqb_spec a b) as [->|]; [|discriminate]. cbn. f_equal. apply IH. exact H.
Qed.
Lemma span_inv P : forall s, s = fst (span P s) ++ snd (span P s) /\ all_chars P (fst (span P s)) = true.
Proof.
  induction s as [|c s [IH1 IH2]]; cbn; [split; reflexivity|]. destruct (P c) eqn:E; [|split; reflexivity].
  destruct (span P s) as [a b]. cbn in *. split; [congruence|]. rewrite E. exact IH2.
Qed.
Lemma skip_app b c r : blank b -> is_space c = false -> snd (span is_space (b ++ String c r)) = String c r.
Proof. intros H Hc. rewrite (span_all is_space b c r H Hc). reflexivity. Qed.

Lemma prefix_app w r : dotted w -> prefix_at (w ++ r) = Some (w, r).
Proof.
  intros (v & -> & V & A). unfold prefix_at. cbn [append]. cbn [lit]. cbn [Ascii.eqb Bool.eqb].
  assert (S1 : span1 is_word ((v ++ ".") ++ r) = Some (v, String "." r)).
  { unfold span1. rewrite app_str_assoc. cbn [append]. rewrite (span_all is_word v "." r A eq_refl). destruct v; [contradiction|reflexivity]. }
  rewrite S1. reflexivity.
Qed.
Lemma prefix_inv s w r : prefix_at s = Some (w, r) -> dotted w /\ s = w ++ r.
Proof.
  unfold prefix_at. destruct (lit "." s) as [s1|] eqn:E1; [|discriminate]. unfold span1.
  pose proof (span_inv is_word s1) as [I1 I2]. destruct (span is_word s1) as [v s2]. cbn [fst snd] in *. destruct v as [|a v]; [discriminate|].
  destruct (lit "." s2) as [s3|] eqn:E3; [|discriminate]. intros H. injection H as <- <-.
  apply lit_inv in E1. apply lit_inv in E3. subst s s2 s1. split.
  - exists (String a v). split; [reflexivity|]. split; [discriminate|exact I2].
  - cbn [append]. rewrite !app_str_assoc. reflexivity.
Qed.

Lemma upper_dot m r : same_ci ".METRE." m -> exists m', m ++ r = String "." (m' ++ r) /\ True.
Proof.
  intros H. destruct m as [|c m]; [discriminate|]. unfold same_ci in H. cbn [smap] in H. injection H as H _.
  exists m. split; [|exact I]. cbn. f_equal. unfold upper in H. destruct (ain 97 122 c) eqn:E; [|exact H]. exfalso.
  unfold ain in E. apply andb_true_iff in E as [E1 E2]. apply Nat.leb_le in E1. apply Nat.leb_le in E2.
  apply (f_equal nat_of_ascii) in H. rewrite nat_ascii_embedding in H by lia. cbn in H. lia.
Qed.
Lemma unit_at_complete s p rest : unit_def s p rest -> unit_at s = Some p.
Proof.
  intros (kw & b1 & b2 & b3 & b4 & m & b5 & K & M & B1 & B2 & B3 & B4 & B5 & D & ->). unfold unit_at.
  rewrite lit_ci_app by exact K. cbn [append]. rewrite skip_app by (exact B1 || reflexivity). cbn [lit Ascii.eqb Bool.eqb].
  assert (Tail : forall q, (let? s0 := lit "," (snd (span is_space (b3 ++ String "," (b4 ++ m ++ b5 ++ String ")" rest)))) in
     let? s1 := lit_ci ".METRE." (snd (span is_space s0)) in let? _ := lit ")" (snd (span is_space s1)) in Some q) = Some (q : option string)).
  { intros q. rewrite skip_app by (exact B3 || reflexivity). cbn [lit Ascii.eqb Bool.eqb].
    destruct (upper_dot m (b5 ++ String ")" rest) M) as (m' & E & _). rewrite E, skip_app by (exact B4 || reflexivity). rewrite <- E.
    rewrite lit_ci_app by exact M. rewrite skip_app by (exact B5 || reflexivity). reflexivity. }
  destruct p as [w|].
  - destruct (D w eq_refl) as (v & Ew & V & A).
    assert (S0 : snd (span is_space (b2 ++ w ++ b3 ++ String "," (b4 ++ m ++ b5 ++ String ")" rest))) = w ++ b3 ++ String "," (b4 ++ m ++ b5 ++ String ")" rest)).
    { rewrite Ew. cbn [append]. apply skip_app; [exact B2|reflexivity]. }
    rewrite S0. unfold opt_prefix. rewrite prefix_app by (exists v; auto). apply Tail.
  - cbn [append].
    assert (S0 : exists b', snd (span is_space (b2 ++ b3 ++ String "," (b4 ++ m ++ b5 ++ String ")" rest))) = String "," (b4 ++ m ++ b5 ++ String ")" rest) /\ b' = "").
    { exists "". split; [|reflexivity]. rewrite <- app_str_assoc. apply skip_app; [|reflexivity]. unfold blank. rewrite all_chars_app, B2, B3. reflexivity. }
    destruct S0 as (_ & S0 & _). rewrite S0. unfold opt_prefix. cbn [prefix_at lit Ascii.eqb Bool.eqb].
    specialize (Tail None). rewrite skip_app in Tail by (exact B3 || reflexivity).
    change (snd (span is_space (String "," (b4 ++ m ++ b5 ++ String ")" rest)))) with (String "," (b4 ++ m ++ b5 ++ String ")" rest)). exact Tail.
Qed.
Lemma unit_at_sound s p : unit_at s = Some p -> exists rest, unit_def s p rest.
Proof.
  unfold unit_at. destruct (lit_ci "SI_UNIT" s) as [s1|] eqn:E1; [|discriminate].
  destruct (span_inv is_space s1) as [I1 J1]. destruct (lit "(" (snd (span is_space s1))) as [s2|] eqn:E2; [|discriminate].
  destruct (span_inv is_space s2) as [I2 J2]. destruct (opt_prefix (snd (span is_space s2))) as [q s3] eqn:E3.
  destruct (span_inv is_space s3) as [I3 J3]. destruct (lit "," (snd (span is_space s3))) as [s4|] eqn:E4; [|discriminate].
  destruct (span_inv is_space s4) as [I4 J4]. destruct (lit_ci ".METRE." (snd (span is_space s4))) as [s5|] eqn:E5; [|discriminate].
  destruct (span_inv is_space s5) as [I5 J5]. destruct (lit ")" (snd (span is_space s5))) as [s6|] eqn:E6; [|discriminate].
  intros H. injection H as <-. exists s6. apply lit_ci_inv in E1, E5. destruct E1 as (kw & -> & K). destruct E5 as (m & E5 & M).
  apply lit_inv in E2, E4, E6.
  assert (P : (forall w, q = Some w -> dotted w) /\ snd (span is_space s2) = match q with Some w => w | None => "" end ++ s3).
  { unfold opt_prefix in E3. destruct (prefix_at (snd (span is_space s2))) as [[w r]|] eqn:Q.
    - injection E3 as <- <-. apply prefix_inv in Q. destruct Q as [D Q]. split; [intros w' X; injection X as <-; exact D|exact Q].
    - injection E3 as <- <-. split; [discriminate|reflexivity]. }
  destruct P as [D P].
  exists kw, (fst (span is_space s1)), (fst (span is_space s2)), (fst (span is_space s3)), (fst (span is_space s4)), m, (fst (span is_space s5)).
  repeat (split; [assumption|]). f_equal. rewrite I1 at 1. f_equal. rewrite E2. cbn [append]. f_equal. rewrite I2 at 1. f_equal. rewrite P. f_equal.
  rewrite I3 at 1. f_equal. rewrite E4. cbn [append]. f_equal. rewrite I4 at 1. f_equal. rewrite E5. f_equal. rewrite I5 at 1. f_equal. exact E6.
Qed.
Lemma search_at {A} (m : string -> option A) s x : forall a, m s = Some x -> (forall c b t, a = b ++ String c t -> m (String c t ++ s) = None) ->
  search m (a ++ s) = Some x.
Proof.
  induction a as [|c a IH]; intros E H.
  - cbn. destruct s; cbn; rewrite E; reflexivity.
  - cbn [append search]. rewrite (H c "" a eq_refl : m (String c (a ++ s)) = None). apply IH; [exact E|]. intros c' b t ->. apply (H c' (String c b) t). reflexivity.
Qed.
Lemma search_none {A} (m : string -> option A) : forall s, (forall a t, s = a ++ t -> m t = None) -> search m s = None.
Proof.
  induction s as [|c s IH]; intros H; cbn [search]; rewrite (H "" _ eq_refl); [reflexivity|]. apply IH. intros a t ->. exact (H (String c a) t eq_refl).
Qed.
Lemma substring_app : forall n a b, String.length a <= n -> substring 0 n (a ++ b) = a ++ substring 0 (n - String.length a) b.
Proof.
  induction n as [|n IH]; intros a b H; destruct a as [|c a]; cbn in *; try lia; try reflexivity. f_equal. apply IH. lia.
Qed.
Lemma substring_split : forall n s, exists r, s = substring 0 n s ++ r.
Proof.
  induction n as [|n IH]; intros s; destruct s as [|c s]; cbn; try (eexists; reflexivity). destruct (IH s) as [r E]. exists r. congruence.
Qed.
Lemma unit_def_more s p rest x : unit_def s p rest -> unit_def (s ++ x) p (rest ++ x).
Proof.
  intros (kw & b1 & b2 & b3 & b4 & m & b5 & K & M & B1 & B2 & B3 & B4 & B5 & D & ->).
  exists kw, b1, b2, b3, b4, m, b5. repeat (split; [assumption|]). rewrite !app_str_assoc. cbn [append]. rewrite ?app_str_assoc. cbn [append]. rewrite ?app_str_assoc. reflexivity.
Qed.
Lemma unit_def_rest s p rest r' : unit_def s p rest -> exists d, s = d ++ rest /\ unit_def (d ++ r') p r'.
Proof.
  intros (kw & b1 & b2 & b3 & b4 & m & b5 & K & M & B1 & B2 & B3 & B4 & B5 & D & ->).
  exists (kw ++ b1 ++ "(" ++ b2 ++ match p with Some w => w | None => "" end ++ b3 ++ "," ++ b4 ++ m ++ b5 ++ ")"). split.
  - rewrite !app_str_assoc. cbn [append]. rewrite ?app_str_assoc. cbn [append]. rewrite ?app_str_assoc. reflexivity.
  - exists kw, b1, b2, b3, b4, m, b5. repeat (split; [assumption|]). rewrite !app_str_assoc. cbn [append]. rewrite ?app_str_assoc. cbn [append]. rewrite ?app_str_assoc. reflexivity.
Qed.

(** The definition at position [a] of the text is the first one. *)
Definition first_def (txt a : string) (p : option string) (rest : string) : Prop :=
  (exists s, txt = a ++ s /\ unit_def s p rest) /\
  forall b s q r, txt = b ++ s -> unit_def s q r -> String.length a <= String.length b.

(** C99 (part): the first definition of a metre in the file, if it ends within the first 10000 characters and its
    prefix is one of the four known ones or missing, gives its power of ten.  Missing: other prefixes, long headers,
    the prefix written "$". *)
Lemma str_len_app (a b : string) : String.length (a ++ b) = String.length a + String.length b.
Proof. induction a; cbn; auto. Qed.
Lemma header_big : N.of_nat header_len = 10000%N. Proof. vm_compute. reflexivity. Qed.
Theorem C99_prefix_partial : forall txt a p rest, first_def txt a p rest -> (N.of_nat (String.length txt) - N.of_nat (String.length rest) <= 10000)%N ->
  match p with
  | None => unit_scale (Some txt) = 0%Z
  | Some w => forall e, In (smap upper w, e) si_exponent -> In (smap upper w) [".MILLI."; ".CENTI."; ".DECI."; ".KILO."] -> unit_scale (Some txt) = e
  end.
Proof.
  intros txt a p rest ((s & Et & U) & F) Hn.
  assert (H : String.length txt - String.length rest <= header_len) by (revert Hn; rewrite <- header_big; generalize header_len; intros; lia). clear Hn. unfold unit_scale.
  assert (M : search unit_at (substring 0 header_len txt) = Some p).
  { generalize dependent header_len. intros n H.
    destruct (unit_def_rest s p rest (substring 0 (n - (String.length txt - String.length rest)) rest) U) as (d & Ed & U2). rewrite Ed in Et.
    assert (L : String.length (a ++ d) = String.length txt - String.length rest) by (rewrite Et, !str_len_app; lia).
    assert (Es : substring 0 n txt = a ++ d ++ substring 0 (n - (String.length txt - String.length rest)) rest).
    { rewrite Et at 1. rewrite <- (app_str_assoc a d rest), substring_app by lia. rewrite L, app_str_assoc. reflexivity. }
    rewrite Es. apply search_at; [exact (unit_at_complete _ _ _ U2)|]. intros c b t Ea.
    destruct (unit_at _) as [q|] eqn:Q; [|reflexivity]. exfalso. apply unit_at_sound in Q. destruct Q as [r Q].
    destruct (substring_split n txt) as [x Ex].
    assert (Et2 : txt = b ++ (String c t ++ d ++ substring 0 (n - (String.length txt - String.length rest)) rest) ++ x).
    { rewrite Ex at 1. rewrite Es, Ea. cbn [append]. rewrite !app_str_assoc. cbn [append]. rewrite ?app_str_assoc. reflexivity. }
    pose proof (F _ _ _ _ Et2 (unit_def_more _ _ _ x Q)) as Le. rewrite Ea, str_len_app in Le. cbn in Le. lia. }
  rewrite M. destruct p as [w|]; [|reflexivity]. intros e He Hw. cbn in Hw.
  destruct Hw as [Hw|[Hw|[Hw|[Hw|[]]]]]; rewrite <- Hw in He |- *; cbn in He;
    repeat (destruct He as [He|He]; [injection He; intros; try discriminate; subst; reflexivity|]); contradiction.
Qed.
Print Assumptions C99_prefix_partial.

(** Without a definition (or without a file) the file is taken to be in metres. *)
Theorem C99_none : forall txt, (forall a s p r, txt = a ++ s -> ~ unit_def s p r) -> unit_scale (Some txt) = 0%Z /\ unit_scale None = 0%Z.
Proof.
  intros txt H. split; [|reflexivity]. unfold unit_scale. rewrite search_none; [reflexivity|]. intros a t E.
  destruct (unit_at t) as [q|] eqn:Q; [|reflexivity]. exfalso. apply unit_at_sound in Q. destruct Q as [r Q].
  destruct (substring_split header_len txt) as [x Ex]. rewrite E, app_str_assoc in Ex. exact (H _ _ _ _ Ex (unit_def_more _ _ _ x Q)).
Qed.
Print Assumptions C99_none.

Definition blanks (n : nat) : string := Nat.iter n (String " ") "".
(** The remaining cases give a wrong unit: micrometres, a definition after the first 10000 characters, and metres
    written "$" ahead of another definition. *)
Theorem C99_refuted :
  (exists txt rest, first_def txt "" (Some ".MICRO.") rest /\ In (".MICRO.", -6)%Z si_exponent /\ unit_scale (Some txt) = 0%Z) /\
  (exists txt a rest, first_def txt a (Some ".MILLI.") rest /\ unit_scale (Some txt) = 0%Z) /\
  (exists txt rest, txt = "SI_UNIT($,.METRE.)" ++ rest /\ unit_scale (Some txt) = (-3)%Z).
Proof.
  assert (U : forall w, dotted w -> unit_def ("SI_UNIT(" ++ w ++ ",.METRE.)") (Some w) "").
  { intros w W. exists "SI_UNIT", "", "", "", "", ".METRE.", "". repeat (split; [reflexivity|]). split; [intros ? X; injection X as <-; exact W|].
    cbn. repeat f_equal. }
  split; [|split].
  - exists "SI_UNIT(.MICRO.,.METRE.)", "". split; [|split; [cbn; tauto|vm_compute; reflexivity]]. split; [|intros; apply Nat.le_0_l].
    exists "SI_UNIT(.MICRO.,.METRE.)". split; [reflexivity|]. apply (U ".MICRO."). exists "MICRO". repeat split; discriminate.
  - exists (blanks header_len ++ "SI_UNIT(.MILLI.,.METRE.)"), (blanks header_len), "". split; [split|].
    + exists "SI_UNIT(.MILLI.,.METRE.)". split; [reflexivity|]. apply (U ".MILLI."). exists "MILLI". repeat split; discriminate.
    + generalize header_len. intros n b s p r E (kw & b1 & b2 & b3 & b4 & m & b5 & K & _ & _ & _ & _ & _ & _ & _ & ->). revert b E.
      induction n as [|n IH]; intros b E; [cbn; lia|]. destruct b as [|c b].
      * destruct kw as [|k kw]; [discriminate K|]. injection E as <- _. discriminate K.
      * injection E as _ E. cbn. apply le_n_S, IH. exact E.
    + vm_compute. reflexivity.
  - exists "SI_UNIT($,.METRE.) SI_UNIT(.MILLI.,.METRE.)", " SI_UNIT(.MILLI.,.METRE.)". split; reflexivity.
Qed.
Print Assumptions C99_refuted.

Example C99_case : let txt := "#10=( NAMED_UNIT(*) Si_Unit ( .centi. , .METRE. ) );" in
  exists a rest, first_def txt a (Some ".centi.") rest /\ (N.of_nat (String.length txt) <= 10000)%N /\ unit_scale (Some txt) = (-2)%Z.
Proof.
  cbn zeta. exists "#10=( NAMED_UNIT(*) ", " );". split; [split|split; [vm_compute; discriminate|vm_compute; reflexivity]].
  - exists "Si_Unit ( .centi. , .METRE. ) );". split; [reflexivity|]. exists "Si_Unit", " ", " ", " ", " ", ".METRE.", " ".
    repeat (split; [reflexivity|]). split; [|reflexivity]. intros w X. injection X as <-. exists "centi". repeat split; discriminate.
  - intros b s p r E U. apply unit_at_complete in U.
    do 20 (destruct b as [|? b]; [cbn in E; subst s; discriminate U|injection E as _ E]). cbn. lia.
Qed.

(** ** C103.  The exported files. *)
Lemma export_spec {S} (sd : list (string * string)) : forall (objs : list S) i out,
  export sd i objs out = ((out ++ combine (map snd (skipn i sd)) objs)%list, if (List.length objs <=? List.length sd - i)%nat then None else Some IndexError).
Proof.
  induction objs as [|o objs IH]; intros i out; cbn [export].
  - destruct (map snd (skipn i sd)); cbn; rewrite app_nil_r; reflexivity.
  - destruct (nth_error sd i) as [[k p]|] eqn:E.
    + pose proof (nth_error_Some sd i) as L. rewrite E in L. assert (i < List.length sd) by (apply L; discriminate).
      rewrite IH. replace (skipn i sd) with ((k, p) :: skipn (i + 1) sd).
      * cbn. rewrite <- app_assoc. cbn. f_equal. replace (List.length sd - i) with (1 + (List.length sd - (i + 1)))%nat by lia. reflexivity.
      * clear -E. revert i E. induction sd as [|x sd IH]; intros [|i] E; cbn in E; try discriminate; [injection E as ->; reflexivity|]. cbn. apply IH. exact E.
    + apply nth_error_None in E. rewrite skipn_all2 by exact E. cbn. rewrite app_nil_r. replace (List.length sd - i) with 0 by lia. reflexivity.
Qed.
Lemma combine_nth_error {A B} : forall (l : list A) (m : list B) i, nth_error (combine l m) i =
  match nth_error l i, nth_error m i with Some a, Some b => Some (a, b) | _, _ => None end.
Proof.
  induction l as [|a l IH]; intros m i; destruct m as [|b m]; destruct i as [|i]; cbn; try reflexivity; [destruct (nth_error l i); reflexivity|apply IH].
Qed.

(** C103: with at most as many objects as declared solids, one file per object, none overwritten: the i-th object in
    metres goes to the path of the i-th solid.  With more objects the call fails after that many files. *)
Theorem C103_files : forall (S : Type) (scaled : Z -> S -> S) file lines path objs sd md, extract_names lines = Ok (sd, md) ->
  exists solids out, extract_solids path lines = Ok solids /\ List.length solids = List.length sd /\
    generate scaled file lines path objs = (out, if (List.length objs <=? List.length sd)%nat then Ok solids else Err IndexError) /\
    NoDup (map fst out) /\ List.length out = Nat.min (List.length objs) (List.length sd) /\
    (forall i o k p, nth_error objs i = Some o -> nth_error solids i = Some (k, p) ->
      nth_error out i = Some (p, if (unit_scale file =? 0)%Z then o else scaled (unit_scale file) o)).
Proof.
  intros S scaled file lines path objs sd md E. destruct (C68_keys_partial lines sd md path E) as (m & s & k & _ & A & _ & K & L & _ & ND & _).
  rewrite <- K, map_length in L. unfold generate. rewrite A, export_spec, Nat.sub_0_r. cbn [app skipn].
  set (objs' := if (unit_scale file =? 0)%Z then objs else map (scaled (unit_scale file)) objs).
  assert (L' : List.length objs' = List.length objs) by (unfold objs'; destruct (_ =? 0)%Z; [|rewrite map_length]; reflexivity).
  exists s, (combine (map snd s) objs'). split; [reflexivity|]. split; [exact L|]. split; [|split; [|split]].
  - rewrite L', L. destruct (_ <=? _)%nat; reflexivity.
  - clear -ND. generalize objs'. clear objs'. generalize dependent (map snd s). induction l as [|p l IH]; intros ND o; [constructor|]. inversion ND as [|? ? N1 N2]; subst.
    destruct o as [|o os]; [constructor|]. cbn. constructor; [|apply IH; exact N2]. intros H. apply N1. apply in_map_iff in H. destruct H as ([a b] & <- & H).
    apply in_combine_l in H. exact H.
  - rewrite combine_length, map_length, L', L. apply Nat.min_comm.
  - intros i o k' p Ho Hs. rewrite combine_nth_error, nth_error_map, Hs. cbn. unfold objs'. destruct (_ =? 0)%Z; [rewrite Ho|rewrite nth_error_map, Ho]; reflexivity.
Qed.
Print Assumptions C103_files.

(** The number of objects is not checked against the declarations: two solids in one shape representation have a
    single name, and the second one is lost with an IndexError; a solid without an object has a path but no file. *)
Definition two_in_one : list string := ["#10=ADVANCED_BREP_SHAPE_REPRESENTATION('duo',(#37,#39),#5);"].
Definition two_alone : list string := ["#10=ADVANCED_BREP_SHAPE_REPRESENTATION('uno',(#37),#5);"; "#11=ADVANCED_BREP_SHAPE_REPRESENTATION('due',(#39),#5);"].
Theorem C103_refuted :
  (exists lines, generate (S := nat) (fun _ o => o) None lines None [1; 2] = ([("000_duo_None.stl", 1)], Err IndexError)) /\
  (exists lines sd, generate (S := nat) (fun _ o => o) None lines None [1] = ([("000_uno_None.stl", 1)], Ok sd) /\ List.length sd = 2).
Proof. split; [exists two_in_one; vm_compute; reflexivity|exists two_alone; eexists; split; vm_compute; reflexivity]. Qed.
Print Assumptions C103_refuted.
Example C103_case : generate (S := Z) (fun e o => (o * e)%Z) (Some "SI_UNIT(.MILLI.,.METRE.)") two_alone (Some "out") [7%Z; 8%Z] =
  ([("out/000_uno_None.stl", (-21)%Z); ("out/001_due_None.stl", (-24)%Z)], Ok [("000_uno", "out/000_uno_None.stl"); ("001_due", "out/001_due_None.stl")]).
Proof. vm_compute. reflexivity. Qed.
