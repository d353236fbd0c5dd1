(** Lemmas on TextModel: a saved table is read back, column by column. *)
From Coq Require Import List Arith Bool String Ascii Lia.
From Verif Require Import Num Vec FieldModel SolverModel GeomModel TextModel.
Import ListNotations.
Open Scope string_scope.

Definition chars := list_ascii_of_string.
Definition none_of (P : ascii -> bool) (s : string) : Prop := Forall (fun c => P c = false) (chars s).

(** a word: not empty, no white space, no comment sign *)
Definition token (s : string) : Prop := s <> "" /\ none_of is_space s /\ none_of is_hash s.
Record FmtLaws {T} (F : Fmt T) : Prop := {
  pr_fr : forall x, pr F (fr F x) = Some x; pc_fc : forall z, pc F (fc F z) = Some z; pr_fc : forall z, pr F (fc F z) = None;
  tok_fr : forall x, token (fr F x); tok_fc : forall z, token (fc F z) }.

Lemma chars_app : forall a b, chars (a ++ b) = (chars a ++ chars b)%list.
Proof. induction a; intros; simpl; [reflexivity|]. unfold chars in *. rewrite IHa. reflexivity. Qed.
Lemma none_app : forall P a b, none_of P a -> none_of P b -> none_of P (a ++ b).
Proof. intros P a b A B. unfold none_of. rewrite chars_app. apply Forall_app. auto. Qed.
Lemma app_assoc_s : forall a b c : string, (a ++ b) ++ c = a ++ b ++ c.
Proof. induction a; intros; simpl; [reflexivity|]. rewrite IHa. reflexivity. Qed.
Lemma app_nil_s : forall a : string, a ++ "" = a.
Proof. induction a; simpl; congruence. Qed.
Lemma splitp_cut : forall P a c b, none_of P a -> P c = true -> splitp P (a ++ String c b) = a :: splitp P b.
Proof.
  intros P a c b. induction a as [|x a IH]; intros H Hc; simpl; [rewrite Hc; reflexivity|].
  inversion H; subst. rewrite H2, IH; auto.
Qed.
Lemma splitp_whole : forall P a, none_of P a -> splitp P a = [a].
Proof. intros P a. induction a as [|x a IH]; intros H; simpl; [reflexivity|]. inversion H; subst. rewrite H2, IH; auto. Qed.
Lemma sreplace_app : forall c r a b, sreplace c r (a ++ b) = sreplace c r a ++ sreplace c r b.
Proof. intros c r. induction a as [|x a IH]; intros b; simpl; [reflexivity|]. rewrite IH, app_assoc_s. reflexivity. Qed.
Lemma sreplace_none : forall c r a, none_of (fun x => Ascii.eqb x c) a -> sreplace c r a = a.
Proof. intros c r. induction a as [|x a IH]; intros H; simpl; [reflexivity|]. inversion H; subst. rewrite H2, IH; auto. Qed.
Lemma none_le : forall (P Q : ascii -> bool) a, (forall c, Q c = true -> P c = true) -> none_of P a -> none_of Q a.
Proof. intros P Q a H. apply Forall_impl. intros c Hc. destruct (Q c) eqn:E; [|reflexivity]. rewrite (H c E) in Hc. discriminate. Qed.
Lemma nl_space : forall c, is_nl c = true -> is_space c = true.
Proof. intros c H. apply Ascii.eqb_eq in H. subst c. reflexivity. Qed.
Lemma span_whole : forall P s, none_of (fun c => negb (P c)) s -> span P s = (s, "").
Proof. intros P. induction s as [|c s IH]; intros H; simpl; [reflexivity|]. inversion H; subst. apply negb_false_iff in H2. rewrite H2, IH; auto. Qed.

(** ** words *)
Definition lead (b : bool) : string := if b then " " else "".
Lemma splitp_space : forall s, splitp is_space (String " " s) = "" :: splitp is_space s.
Proof. reflexivity. Qed.
Lemma words_two : forall e a b, token a -> token b -> words ((lead e ++ a) ++ " " ++ lead e ++ b) = [a; b].
Proof.
  intros e a b (A & SA & _) (B & SB & _). unfold words.
  assert (NE : forall s, s <> "" -> negb (String.eqb s "") = true) by (intros s H; apply negb_true_iff, String.eqb_neq; exact H).
  destruct e; unfold lead; cbn [append].
  - rewrite splitp_space, splitp_cut by (auto; reflexivity). rewrite splitp_space, splitp_whole by exact SB. cbn [filter]. cbn [String.eqb negb]. rewrite (NE a A), (NE b B). reflexivity.
  - rewrite splitp_cut by (auto; reflexivity). rewrite splitp_whole by exact SB. cbn [filter]. rewrite (NE a A), (NE b B). reflexivity.
Qed.

(** ** lines *)
Lemma none_token_hash : forall e a b, token a -> token b -> none_of is_hash ((lead e ++ a) ++ " " ++ lead e ++ b).
Proof.
  intros e a b (_ & _ & A) (_ & _ & B). assert (L : none_of is_hash (lead e)) by (destruct e; repeat constructor).
  apply none_app; [apply none_app; auto|]. apply none_app; [repeat constructor|]. apply none_app; auto.
Qed.
Lemma none_token_nl : forall e a b, token a -> token b -> none_of is_nl ((lead e ++ a) ++ " " ++ lead e ++ b).
Proof.
  intros e a b (_ & A & _) (_ & B & _). assert (L : none_of is_nl (lead e)) by (destruct e; repeat constructor).
  apply (none_le _ _ _ nl_space) in A, B.
  apply none_app; [apply none_app; auto|]. apply none_app; [repeat constructor|]. apply none_app; auto.
Qed.
Definition toks (e : bool) (l : list (string * string)) : list (string * string) := map (fun ab => (lead e ++ fst ab, lead e ++ snd ab)) l.
Lemma rows_lines : forall e l, (forall a b, In (a, b) l -> token a /\ token b) ->
  splitp is_nl (rows_text (toks e l)) = (map (fun ab => ((lead e ++ fst ab) ++ " " ++ lead e ++ snd ab)%string) l ++ [""])%list.
Proof.
  intros e l. induction l as [|(a, b) l IH]; intros H; [reflexivity|]. cbn [toks map rows_text fst snd].
  destruct (H a b (or_introl eq_refl)) as [Ta Tb].
  replace ((lead e ++ a) ++ " " ++ (lead e ++ b) ++ nls ++ rows_text (map (fun ab => (lead e ++ fst ab, lead e ++ snd ab)) l))
    with (((lead e ++ a) ++ " " ++ lead e ++ b) ++ String nl (rows_text (toks e l))) by (rewrite !app_assoc_s; reflexivity).
  rewrite splitp_cut by (auto using none_token_nl; reflexivity). rewrite IH by (intros; apply H; right; assumption). reflexivity.
Qed.
Lemma rows_words : forall e l, (forall a b, In (a, b) l -> token a /\ token b) ->
  filter (fun w => negb (List.length w =? 0)%nat) (map (fun l => words (fst (span (fun c => negb (is_hash c)) l)))
    (map (fun ab => ((lead e ++ fst ab) ++ " " ++ lead e ++ snd ab)%string) l ++ [""]))%list = map (fun ab => [fst ab; snd ab]) l.
Proof.
  intros e l. induction l as [|(a, b) l IH]; intros H; [reflexivity|]. cbn [map List.app fst snd].
  destruct (H a b (or_introl eq_refl)) as [Ta Tb].
  rewrite span_whole by (eapply none_le; [|apply none_token_hash; eassumption]; intros c; rewrite negb_involutive; auto). cbn [fst].
  rewrite words_two by assumption. cbn [filter List.length Nat.eqb negb]. rewrite IH by (intros; apply H; right; assumption). reflexivity.
Qed.
Definition line1 (xn yn : string) : string := "# " ++ "   " ++ xn ++ spaces 20 ++ yn.
Lemma file_lines : forall xn yn rest, none_of is_nl xn -> none_of is_nl yn ->
  splitp is_nl (header_text (two_names xn yn) ++ rest) = line1 xn yn :: ("# " ++ dashes 48) :: splitp is_nl rest.
Proof.
  intros xn yn rest X Y. unfold header_text, two_names.
  rewrite !sreplace_app. rewrite (sreplace_none nl _ xn X), (sreplace_none nl _ yn Y).
  rewrite (sreplace_none nl _ "   ") by repeat constructor. rewrite (sreplace_none nl _ (spaces 20)) by repeat constructor.
  rewrite (sreplace_none nl _ (dashes 48)) by repeat constructor.
  change (sreplace nl (nls ++ "# ") nls) with (String nl "# ").
  replace (("# " ++ ("   " ++ xn ++ spaces 20 ++ yn ++ String nl "# " ++ dashes 48) ++ nls) ++ rest)
    with (line1 xn yn ++ String nl (("# " ++ dashes 48) ++ String nl rest)).
  2:{ unfold line1. rewrite !app_assoc_s. reflexivity. }
  rewrite splitp_cut; [|unfold line1; repeat apply none_app; auto; repeat constructor|reflexivity].
  rewrite splitp_cut; [reflexivity|repeat constructor|reflexivity].
Qed.
Lemma saved_table : forall xn yn e l, none_of is_nl xn -> none_of is_nl yn -> (forall a b, In (a, b) l -> token a /\ token b) ->
  table (header_text (two_names xn yn) ++ rows_text (toks e l)) = map (fun ab => [fst ab; snd ab]) l.
Proof. intros xn yn e l X Y H. unfold table. rewrite file_lines by assumption. cbn [skipn]. rewrite rows_lines by exact H. apply rows_words. exact H. Qed.

(** ** parsing *)
Lemma parse_ok : forall A (p : string -> option A) (f : A -> string), (forall v, p (f v) = Some v) -> forall l : list (A * A),
  parse_rows p 2 (map (fun ab => [f (fst ab); f (snd ab)]) l) = Ok (map (fun ab => [fst ab; snd ab]) l).
Proof. intros A p f H. induction l as [|(a, b) l IH]; [reflexivity|]. cbn [map parse_rows List.length Nat.eqb parse_row fst snd]. rewrite !H. cbn [bind]. rewrite IH. reflexivity. Qed.
Lemma table_ok : forall A (p : string -> option A) (f : A -> string), (forall v, p (f v) = Some v) -> forall l : list (A * A), l <> [] ->
  parse_table p (map (fun ab => [f (fst ab); f (snd ab)]) l) = Ok (map (fun ab => [fst ab; snd ab]) l).
Proof. intros A p f H [|ab l] N; [contradiction|]. unfold parse_table. cbn [map List.length]. apply (parse_ok A p f H (ab :: l)). Qed.
Lemma table_no : forall A B (p : string -> option A) (f : B -> string), (forall v, p (f v) = None) -> forall l : list (B * B), l <> [] ->
  exists e, parse_table p (map (fun ab => [f (fst ab); f (snd ab)]) l) = Err e.
Proof. intros A B p f H [|ab l] N; [contradiction|]. unfold parse_table. cbn [map List.length parse_rows Nat.eqb parse_row]. rewrite H. cbn [bind]. eauto. Qed.

(** ** names *)
Fixpoint squeezed (s : string) : string :=
  match s with EmptyString => "" | String c t => if (Ascii.eqb c " " || Ascii.eqb c "#")%bool then squeezed t else String c (squeezed t) end.
Lemma squeezed_app : forall a b, squeezed (a ++ b) = squeezed a ++ squeezed b.
Proof. induction a as [|c a IH]; intros b; simpl; [reflexivity|]. destruct (_ || _)%bool; rewrite IH; reflexivity. Qed.
Lemma two_replaces : forall s, sreplace "#" "" (sreplace " " "" s) = squeezed s.
Proof.
  induction s as [|c s IH]; [reflexivity|]. cbn [sreplace squeezed]. destruct (Ascii.eqb c " ") eqn:E; cbn [orb]; [exact IH|].
  cbn [append sreplace]. destruct (Ascii.eqb c "#"); cbn [append]; rewrite IH; reflexivity.
Qed.
Lemma squeezed_none : forall P s, none_of P s -> none_of P (squeezed s).
Proof. intros P. induction s as [|c s IH]; intros H; [constructor|]. inversion H; subst. cbn [squeezed]. destruct (_ || _)%bool; [auto|]. constructor; auto. apply IH. exact H3. Qed.
Lemma bracket_sym : forall c, Ascii.eqb "]" c = Ascii.eqb c "]".
Proof. intros. apply Ascii.eqb_sym. Qed.
Lemma names_split : forall xn yn rest, none_of is_nl xn -> none_of is_nl yn ->
  names_of (header_text (two_names xn yn) ++ rest) = splitp (Ascii.eqb "]") (squeezed xn ++ squeezed yn).
Proof.
  intros xn yn rest X Y. unfold names_of, first_line. rewrite file_lines by assumption. rewrite two_replaces. unfold line1.
  rewrite !squeezed_app. change (squeezed "# ") with "". change (squeezed "   ") with "". change (squeezed (spaces 20)) with "". cbn [append].
  rewrite sreplace_none; [reflexivity|]. apply none_app; apply squeezed_none; assumption.
Qed.
Lemma names_brackets : forall u w rest, none_of is_nl u -> none_of is_nl w -> none_of (Ascii.eqb "]") u -> none_of (Ascii.eqb "]") w ->
  names_of (header_text (two_names (u ++ "]") (w ++ "]")) ++ rest) = [squeezed u; squeezed w; ""].
Proof.
  intros u w rest U W BU BW. rewrite names_split by (apply none_app; auto; repeat constructor). rewrite !squeezed_app. change (squeezed "]") with "]".
  rewrite app_assoc_s. cbn [append]. rewrite splitp_cut; [|apply squeezed_none; exact BU|reflexivity].
  rewrite splitp_cut; [reflexivity|apply squeezed_none; exact BW|reflexivity].
Qed.

(** ** the dictionary *)
Section Dict.
Context {T : Type} {NT : Num T}.
Lemma columns : forall A (d : A) (x y : list A), List.length x = List.length y ->
  column d (map (fun ab => [fst ab; snd ab]) (combine x y)) 0 = x /\ column d (map (fun ab => [fst ab; snd ab]) (combine x y)) 1 = y.
Proof.
  intros A d. induction x as [|a x IH]; intros [|b y] H; try discriminate; [split; reflexivity|]. injection H as H. destruct (IH y H) as [P Q].
  unfold column in *. cbn [combine map nth fst snd]. rewrite P, Q. auto.
Qed.
Lemma to_dict_2 : forall A (d : A) (wrap : list A -> Col T) txt rows r r2 rs, rows = r :: r2 :: rs -> List.length r = 2 ->
  to_dict d wrap txt rows = Ok (match with_names d rows wrap (names_of txt) 0 2 [] with Some x => x | None => with_numbers d rows wrap 0 2 [] end).
Proof. intros A d wrap txt rows r r2 rs -> H. unfold to_dict. rewrite H. reflexivity. Qed.
Lemma dict_two : forall A (d : A) (wrap : list A -> Col T) txt (x y : list A) u w r, List.length x = List.length y -> 2 <= List.length x ->
  names_of txt = u :: w :: r -> u <> w ->
  to_dict d wrap txt (map (fun ab => [fst ab; snd ab]) (combine x y)) = Ok [(KS (u ++ "]"), wrap x); (KS (w ++ "]"), wrap y)].
Proof.
  intros A d wrap txt x y u w r L N E D. destruct (columns A d x y L) as [P Q].
  destruct x as [|a [|a' x]]; cbn [List.length] in N; try lia. destruct y as [|b [|b' y]]; try discriminate.
  set (rows := map _ _) in *. assert (R : exists r1 r2 rs, rows = [fst (a, b); snd (a, b)] :: r2 :: rs /\ r1 = r2) by (unfold rows; cbn [combine map]; eauto).
  destruct R as (r1 & r2 & rs & R & _). rewrite (to_dict_2 A d wrap txt rows _ _ _ R eq_refl), E. cbn [with_names dset]. rewrite P, Q.
  replace (tkey_eqb (KS (w ++ "]")) (KS (u ++ "]"))) with false; [reflexivity|]. symmetry. cbn [tkey_eqb]. apply String.eqb_neq. intros X. apply D.
  clear - X. revert w X. induction u as [|c u IH]; intros [|c' w] X; simpl in X; [reflexivity|exfalso|exfalso|].
  - injection X as _ X. destruct w; discriminate.
  - injection X as _ X. destruct u; discriminate.
  - assert (c' = c) by (apply (f_equal (String.get 0)) in X; cbn in X; congruence). subst c'. f_equal. apply IH. apply (f_equal (fun s => match s with String _ t => t | _ => "" end)) in X. exact X.
Qed.
Lemma dict_one : forall A (d : A) (wrap : list A -> Col T) txt (x y : list A) u r, List.length x = List.length y -> 2 <= List.length x ->
  names_of txt = u :: u :: r ->
  to_dict d wrap txt (map (fun ab => [fst ab; snd ab]) (combine x y)) = Ok [(KS (u ++ "]"), wrap y)].
Proof.
  intros A d wrap txt x y u r L N E. destruct (columns A d x y L) as [P Q].
  destruct x as [|a [|a' x]]; cbn [List.length] in N; try lia. destruct y as [|b [|b' y]]; try discriminate.
  set (rows := map _ _) in *. assert (R : exists r2 rs, rows = [fst (a, b); snd (a, b)] :: r2 :: rs) by (unfold rows; cbn [combine map]; eauto).
  destruct R as (r2 & rs & R). rewrite (to_dict_2 A d wrap txt rows _ _ _ R eq_refl), E. cbn [with_names dset]. rewrite Q.
  cbn [tkey_eqb]. rewrite String.eqb_refl. reflexivity.
Qed.
Lemma dict_short : forall A (d : A) (wrap : list A -> Col T) txt (x y : list A), List.length x < 2 ->
  to_dict d wrap txt (map (fun ab => [fst ab; snd ab]) (combine x y)) = Err IndexError.
Proof. intros A d wrap txt [|a [|a' x]] [|b y] L; cbn [List.length] in L; try lia; reflexivity. Qed.

(** ** the whole file *)
Definition is_cx (c : Col T) : bool := match c with Rl _ => false | Cx _ => true end.
(** a column as it is read back beside the column o *)
Definition beside (c o : Col T) : Col T := if (is_cx c || is_cx o)%bool then Cx (tocx c) else c.
Context (F : Fmt T) (L : FmtLaws F).

Lemma combine_map2 : forall A B (f : A -> B) x y, combine (map f x) (map f y) = map (fun ab => (f (fst ab), f (snd ab))) (combine x y).
Proof. intros A B f. induction x as [|a x IH]; intros [|b y]; try reflexivity. cbn [map combine fst snd]. rewrite IH. reflexivity. Qed.
Lemma combine_nonempty : forall A (x y : list A), List.length x = List.length y -> x <> [] -> combine x y <> [].
Proof. intros A [|a x] [|b y] H N; try contradiction; discriminate. Qed.
Lemma tocx_len : forall c : Col T, List.length (tocx c) = collen c.
Proof. intros []; cbn; [apply map_length|reflexivity]. Qed.

(** reading a saved file is building the dictionary from the two columns as they were written *)
Lemma read_saved : forall (x y : Col T) xn yn txt, collen x = collen y -> none_of is_nl xn -> none_of is_nl yn ->
  savetxt F x y (two_names xn yn) = Ok txt ->
  (exists rest, txt = header_text (two_names xn yn) ++ rest) /\
  (collen x <> 0 ->
  read_txt F txt = match x, y with
                   | Rl a, Rl b => to_dict nzero Rl txt (map (fun ab => [fst ab; snd ab]) (combine a b))
                   | _, _ => to_dict (nzero, nzero) Cx txt (map (fun ab => [fst ab; snd ab]) (combine (tocx x) (tocx y)))
                   end).
Proof.
  intros x y xn yn txt C X Y S. unfold savetxt, c_ in S. rewrite C, Nat.eqb_refl in S. cbn [bind] in S.
  assert (ok_inj : forall A (a b : A), Ok a = Ok b -> a = b) by (intros A a b E; injection E; auto). apply ok_inj in S. subst txt. split; [eexists; reflexivity|]. intros N.
  unfold read_txt.
  assert (Hc : forall a b : list (T * T), List.length a = List.length b -> a <> [] ->
    let txt := header_text (two_names xn yn) ++ rows_text (combine (map (fun z => " " ++ fc F z) a) (map (fun z => " " ++ fc F z) b)) in
    table txt = map (fun ab => [fc F (fst ab); fc F (snd ab)]) (combine a b)).
  { intros a b AB A txt. unfold txt. rewrite combine_map2.
    replace (map (fun ab => (" " ++ fc F (fst ab), " " ++ fc F (snd ab))) (combine a b)) with (toks true (map (fun ab => (fc F (fst ab), fc F (snd ab))) (combine a b)))
      by (unfold toks; rewrite map_map; reflexivity).
    rewrite saved_table; [rewrite map_map; reflexivity|assumption|assumption|]. intros s t I. apply in_map_iff in I as ((p & q) & I & _). injection I as <- <-. split; apply (tok_fc F L). }
  assert (Hr : forall a b : list T, List.length a = List.length b -> a <> [] ->
    let txt := header_text (two_names xn yn) ++ rows_text (combine (map (fr F) a) (map (fr F) b)) in
    table txt = map (fun ab => [fr F (fst ab); fr F (snd ab)]) (combine a b)).
  { intros a b AB A txt. unfold txt. rewrite combine_map2.
    replace (map (fun ab => (fr F (fst ab), fr F (snd ab))) (combine a b)) with (toks false (map (fun ab => (fr F (fst ab), fr F (snd ab))) (combine a b)))
      by (unfold toks; rewrite map_map; reflexivity).
    rewrite saved_table; [rewrite map_map; reflexivity|assumption|assumption|]. intros s t I. apply in_map_iff in I as ((p & q) & I & _). injection I as <- <-. split; apply (tok_fr F L). }
  assert (Hcx : forall a b : list (T * T), List.length a = List.length b -> a <> [] ->
    let txt := header_text (two_names xn yn) ++ rows_text (combine (map (fun z => " " ++ fc F z) a) (map (fun z => " " ++ fc F z) b)) in
    match parse_table (pr F) (table txt) with Ok rows => to_dict nzero Rl txt rows | Err _ => do rows <- parse_table (pc F) (table txt); to_dict (nzero, nzero) Cx txt rows end
    = to_dict (nzero, nzero) Cx txt (map (fun ab => [fst ab; snd ab]) (combine a b))).
  { intros a b AB A txt. unfold txt. rewrite (Hc a b AB A). destruct (table_no _ _ (pr F) (fc F) (pr_fc F L) (combine a b)) as (e & ->); [apply combine_nonempty; assumption|].
    rewrite (table_ok _ (pc F) (fc F) (pc_fc F L)) by (apply combine_nonempty; assumption). reflexivity. }
  assert (LL : List.length (tocx x) = List.length (tocx y)) by (rewrite !tocx_len; exact C).
  assert (NN : tocx x <> []) by (intros E; apply N; rewrite <- tocx_len, E; reflexivity).
  destruct x as [a|a], y as [b|b]; try (apply Hcx; assumption).
  assert (NA : a <> []) by (intros ->; apply N; reflexivity). cbn [collen] in C.
  rewrite (Hr a b C NA), (table_ok _ (pr F) (fr F) (pr_fr F L)) by (apply combine_nonempty; assumption). reflexivity.
Qed.
End Dict.
