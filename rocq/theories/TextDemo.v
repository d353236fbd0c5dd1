(** A formatter that meets the laws asked of one: fractions n/d in decimal digits, complex numbers (a,b). *)
From Coq Require Import List Arith NArith ZArith QArith Qcanon Bool String Ascii Lia.
From Verif Require Import Num Vec FieldModel SolverModel GeomModel GeomProofs TextModel TextProofs.
Import ListNotations.
Open Scope string_scope.

Definition d_fr (x : Qc) : string :=
  (match Qnum x with Zneg _ => "-" | _ => "" end) ++ py_str (Z.abs_nat (Qnum x)) ++ "/" ++ py_str (Pos.to_nat (Qden x)).
Definition d_frac (s : string) : option (N * N) :=
  match span is_digit s with
  | (a, String "/" b) => match digits_value 0 a, digits_value 0 b with Some n, Some d => Some (n, d) | _, _ => None end
  | _ => None
  end.
Definition d_pos (d : N) : positive := match d with Npos p => p | N0 => xH end.
Definition d_pr (s : string) : option Qc :=
  match s with
  | String "-" t => match d_frac t with Some (n, d) => Some (Q2Qc (- Z.of_N n # d_pos d)) | None => None end
  | String "(" _ => None
  | _ => match d_frac s with Some (n, d) => Some (Q2Qc (Z.of_N n # d_pos d)) | None => None end
  end.
Definition d_fc (z : Qc * Qc) : string := "(" ++ d_fr (fst z) ++ "," ++ d_fr (snd z) ++ "j)".
Definition d_pc (s : string) : option (Qc * Qc) :=
  match s with
  | String "(" t => match span (fun c => negb (Ascii.eqb c ",")) t with
                    | (a, String "," r) => match d_pr a, d_pr (fst (span (fun c => negb (Ascii.eqb c "j")) r)) with Some u, Some v => Some (u, v) | _, _ => None end
                    | _ => None
                    end
  | _ => None
  end.
Definition demo : Fmt Qc := mkFmt Qc d_fr d_fc d_pr d_pc.

Lemma all_none : forall P s, all_chars P s = true -> none_of (fun c => negb (P c)) s.
Proof. intros P. induction s as [|c s IH]; intros H; [constructor|]. simpl in H. apply andb_true_iff in H as [A B]. constructor; [rewrite A; reflexivity|apply IH; exact B]. Qed.
Lemma str_none : forall Q i, (forall c, Q c = true -> is_digit c = false) -> none_of Q (py_str i).
Proof. intros Q i H. eapply none_le; [|apply all_none, str_digits]. intros c Hc. cbn beta. rewrite (H c Hc). reflexivity. Qed.
Lemma frac_ok : forall n d, d_frac (py_str n ++ "/" ++ py_str d) = Some (N.of_nat n, N.of_nat d).
Proof. intros n d. unfold d_frac. cbn [append]. rewrite span_all by (apply str_digits || reflexivity). rewrite !str_value. reflexivity. Qed.
Lemma digit_first : forall n s, exists c t, py_str n ++ s = String c t /\ is_digit c = true.
Proof.
  intros n s. generalize (str_digits n). destruct (py_str n) as [|c t] eqn:E; intros H.
  - exfalso. apply (f_equal String.length) in E. revert E. unfold py_str, DecimalString.NilZero.string_of_uint. destruct (Nat.to_uint n); discriminate.
  - simpl in H. apply andb_true_iff in H as [H _]. exists c, (t ++ s). split; [reflexivity|exact H].
Qed.
Lemma den_ok : forall p, d_pos (N.of_nat (Pos.to_nat p)) = p.
Proof. intros p. rewrite positive_nat_N. reflexivity. Qed.
Lemma Q2Qc_same : forall (x : Qc) n, n = Qnum x -> Q2Qc (n # Qden x) = x.
Proof. intros x n ->. apply Qc_is_canon. cbn [this Q2Qc]. rewrite Qred_correct. destruct x as [[a b] e]. apply Qeq_refl. Qed.
Lemma d_pr_digit : forall c t, is_digit c = true -> d_pr (String c t) = match d_frac (String c t) with Some (n, d) => Some (Q2Qc (Z.of_N n # d_pos d)) | None => None end.
Proof.
  intros c t H. unfold d_pr.
  repeat match goal with |- context [match ?b with true => _ | false => _ end] => is_var b; destruct b; try reflexivity end.
  all: destruct c as [[] [] [] [] [] [] [] []]; try reflexivity; try discriminate H.
Qed.
Lemma d_pr_fr : forall x, d_pr (d_fr x) = Some x.
Proof.
  intros x. unfold d_fr. destruct (digit_first (Z.abs_nat (Qnum x)) ("/" ++ py_str (Pos.to_nat (Qden x)))) as (c & t & E & D).
  destruct (Qnum x) as [|p|p] eqn:S.
  - cbv iota. change ("" ++ ?s) with s. rewrite E, d_pr_digit by exact D. rewrite <- E. rewrite frac_ok, den_ok. f_equal. apply Q2Qc_same. rewrite S. reflexivity.
  - cbv iota. change ("" ++ ?s) with s. rewrite E, d_pr_digit by exact D. rewrite <- E. rewrite frac_ok, den_ok. f_equal. apply Q2Qc_same. rewrite S. cbn [Z.abs_nat]. rewrite positive_nat_N. reflexivity.
  - cbv iota. change ("-" ++ ?s) with (String "-" s). cbn [d_pr]. rewrite frac_ok, den_ok. f_equal. apply Q2Qc_same. rewrite S. cbn [Z.abs_nat]. rewrite positive_nat_N. reflexivity.
Qed.
Lemma fr_none : forall Q x, (forall c, Q c = true -> is_digit c = false) -> Q "-"%char = false -> Q "/"%char = false -> none_of Q (d_fr x).
Proof.
  intros Q x H A B. unfold d_fr. apply none_app; [|apply none_app; [apply str_none; exact H|apply none_app; [constructor; [exact B|constructor]|apply str_none; exact H]]].
  destruct (Qnum x); repeat constructor; exact A.
Qed.
Lemma d_pc_fc : forall z, d_pc (d_fc z) = Some z.
Proof.
  intros (u, v). unfold d_fc. cbn [fst snd]. change ("(" ++ ?s) with (String "(" s). cbn [d_pc].
  assert (SP : forall k a r, none_of (fun c => Ascii.eqb c k) a -> span (fun c => negb (Ascii.eqb c k)) (a ++ String k r) = (a, String k r)).
  { intros k a r H. induction a as [|c a IH]; [cbn; rewrite Ascii.eqb_refl; reflexivity|]. inversion H; subst. cbn [append span]. rewrite H2. cbn [negb]. rewrite IH by exact H3. reflexivity. }
  change ("," ++ ?s) with (String "," s). change ("j)") with (String "j" ")").
  assert (DD : forall k c, is_digit k = false -> Ascii.eqb c k = true -> is_digit c = false) by (intros k c H E; apply Ascii.eqb_eq in E; subst c; exact H).
  rewrite SP by (apply fr_none; try reflexivity; intros c; apply DD; reflexivity).
  rewrite SP by (apply fr_none; try reflexivity; intros c; apply DD; reflexivity).
  cbn [fst]. rewrite !d_pr_fr. reflexivity.
Qed.
Lemma not_digit : forall c, (is_space c || is_hash c)%bool = true -> is_digit c = false.
Proof. intros c. destruct c as [[] [] [] [] [] [] [] []]; vm_compute; intros; congruence. Qed.
Lemma fr_token : forall x, token (d_fr x).
Proof.
  intros x. assert (N : none_of (fun c => is_space c || is_hash c)%bool (d_fr x)) by (apply fr_none; [exact not_digit|reflexivity|reflexivity]).
  split; [|split].
  - unfold d_fr. destruct (digit_first (Z.abs_nat (Qnum x)) ("/" ++ py_str (Pos.to_nat (Qden x)))) as (c & t & -> & _). destruct (Qnum x); discriminate.
  - eapply none_le; [|exact N]. intros c H; cbn beta; rewrite H; reflexivity.
  - eapply none_le; [|exact N]. intros c H; cbn beta; rewrite H; apply orb_true_r.
Qed.
Lemma demo_laws : FmtLaws demo.
Proof.
  split; cbn [pr pc fr fc demo].
  - apply d_pr_fr.
  - apply d_pc_fc.
  - reflexivity.
  - apply fr_token.
  - intros (u, v). unfold d_fc. destruct (fr_token u) as (_ & A & B), (fr_token v) as (_ & C & D). cbn [fst snd]. split; [discriminate|].
    split; repeat (apply none_app; [try assumption; repeat constructor|]); repeat constructor.
Qed.
