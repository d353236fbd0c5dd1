(** Property C113: reading the field exported by CST. *)
From Coq Require Import List Arith ZArith Bool String Ascii Lia Permutation QArith Qcanon.
From Verif Require Import Num Vec FieldModel GridModel SolverModel SolverCons WakeModel WakeNum WakeNames SolverKit CstModel CstProofs.
Import ListNotations.
Open Scope string_scope.
Open Scope nat_scope.

(** A file exported on nx x ny x nz points: three lines of header, then one line per point, x fastest and z slowest; the
    first three words are the coordinates, the sixth is E_z.  [xw i] is the word that stands for the i-th x. *)
Definition export {T} (num : string -> option T) (nx ny nz : nat) (xw : nat -> string) (X Y Z : nat -> T) (V : nat -> nat -> nat -> T)
    (ls : list line) : Prop :=
  exists head body, ls = (head ++ body)%list /\ List.length head = 3 /\ List.length body = nx * ny * nz /\
  forall i j k, i < nx -> j < ny -> k < nz -> exists w1 w2 w3 w4 w5 rest,
    nth_error body (i + nx * (j + ny * k)) = Some (xw i :: w1 :: w2 :: w3 :: w4 :: w5 :: rest) /\
    num (xw i) = Some (X i) /\ num w1 = Some (Y j) /\ num w2 = Some (Z k) /\ num w5 = Some (V i j k).

Section Files.
  Context {T : Type} {NT : Num T} {OT : NumOrd T} (num stamp : string -> option T) (units ns : T).
  Context (n m : nat) (xw : nat -> string) (X Y Z : nat -> T) (V : file -> nat -> nat -> nat -> T).
  Lemma scan_export f st : export num n n m xw X Y Z (V f) (snd f) ->
    exists st', scan_rows num n m units 0 (skipn 3 (snd f)) st = Ok st' /\ after units n m X Y Z (V f) (n * n * m) st'.
  Proof.
    intros (head & body & -> & Lh & Lb & H). assert (E : skipn 3 (head ++ body) = body).
    { rewrite <- Lh. rewrite skipn_app, skipn_all, Nat.sub_diag. reflexivity. }
    rewrite E. apply (scan_rows_after num stamp units n m X Y Z (V f) body 0); [exact Lb| |].
    - intros i j k Hi Hj Hk ws p Ep Np. destruct (H i j k Hi Hj Hk) as (w1 & w2 & w3 & w4 & w5 & rest & N & E0 & E1 & E2 & E5).
      cbn [Nat.add] in Ep. rewrite <- Ep, N in Np. injection Np as <-. exists (xw i), w1, w2, w3, w4, w5, rest. auto.
    - repeat split; intros; exfalso; lia.
  Qed.
  Lemma scan_files_export fs : (forall f, In f fs -> export num n n m xw X Y Z (V f) (snd f)) -> forall step st,
    exists sets ts st', scan_files num stamp n m units ns step fs st = Ok (sets, ts, st') /\
      map fst sets = map set_name (seq step (List.length fs)) /\
      (forall p f, nth_error fs p = Some f -> exists name E, nth_error sets p = Some (name, E) /\
         (forall i j k, i < n -> j < n -> k < m -> E i j k = V f i j k) /\
         nth_error ts p = Some (match stamp (fst f) with Some a => nmul a ns | None => nofnat (step + p) end)) /\
      (fs <> [] -> (forall i, i < n -> i < n * n * m -> sc_x st' i = nmul (X i) units) /\
         (forall j, j < n -> n * j < n * n * m -> sc_y st' j = nmul (Y j) units) /\ (forall k, k < m -> n * n * k < n * n * m -> sc_z st' k = nmul (Z k) units)).
  Proof.
    induction fs as [|f fs IH]; intros H step st; cbn [scan_files].
    - exists [], [], st. split; [reflexivity|]. split; [reflexivity|]. split; [intros [|p]; discriminate|congruence].
    - destruct (scan_export f st (H f (or_introl eq_refl))) as (st1 & E1 & A1). rewrite E1. cbn [bind].
      destruct (IH (fun g Hg => H g (or_intror Hg)) (step + 1) st1) as (sets & ts & st' & E & M & P & A). rewrite E. cbn [bind].
      eexists. eexists. exists st'. split; [reflexivity|]. cbn [List.length seq map fst]. split; [rewrite M, Nat.add_1_r; reflexivity|]. split.
      + intros [|p] g Hg; cbn [nth_error] in *.
        * injection Hg as <-. eexists. eexists. split; [reflexivity|]. rewrite Nat.add_0_r. split; [|reflexivity].
          intros i j k Hi Hj Hk. apply A1; try assumption. nia.
        * replace (step + S p) with (step + 1 + p) by lia. apply P, Hg.
      + intros _. destruct fs as [|g fs]; [|apply A; discriminate]. cbn [scan_files] in E. injection E as _ _ <-.
        destruct A1 as (_ & B & C & D). auto.
  Qed.
  Lemma transverse_export V0 ls : 0 < n -> 1 < n * m -> (forall i, 0 < i < n -> xw i <> xw 0) -> export num n n m xw X Y Z V0 ls ->
    transverse ls = Ok n /\ (List.length ls - 3) / (n * n) = m.
  Proof.
    intros Hn Hm Hx (head & body & -> & Lh & Lb & H). assert (N2 : n * n <> 0) by nia.
    assert (W : forall p, p < n * n * m -> first_word (head ++ body)%list (p + 3) = Ok (xw (p mod n))).
    { intros p Hp. destruct (row_cell n m p Hp) as (i & j & k & Hi & Hj & Hk & ->).
      destruct (H i j k Hi Hj Hk) as (w1 & w2 & w3 & w4 & w5 & rest & N & _). unfold first_word.
      rewrite nth_error_app2 by lia. rewrite Lh, Nat.add_sub, N. cbn.
      rewrite (Nat.mul_comm n (j + n * k)), Nat.mod_add by lia. rewrite Nat.mod_small by exact Hi. reflexivity. }
    split.
    - unfold transverse. change (first_word (head ++ body)%list 3) with (first_word (head ++ body)%list (0 + 3)). rewrite (W 0) by nia. cbn [bind]. rewrite Nat.mod_0_l by lia. apply (count_found num stamp).
      + lia.
      + rewrite app_length. nia.
      + intros p Lp Hp. exists (xw (p mod n)). split; [apply W; nia|]. rewrite Nat.mod_small by exact Hp. intros F. apply (Hx p); [lia|congruence].
      + rewrite W by nia. rewrite Nat.mod_same by lia. reflexivity.
    - rewrite app_length, Lh, Lb. replace (3 + n * n * m - 3) with (m * (n * n)) by lia. apply Nat.div_mul, N2.
  Qed.
End Files.

(** ** C113 *)
(** Files exported on n x n x m points, more than one line of them, with distinct x: the field of every file ends up at its
    own indices in its own dataset, the axes are those of the files in the given units, and the datasets and times
    follow the times in the file names, if every name has one. *)
Theorem C113_square_partial : forall (T : Type) (NT : Num T) (LT : NumLaws T) (OT : NumOrd T) (FT : NumFl T) (FL : NumFlLaws T)
    (num stamp : string -> option T) (units ns : T) (n m : nat) xw X Y Z (V : file -> nat -> nat -> nat -> T) fs,
  fs <> [] -> 0 < n -> 1 < n * m -> (forall i, 0 < i < n -> xw i <> xw 0) ->
  (forall f, In f fs -> export num n n m xw X Y Z (V f) (snd f)) ->
  exists c order, read_cst num stamp units ns fs = Ok c /\ Permutation order fs /\
    ((forall f, In f fs -> stamp (fst f) <> None) -> forall p q f g a b, p < q -> nth_error order p = Some f -> nth_error order q = Some g ->
       stamp (fst f) = Some a -> stamp (fst g) = Some b -> nltb b a = false) /\
    cs_shape c = (n, n, m) /\ map fst (cs_sets c) = map set_name (seq 0 (List.length fs)) /\
    (forall p f, nth_error order p = Some f -> exists name E, nth_error (cs_sets c) p = Some (name, E) /\
       (forall i j k, i < n -> j < n -> k < m -> E i j k = V f i j k) /\
       nth_error (cs_t c) p = Some (match stamp (fst f) with Some a => nmul a ns | None => nofnat p end)) /\
    (forall i, i < n -> cs_x c i = nmul (X i) units) /\ (forall j, j < n -> cs_y c j = nmul (Y j) units) /\
    (forall k, k < m -> cs_z c k = nmul (Z k) units).
Proof.
  intros T NT LT OT FT FL num stamp units ns n m xw X Y Z V fs Nf Hn Hm Hx H.
  pose proof (sort_files_perm stamp fs) as P. set (order := sort_files stamp fs) in *.
  assert (H' : forall f, In f order -> export num n n m xw X Y Z (V f) (snd f)) by (intros f Hf; apply H, (Permutation_in _ P), Hf).
  assert (No : order <> []). { intros E. rewrite E in P. apply Permutation_nil in P. congruence. }
  unfold read_cst. fold order. destruct order as [|f0 order'] eqn:Eo; [congruence|]. cbn [nth_error some bind].
  destruct (transverse_export num stamp n m xw X Y Z (fun _ => V f0) (V f0) (snd f0) Hn Hm Hx (H' f0 (or_introl eq_refl))) as [Et Em]. rewrite Et. cbn [bind]. rewrite Em.
  destruct (scan_files_export num stamp units ns n m xw X Y Z V (f0 :: order') H' 0
     {| sc_E := fun _ _ _ => nzero; sc_x := fun _ => nzero; sc_y := fun _ => nzero; sc_z := fun _ => nzero |}) as (sets & ts & st' & E & M & S & A).
  rewrite E. cbn [bind]. eexists. exists (f0 :: order'). split; [reflexivity|]. cbn [cs_shape cs_sets cs_x cs_y cs_z cs_t].
  split; [exact P|]. split; [|split; [reflexivity|split; [|split; [|]]]].
  - intros Hs p q f g a b Lpq Hp Hq Ea Eb. destruct (stamped_all stamp fs Hs) as [k Ek].
    assert (Eord : f0 :: order' = map snd (fold_right insert_file [] k)) by (rewrite <- Eo; unfold order, sort_files; rewrite Ek; reflexivity).
    destruct (stamped_map stamp fs k Ek) as [_ Fk].
    assert (Fs : Forall (fun a => stamp (fst (snd a)) = Some (fst a)) (fold_right insert_file [] k)).
    { apply Forall_forall. intros x Hx'. rewrite Forall_forall in Fk. apply Fk. apply (Permutation_in _ (sorted_perm k)), Hx'. }
    pose proof (sorted_sorted k) as So. rewrite Eord in Hp, Hq. clear - Hp Hq Lpq So Ea Eb Fs.
    revert p q Lpq Hp Hq. induction (fold_right insert_file [] k) as [|e l IH]; intros p q Lpq Hp Hq; [destruct p; discriminate|].
    inversion Fs as [|? ? Fe Fl]; subst. destruct So as [S1 S2]. destruct q as [|q]; [lia|]. destruct p as [|p].
    + cbn in Hp, Hq. injection Hp as <-. rewrite nth_error_map in Hq. destruct (nth_error l q) as [e'|] eqn:Eq; [|discriminate]. cbn in Hq. injection Hq as <-.
      apply nth_error_In in Eq. rewrite Forall_forall in Fl. pose proof (eq_trans (eq_sym (Fl e' Eq)) Eb) as K1. pose proof (eq_trans (eq_sym Fe) Ea) as K2. injection K1 as <-. injection K2 as <-. apply S1, Eq.
    + cbn in Hp, Hq. apply (IH Fl S2 p q); [lia|exact Hp|exact Hq].
  - rewrite M. f_equal. f_equal. apply Permutation_length in P. exact P.
  - exact S.
  - destruct (A ltac:(discriminate)) as (A1 & A2 & A3). assert (0 < m) by nia.
    split; [|split]; intros i Hi; [apply A1|apply A2|apply A3]; try exact Hi; clear - Hi Hn Hm H0; nia.
Qed.
Print Assumptions C113_square_partial.

(** The datasets of up to 100000 files are listed by h5py, which sorts names, in the order of the steps, before the axes. *)
Lemma dec_go_len f : forall n acc, String.length acc < String.length (dec_go (S f) n acc).
Proof.
  induction f as [|f IH]; intros n acc; cbn [dec_go]; destruct (n <? 10); cbn [String.length]; try lia.
  specialize (IH (n / 10) (String (digit (n mod 10)) acc)). cbn [String.length] in IH. cbn [dec_go] in IH. lia.
Qed.
Lemma append_len a b : String.length (a ++ b) = String.length a + String.length b.
Proof. induction a as [|c a IH]; [reflexivity|]. cbn. rewrite IH. reflexivity. Qed.
Lemma set_name_dig n : n < 10 ^ 5 -> set_name n = "Ez_0" ++ zfill 5 (dec n).
Proof.
  intros H. pose proof (zfill_dec n H) as E. assert (L : String.length (zfill 5 (dec n)) = 5) by (rewrite E; reflexivity).
  unfold zfill in L. rewrite append_len in L. pose proof (dec_go_len n n EmptyString) as G. fold (dec n) in G. cbn [String.length] in G.
  unfold set_name, zfill. replace (5 - (String.length (dec n) - 1)) with (S (5 - String.length (dec n))) by lia. reflexivity.
Qed.
Lemma set_name_leb a b : a < 10 ^ 5 -> b < 10 ^ 5 -> str_leb (set_name a) (set_name b) = (a <=? b).
Proof.
  intros Ha Hb. rewrite <- (snap_key_leb a b Ha Hb), !set_name_dig by assumption. unfold str_leb, snap_key. cbn [String.append].
  rewrite !compare_cons. reflexivity.
Qed.
Lemma sort_sets n : forall s, s + n <= 10 ^ 5 -> sort_names (map set_name (seq s n)) = map set_name (seq s n).
Proof.
  induction n as [|n IH]; intros s H; [reflexivity|]. cbn [seq map sort_names fold_right].
  change (fold_right insert_name [] (map set_name (seq (S s) n))) with (sort_names (map set_name (seq (S s) n))).
  rewrite IH by lia. destruct n as [|n]; [reflexivity|]. cbn [seq map insert_name].
  rewrite set_name_leb by lia. destruct (Nat.leb_spec s (S s)); [reflexivity|lia].
Qed.
Theorem C113_names_partial : forall N, N <= 10 ^ 5 ->
  sort_names (["x"; "y"; "z"; "t"] ++ map set_name (seq 0 N))%list = (map set_name (seq 0 N) ++ ["t"; "x"; "y"; "z"])%list.
Proof.
  intros N H. unfold sort_names. rewrite fold_right_app.
  change (fold_right insert_name [] (map set_name (seq 0 N))) with (sort_names (map set_name (seq 0 N))).
  rewrite sort_sets by exact H. cbn [fold_right]. rewrite <- (app_nil_r (map set_name (seq 0 N))) at 1.
  assert (A : forall m x, In m ["x"; "y"; "z"; "t"] -> In x (map set_name (seq 0 N)) -> str_leb m x = false).
  { intros m x Hm Hx. apply in_map_iff in Hx. destruct Hx as (n & <- & _). unfold str_leb, set_name. cbn [String.append].
    cbn in Hm. repeat (destruct Hm as [<-|Hm]; [reflexivity|]). destruct Hm. }
  rewrite !insert_after by (intros x Hx; apply A; [cbn; tauto|exact Hx]). reflexivity.
Qed.
Print Assumptions C113_names_partial.

(** A number is a word of one digit; a name is the digit after "Ez_". *)
Definition num1 (s : string) : option Qc :=
  match s with String c EmptyString => let d := nat_of_ascii c - 48 in if (48 <=? nat_of_ascii c) && (d <? 10) then Some (Q2Qc (Z.of_nat d # 1)) else None | _ => None end.
Definition stamp1 (s : string) : option Qc :=
  match s with String _ (String _ (String _ r)) => num1 r | _ => None end.
Definition head3 : list line := [["x"; "y"; "z"]; ["----"]; []].
Definition row3 (a b c v : string) : line := [a; b; c; "0"; "0"; v].
Definition two_files : list file :=
  [("Ez_2", head3 ++ [row3 "1" "3" "5" "1"; row3 "2" "3" "5" "2"; row3 "1" "4" "5" "3"; row3 "2" "4" "5" "4"])%list;
   ("Ez_1", head3 ++ [row3 "1" "3" "5" "6"; row3 "2" "3" "5" "7"; row3 "1" "4" "5" "8"; row3 "2" "4" "5" "9"])%list].
Definition words2 (i : nat) : string := match i with 0 => "1" | _ => "2" end.
Definition q (a : nat) : Qc := Q2Qc (Z.of_nat a # 1).
Definition V2 (f : file) (i j k : nat) : Qc := if String.eqb (fst f) "Ez_2" then q (1 + i + 2 * j) else q (6 + i + 2 * j).
Example C113_square_case :
  (forall f, In f two_files -> export num1 2 2 1 words2 (fun i => q (1 + i)) (fun j => q (3 + j)) (fun _ => q 5) (V2 f) (snd f)) /\
  match read_cst num1 stamp1 (q 1) (q 1) two_files with
  | Ok c => map fst (cs_sets c) = ["Ez_000000"; "Ez_000001"] /\ map (fun s => this (snd s 1 0 0)) (cs_sets c) = [7 # 1; 2 # 1]%Q /\ map this (cs_t c) = [1 # 1; 2 # 1]%Q
  | Err _ => False
  end.
Proof.
  split; [|vm_compute; auto]. intros f [<-|[<-|[]]].
  all: exists head3; eexists; split; [reflexivity|]; split; [reflexivity|]; split; [reflexivity|].
  all: intros [|[|i]] [|[|j]] [|k] Hi Hj Hk; try lia; do 6 eexists; (split; [reflexivity|]); vm_compute; auto.
Qed.

(** 2 x 3 x 1 points: no error, but the third row of points overwrites the first. *)
Definition rect_file : file := ("Ez_1", head3 ++ [row3 "1" "3" "6" "1"; row3 "2" "3" "6" "2"; row3 "1" "4" "6" "3"; row3 "2" "4" "6" "4"; row3 "1" "5" "6" "7"; row3 "2" "5" "6" "8"])%list.
Theorem C113_rectangular_refuted : exists (f : file) (X Y Z : nat -> Qc) (V : nat -> nat -> nat -> Qc) c name E,
  export num1 2 3 1 words2 X Y Z V (snd f) /\ read_cst num1 stamp1 (q 1) (q 1) [f] = Ok c /\ cs_shape c = (2, 2, 1) /\
  cs_sets c = [(name, E)] /\ E 0 0 0 <> V 0 0 0 /\ cs_y c 0 <> Y 0.
Proof.
  exists rect_file, (fun i => q (1 + i)), (fun j => q (3 + j)), (fun _ => q 6), (fun i j k => match j with 2 => q (7 + i) | _ => q (1 + i + 2 * j) end).
  eexists. eexists. eexists. split; [|split; [vm_compute; reflexivity|]].
  - exists head3. eexists. split; [reflexivity|]. split; [reflexivity|]. split; [reflexivity|].
    intros [|[|i]] [|[|[|j]]] [|k] Hi Hj Hk; try lia; do 6 eexists; (split; [reflexivity|]); vm_compute; auto.
  - split; [reflexivity|]. split; [reflexivity|]. split; intros F; apply (f_equal this) in F; vm_compute in F; discriminate F.
Qed.
Print Assumptions C113_rectangular_refuted.
(** A second file with a line less: no error, and its missing value is the one of the first file. *)
Definition short_file : file := ("Ez_2", head3 ++ [row3 "1" "3" "5" "1"; row3 "2" "3" "5" "2"; row3 "1" "4" "5" "3"])%list.
Theorem C113_short_file_refuted : exists (f g : file) (V : nat -> nat -> nat -> Qc) c s1 s2,
  export num1 2 2 1 words2 (fun i => q (1 + i)) (fun j => q (3 + j)) (fun _ => q 5) V (snd f) /\ List.length (snd g) < List.length (snd f) /\
  read_cst num1 stamp1 (q 1) (q 1) [f; g] = Ok c /\ cs_sets c = [s1; s2] /\ snd s2 1 1 0 = V 1 1 0 /\ V 1 1 0 <> nzero.
Proof.
  exists ("Ez_1", snd (nth 0 two_files ("", []))), short_file, (fun i j k => q (1 + i + 2 * j)).
  eexists. eexists. eexists. split; [|split; [vm_compute; lia|split; [vm_compute; reflexivity|]]].
  - exists head3. eexists. split; [reflexivity|]. split; [reflexivity|]. split; [reflexivity|].
    intros [|[|i]] [|[|j]] [|k] Hi Hj Hk; try lia; do 6 eexists; (split; [reflexivity|]); vm_compute; auto.
  - split; [reflexivity|]. split; [vm_compute; reflexivity|]. intros F; apply (f_equal this) in F; vm_compute in F; discriminate F.
Qed.
Print Assumptions C113_short_file_refuted.
