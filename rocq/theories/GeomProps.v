(** C68, C69, C91: importing STEP files. *)
From Coq Require Import List Arith NArith Bool String Ascii Lia QArith Qcanon.
From Verif Require Import Num Vec FieldModel SolverModel SolverKit GeomModel GeomProofs.
Import ListNotations.
Open Scope string_scope.
Open Scope nat_scope.

(** the characters kept in names; the others become "-" *)
Definition allowed (c : ascii) : bool := existsb (Ascii.eqb c) (list_ascii_of_string "abcdefghijklmnopqrstuvwxyzABCDEFGHIJKLMNOPQRSTUVWXYZ0123456789_-").
Definition tidy (s : string) : string := string_of_list_ascii (map (fun c => if allowed c then c else "-"%char) (list_ascii_of_string s)).
Definition small (c : ascii) : ascii :=
  match List.find (fun p => Ascii.eqb c (fst p)) (combine (list_ascii_of_string "ABCDEFGHIJKLMNOPQRSTUVWXYZ") (list_ascii_of_string "abcdefghijklmnopqrstuvwxyz")) with
  | Some p => snd p | None => c end.
Definition lowercase (s : string) : string := string_of_list_ascii (map small (list_ascii_of_string s)).
Lemma safe_allowed : forall c, safe c = allowed c.
Proof. intros [[] [] [] [] [] [] [] []]; vm_compute; reflexivity. Qed.
Lemma small_eq : forall c, lower_ascii c = small c.
Proof. intros [[] [] [] [] [] [] [] []]; vm_compute; reflexivity. Qed.
Lemma tidy_eq : forall s, sanitise s = tidy s.
Proof. induction s as [|c s IH]; [reflexivity|]. unfold sanitise, tidy in *. cbn [smap list_ascii_of_string map string_of_list_ascii]. rewrite safe_allowed, IH. reflexivity. Qed.
Lemma lowercase_eq : forall s, lower s = lowercase s.
Proof. induction s as [|c s IH]; [reflexivity|]. unfold lowercase in *. cbn [lower list_ascii_of_string map string_of_list_ascii]. rewrite small_eq, IH. reflexivity. Qed.
(** the prefix d of files in the folder *)
Definition in_folder (path : option string) (d : string) : Prop :=
  match path with None => d = "" | Some p => (forall q, p = q ++ "/" -> d = p) /\ ((forall q, p <> q ++ "/") -> d = p ++ "/") end.
Lemma srev_app : forall a b acc, srev (a ++ b) acc = srev b (srev a acc).
Proof. induction a as [|c a IH]; intros b acc; [reflexivity|]. cbn. apply IH. Qed.
Lemma srev_acc : forall a acc, srev a acc = srev a "" ++ acc.
Proof.
  induction a as [|c a IH]; intros acc; [reflexivity|]. cbn [srev]. rewrite (IH (String c acc)), (IH (String c "")).
  clear. induction (srev a "") as [|x r IH]; [reflexivity|]. cbn. f_equal. exact IH.
Qed.
Lemma srev_srev : forall a b, srev (srev a b) "" = srev b "" ++ a.
Proof.
  induction a as [|c a IH]; intros b; cbn [srev].
  - clear. induction (srev b "") as [|x r IH]; [reflexivity|]. cbn. f_equal. exact IH.
  - rewrite IH. cbn [srev]. rewrite (srev_acc b (String c "")). clear. induction (srev b "") as [|x r IH]; [reflexivity|]. cbn. f_equal. exact IH.
Qed.
Lemma stl_path_folder : forall path, in_folder path (stl_path path).
Proof.
  intros [p|]; [|reflexivity]. cbn [in_folder stl_path]. split.
  - intros q ->. rewrite srev_app. reflexivity.
  - intros N. assert (B : srev (srev p "") "" = p) by (rewrite srev_srev; reflexivity).
    destruct (srev p "") as [|c r] eqn:E; [reflexivity|]. destruct (Ascii.eqb c "/") eqn:C.
    + exfalso. apply Ascii.eqb_eq in C. subst c. cbn [srev] in B. rewrite srev_acc in B. exact (N _ (eq_sym B)).
    + destruct c as [[] [] [] [] [] [] [] []]; try reflexivity; discriminate.
Qed.

(** ** C68.  [nm]: solid numbers with names, in order of first appearance.  All keys carry the position
    of their solid; the three dictionaries have the same keys whenever there are enough colours. *)
Theorem C68_keys_partial : forall lines sd md path, extract_names lines = Ok (sd, md) ->
  exists mats solids keys, extract_materials lines = Ok mats /\ extract_solids path lines = Ok solids /\
    map fst mats = keys /\ map fst solids = keys /\
    List.length keys = List.length sd /\ NoDup keys /\ NoDup (map snd solids) /\
    Forall (fun k => Forall (fun c => allowed c = true) (list_ascii_of_string k)) keys /\
    (forall m n name, nth_error sd m = Some (n, name) -> exists k, nth_error keys m = Some (zfill 3 (py_str m) ++ "_" ++ k) /\
       String.length k = String.length name /\ forall i c, String.get i name = Some c -> String.get i k = Some (if allowed c then c else "-"%char)) /\
    (List.length sd <= List.length (colours_of lines) ->
       exists cols, extract_colours lines = Ok cols /\ map fst cols = keys /\ map snd cols = firstn (List.length sd) (colours_of lines)) /\
    (List.length (colours_of lines) < List.length sd -> extract_colours lines = Err IndexError).
Proof.
  intros lines sd md path E. unfold extract_materials, extract_solids, extract_colours. rewrite E. cbn [bind fst snd].
  set (fm := fun (_ : nat) (n : N) (_ : string) => Ok (sanitise match dget N.eqb n md with Some m => lower m | None => "None" end)).
  set (fs := fun (i : nat) (n : N) (solid : string) => Ok (stl_path path ++ stl_key i solid ++ "_" ++ sanitise (match dget N.eqb n md with Some m => m | None => "None" end) ++ ".stl")).
  destruct (loop_total fm sd) as (mats & Em & Lm & Pm); [intros; unfold fm; eauto|].
  destruct (loop_total fs sd) as (solids & Es & Ls & Ps); [intros; unfold fs; eauto|].
  assert (Same : forall A (r : list (string * A)), List.length r = List.length sd ->
     (forall m n s, nth_error sd m = Some (n, s) -> exists v, nth_error r m = Some (stl_key m s, v)) -> map fst r = map fst mats).
  { intros A r L P. assert (X : forall m, nth_error (map fst r) m = nth_error (map fst mats) m).
    { intros m. rewrite !nth_error_map. destruct (nth_error sd m) as [[n s]|] eqn:Q.
      - destruct (P m n s Q) as (v & ->). destruct (Pm m n s Q) as (w & _ & ->). reflexivity.
      - apply nth_error_None in Q. assert (N1 : nth_error r m = None) by (apply nth_error_None; lia).
        assert (N2 : nth_error mats m = None) by (apply nth_error_None; lia). rewrite N1, N2. reflexivity. }
    clear - X. revert X. generalize (map fst r) (map fst mats). induction l as [|a l IH]; intros [|b l0] X; try reflexivity;
      try (specialize (X 0); discriminate). f_equal; [specialize (X 0); injection X as ->; reflexivity|]. apply IH. intros m. exact (X (S m)). }
  exists mats, solids, (map fst mats). split; [exact Em|]. split; [exact Es|]. split; [reflexivity|].
  split. { apply Same; [exact Ls|]. intros m n s Q. destruct (Ps m n s Q) as (v & _ & V). eauto. }
  split; [rewrite map_length; exact Lm|].
  assert (K : forall m k, nth_error (map fst mats) m = Some k -> exists n s, nth_error sd m = Some (n, s) /\ k = stl_key m s).
  { intros m k. rewrite nth_error_map. destruct (nth_error mats m) as [p|] eqn:Q; [|discriminate]. intros H. injection H as <-.
    assert (B : m < List.length sd) by (rewrite <- Lm; apply nth_error_Some; congruence). apply nth_error_Some in B.
    destruct (nth_error sd m) as [[n s]|] eqn:Q'; [|congruence]. destruct (Pm m n s Q') as (v & _ & V). rewrite Q in V. injection V as ->. eauto. }
  split. { apply numbered_NoDup. intros m k Hk. destruct (K m k Hk) as (n & s & _ & ->). exists (sanitise s). reflexivity. }
  split. { apply (paths_NoDup (stl_path path)). intros m k. rewrite nth_error_map. destruct (nth_error solids m) as [p|] eqn:Q; [|discriminate]. intros H. injection H as <-.
    assert (B : m < List.length sd) by (rewrite <- Ls; apply nth_error_Some; congruence). apply nth_error_Some in B.
    destruct (nth_error sd m) as [[n s]|] eqn:Q'; [|congruence]. destruct (Ps m n s Q') as (v & F & V). rewrite Q in V. injection V as ->.
    unfold fs in F. injection F as <-. cbn [snd].
    exists (sanitise s ++ "_" ++ sanitise (match dget N.eqb n md with Some m => m | None => "None" end) ++ ".stl"). f_equal. unfold stl_key.
    clear. induction (zfill 3 (py_str m)) as [|c p IH]; [reflexivity|]. cbn. f_equal. exact IH. }
  split. { apply Forall_forall. intros k Hk. apply In_nth_error in Hk as [m Hm]. destruct (K m k Hm) as (n & s & _ & ->).
    pose proof (key_safe m s) as S. revert S. generalize (stl_key m s). clear. induction s as [|c s IH]; cbn [all_chars list_ascii_of_string]; intros H; constructor;
      apply andb_true_iff in H as [H1 H2]; [rewrite <- safe_allowed; exact H1|auto]. }
  split. { intros m n name Q. destruct (Pm m n name Q) as (v & _ & V). exists (sanitise name). rewrite nth_error_map, V. split; [reflexivity|].
    split; [apply sanitise_len|]. clear. unfold sanitise. induction name as [|a name IH]; intros [|i] c H; cbn [smap String.get] in *; try discriminate; [injection H as ->; rewrite <- safe_allowed; reflexivity|]. apply IH. exact H. }
  split.
  - intros L. set (fc := fun (i : nat) (_ : N) (_ : string) => match nth_error (colours_of lines) i with Some c => Ok c | None => Err IndexError end).
    destruct (loop_total fc sd) as (cols & Ec & Lc & Pc).
    { intros i n s Hi. unfold fc. destruct (nth_error (colours_of lines) i) eqn:Q; [eauto|]. apply nth_error_None in Q. lia. }
    exists cols. split; [exact Ec|]. split. { apply Same; [exact Lc|]. intros m n s Q. destruct (Pc m n s Q) as (v & _ & V). eauto. }
    apply nth_error_ext_eq; [rewrite map_length, firstn_length; lia|]. intros m Hm. rewrite map_length, Lc in Hm.
    rewrite nth_error_map, nth_error_firstn_lt by exact Hm.
    apply nth_error_Some in Hm. destruct (nth_error sd m) as [[n s]|] eqn:Q; [|congruence]. destruct (Pc m n s Q) as (v & F & ->). unfold fc in F.
    destruct (nth_error (colours_of lines) m); [injection F as ->; reflexivity|discriminate].
  - intros L. set (fc := fun (i : nat) (_ : N) (_ : string) => match nth_error (colours_of lines) i with Some c => Ok c | None => Err IndexError end).
    pose proof (loop_spec fc sd 0 []) as P. destruct (stl_loop fc 0 sd []) as [r|e].
    + destruct P as (r' & _ & _ & P); [intros ? ? ? []|]. assert (B : List.length (colours_of lines) < List.length sd) by exact L.
      apply nth_error_Some in B. destruct (nth_error sd (List.length (colours_of lines))) as [[n s]|] eqn:Q; [|congruence].
      destruct (P _ n s Q) as (v & F & _). unfold fc in F. cbn [Nat.add] in F. destruct (nth_error (colours_of lines) (List.length (colours_of lines))) eqn:Z; [|discriminate].
      assert (X : nth_error (colours_of lines) (List.length (colours_of lines)) <> None) by congruence. apply nth_error_Some in X. lia.
    + destruct P as (m & n & s & _ & F); [intros ? ? ? []|]. unfold fc in F. destruct (nth_error _ _); [discriminate|]. injection F as ->. reflexivity.
Qed.
Print Assumptions C68_keys_partial.

(** two solids on layers, one without; two of them share a name *)
Definition step_file : list string :=
  ["#10=ADVANCED_BREP_SHAPE_REPRESENTATION('Be window',(#37,#2),#9);";
   "#11=ADVANCED_BREP_SHAPE_REPRESENTATION('Be window',(#39),#9);";
   "#12=ADVANCED_BREP_SHAPE_REPRESENTATION('wall',(#41),#9);";
   "#20=PRESENTATION_LAYER_ASSIGNMENT('Vacuum','layer',(#37));";
   "#21=PRESENTATION_LAYER_ASSIGNMENT('Lossy metal','layer',(#39,#37,#99));";
   "#30=COLOUR_RGB('',0.5,0.25,1.);"].
Example C68_case : extract_names step_file = Ok ([(37%N, "Be window"); (39%N, "Be window"); (41%N, "wall")], [(37%N, "Lossy metal"); (39%N, "Lossy metal")]) /\
  extract_materials step_file = Ok [("000_Be-window", "lossy-metal"); ("001_Be-window", "lossy-metal"); ("002_wall", "None")] /\
  extract_solids (Some "out") step_file = Ok [("000_Be-window", "out/000_Be-window_Lossy-metal.stl"); ("001_Be-window", "out/001_Be-window_Lossy-metal.stl"); ("002_wall", "out/002_wall_None.stl")] /\
  colours_of step_file = [("0.5", "0.25", "1.")].
Proof. vm_compute. auto. Qed.
(** A file with fewer colours than solids has materials and solids but no colours. *)
Theorem C68_colours_refuted : exists lines mats solids, extract_materials lines = Ok mats /\ extract_solids None lines = Ok solids /\
  List.length mats = 3 /\ extract_colours lines = Err IndexError.
Proof.
  exists step_file. destruct (C68_keys_partial step_file _ _ None (proj1 C68_case)) as (m & s & k & A & B & C & _ & D & _ & _ & _ & _ & _ & E).
  exists m, s. split; [exact A|]. split; [exact B|]. split; [rewrite <- C, map_length in D; exact D|]. apply E. vm_compute. auto.
Qed.
Print Assumptions C68_colours_refuted.

(** ** C91.  A solid has the name of its last declaration and the material of the last layer that lists it. *)
Theorem C91_layers : forall lines sd md, extract_names lines = Ok (sd, md) -> NoDup (map fst sd) /\
  (forall n name, In (n, name) sd <-> last_of declares lines n name) /\
  (forall m n name mats, nth_error sd m = Some (n, name) -> extract_materials lines = Ok mats ->
    exists k mat, nth_error mats m = Some (k, mat) /\
      ((exists layer, last_of assigns lines n layer /\ mat = tidy (lowercase layer)) \/
       ((forall l w, In l lines -> ~ assigns l n w) /\ mat = "None"))).
Proof.
  intros lines sd md E. unfold extract_names in E. destruct (solids_pass lines []) as [sd'|] eqn:S; [|discriminate]. cbn [bind] in E.
  destruct (materials_pass sd' lines []) as [md'|] eqn:M; [|discriminate]. cbn [bind] in E. injection E as -> ->.
  destruct (solids_pass_spec lines [] sd) as [ND Q]; [constructor|exact S|]. split; [exact ND|]. split.
  - intros n name. rewrite (dget_in sd ND), Q. split; [intros [H|[H _]]; [exact H|discriminate]|auto].
  - intros m n name mats Hm Em. unfold extract_materials in Em. unfold extract_names in Em. rewrite S in Em. cbn [bind] in Em. rewrite M in Em. cbn [bind fst snd] in Em.
    set (fm := fun (_ : nat) (n : N) (_ : string) => Ok (sanitise match dget N.eqb n md with Some m => lower m | None => "None" end)) in Em.
    destruct (loop_total fm sd) as (r & Er & _ & P); [intros; unfold fm; eauto|]. rewrite Er in Em. injection Em as <-.
    destruct (P m n name Hm) as (v & F & V). exists (stl_key m name), v. split; [exact V|]. unfold fm in F. injection F as <-.
    assert (K : In n (map fst sd)) by (apply in_map_iff; exists (n, name); split; [reflexivity|]; eapply nth_error_In; exact Hm).
    destruct (dget N.eqb n md) as [layer|] eqn:G.
    + left. exists layer. split; [|rewrite tidy_eq, lowercase_eq; reflexivity]. apply (materials_pass_spec sd lines [] md M) in G as [[_ H]|[H _]]; [exact H|discriminate].
    + right. split; [|reflexivity]. intros l w I A.
      destruct (last_exists lines n) as [[v H]|H]; [|exact (H l w I A)].
      assert (X : dget N.eqb n md = Some v) by (apply (materials_pass_spec sd lines [] md M); auto). congruence.
Qed.
Print Assumptions C91_layers.
(** The file of a solid: folder, key, material as written in the layer. *)
Theorem C68_files : forall lines sd md path solids m n name, extract_names lines = Ok (sd, md) -> extract_solids path lines = Ok solids ->
  nth_error sd m = Some (n, name) -> exists d k w, nth_error solids m = Some (k, d ++ k ++ "_" ++ tidy w ++ ".stl") /\ in_folder path d /\
    (last_of assigns lines n w \/ (forall l v, In l lines -> ~ assigns l n v) /\ w = "None").
Proof.
  intros lines sd md path solids m n name E Es Hm. unfold extract_solids in Es. rewrite E in Es. cbn [bind fst snd] in Es.
  set (fs := fun (i : nat) (n : N) (solid : string) => Ok (stl_path path ++ stl_key i solid ++ "_" ++ sanitise (match dget N.eqb n md with Some m => m | None => "None" end) ++ ".stl")) in Es.
  destruct (loop_total fs sd) as (r & Er & _ & P); [intros; unfold fs; eauto|]. rewrite Er in Es. injection Es as <-.
  destruct (P m n name Hm) as (v & F & V). unfold fs in F. injection F as <-.
  exists (stl_path path), (stl_key m name), (match dget N.eqb n md with Some w => w | None => "None" end). rewrite <- tidy_eq. split; [exact V|]. split; [apply stl_path_folder|].
  unfold extract_names in E. destruct (solids_pass lines []) as [sd'|] eqn:S; [|discriminate]. cbn [bind] in E.
  destruct (materials_pass sd' lines []) as [md'|] eqn:M; [|discriminate]. cbn [bind] in E. injection E as -> ->.
  assert (K : In n (map fst sd)) by (apply in_map_iff; exists (n, name); split; [reflexivity|]; eapply nth_error_In; exact Hm).
  destruct (dget N.eqb n md) as [layer|] eqn:G.
  - left. apply (materials_pass_spec sd lines [] md M) in G as [[_ H]|[H _]]; [exact H|discriminate].
  - right. split; [|reflexivity]. intros l w I A.
    destruct (last_exists lines n) as [[v H]|H]; [|exact (H l w I A)].
    assert (X : dget N.eqb n md = Some v) by (apply (materials_pass_spec sd lines [] md M); auto). congruence.
Qed.
Print Assumptions C68_files.
Example C91_case : last_of declares step_file 39%N "Be window" /\ last_of assigns step_file 37%N "Lossy metal" /\ forall l w, In l step_file -> ~ assigns l 41%N w.
Proof.
  destruct (C91_layers _ _ _ (proj1 C68_case)) as (_ & A & B). destruct C68_case as (_ & M & _).
  split; [apply A; cbn; auto|]. split.
  - destruct (B 0 37%N "Be window" _ eq_refl M) as (k & mat & V & [(la & H & _)|[_ H]]).
    + replace "Lossy metal" with la; [exact H|]. apply (last_same step_file 37%N); [exact H|].
      exists (firstn 4 step_file), (nth 4 step_file ""), (skipn 5 step_file). split; [reflexivity|]. split.
      * eexists. eexists. split; [vm_compute; reflexivity|]. split; [vm_compute; reflexivity|]. cbn. auto.
      * intros l' w [<-|[]] (? & ? & S & _). vm_compute in S. discriminate.
    + vm_compute in V. injection V as _ <-. discriminate.
  - destruct (B 2 41%N "wall" _ eq_refl M) as (k & mat & V & [(la & H & E)|[H _]]); [|exact H].
    exfalso. injection V as _ <-. destruct la as [|c la]; [discriminate|]. 
    rewrite <- tidy_eq, <- lowercase_eq in E. apply (f_equal (String.get 0)) in E. unfold sanitise in E. cbn [lower smap String.get] in E. revert E. clear. destruct c as [[] [] [] [] [] [] [] []]; vm_compute; intros E; discriminate E.
Qed.

(** ** C69 *)
(** Every library material without a space in its name, in any letter case, is the material the solver uses. *)
Theorem C69_found_partial : forall (T : Type) (NT : Num T) lines sd md mats m n name layer (e : mat_entry (T := T)),
  extract_names lines = Ok (sd, md) -> extract_materials lines = Ok mats -> nth_error sd m = Some (n, name) -> last_of assigns lines n layer ->
  find_material (MName layer) = Ok e -> lower layer <> "lossy metal" ->
  exists k mat, nth_error mats m = Some (k, mat) /\ find_material (MName mat) = Ok e.
Proof.
  intros T NT lines sd md mats m n name layer e E Em Hm L F NL.
  destruct (C91_layers lines sd md E) as (_ & _ & B). destruct (B m n name mats Hm Em) as (k & mat & V & H). exists k, mat. split; [exact V|].
  destruct H as [(la & L' & ->)|[H _]]; [|exfalso; destruct L as (a & l & b & -> & A & _); apply (H l layer); [apply in_elt|exact A]].
  assert (la = layer) by (eapply last_same; eassumption).
  subst la. rewrite <- tidy_eq, <- lowercase_eq. unfold find_material in *. clear - F NL.
  assert (In (lower layer) ["pec"; "vacuum"; "dielectric"; "copper"; "berillium"]) as I.
  { unfold material_lib in F. cbn [In].
    repeat match type of F with context [String.eqb (lower layer) ?x] => destruct (String.eqb_spec (lower layer) x); [auto 10; contradiction|] end. discriminate. }
  revert F. cbn [In] in I. destruct I as [<-|[<-|[<-|[<-|[<-|[]]]]]]; exact (fun F => F).
Qed.
Print Assumptions C69_found_partial.
(** A solid on no layer, and one of lossy metal, cannot be used. *)
Theorem C69_refuted : exists lines sd md mats n, extract_names lines = Ok (sd, md) /\ extract_materials lines = Ok mats /\ nth_error sd 0 = Some (n, "Be window") /\
  last_of assigns lines n "Lossy metal" /\ exists (e : mat_entry (T := Qc)) k mat, find_material (MName "Lossy metal") = Ok e /\
  nth_error mats 0 = Some (k, mat) /\ find_material (T := Qc) (MName mat) = Err KeyError.
Proof.
  destruct C68_case as (A & B & _). exists step_file. do 3 eexists. exists 37%N. split; [exact A|]. split; [exact B|]. split; [reflexivity|].
  split; [apply C91_case|]. do 3 eexists. split; [reflexivity|]. split; [reflexivity|]. reflexivity.
Qed.
Print Assumptions C69_refuted.
Theorem C69_unassigned : forall (T : Type) (NT : Num T) lines sd md mats m n name,
  extract_names lines = Ok (sd, md) -> extract_materials lines = Ok mats -> nth_error sd m = Some (n, name) ->
  (forall l w, In l lines -> ~ assigns l n w) -> exists k mat, nth_error mats m = Some (k, mat) /\ find_material (T := T) (MName mat) = Err KeyError.
Proof.
  intros T NT lines sd md mats m n name E Em Hm H. destruct (C91_layers lines sd md E) as (_ & _ & B).
  destruct (B m n name mats Hm Em) as (k & mat & V & [(la & (a & l & b & -> & A & _) & _)|[_ ->]]); [exfalso; apply (H l la); [apply in_elt|exact A]|].
  exists k, "None". auto.
Qed.
Print Assumptions C69_unassigned.
Definition step_ok : list string :=
  ["#10=ADVANCED_BREP_SHAPE_REPRESENTATION('a b',(#37,#2),#9);"; "#20=PRESENTATION_LAYER_ASSIGNMENT('CopPer','layer',(#37));"].
Example C69_case : exists sd md mats, extract_names step_ok = Ok (sd, md) /\ extract_materials step_ok = Ok mats /\ nth_error sd 0 = Some (37%N, "a b") /\
  last_of assigns step_ok 37%N "CopPer" /\ mats = [("000_a-b", "copper")] /\ exists e : mat_entry (T := Qc), find_material (MName "CopPer") = Ok e.
Proof.
  do 3 eexists. split; [vm_compute; reflexivity|]. split; [vm_compute; reflexivity|]. split; [reflexivity|]. split.
  - exists (firstn 1 step_ok), (nth 1 step_ok ""), []. split; [reflexivity|]. split; [|intros ? ? []].
    eexists. eexists. split; [vm_compute; reflexivity|]. split; [vm_compute; reflexivity|]. cbn. auto.
  - split; [reflexivity|]. eexists. reflexivity.
Qed.
