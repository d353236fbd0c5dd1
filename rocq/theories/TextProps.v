(** C60, C93: text files of results. *)
From Coq Require Import List Arith QArith Qcanon Bool String Ascii Lia.
From Verif Require Import Num Vec FieldModel SolverModel GeomModel GeomProofs TextModel TextProofs TextDemo.
Import ListNotations.
Open Scope string_scope.
Open Scope nat_scope.

(** a name free of newlines and of "]" *)
Definition plain (s : string) : Prop := none_of is_nl s /\ none_of (Ascii.eqb "]") s.

(** a column as it is read back beside the column o *)
Definition beside {T : Type} {NT : Num T} (c o : Col T) : Col T :=
  match c, o with Rl a, Cx _ => Cx (map (fun v => (v, nzero)) a) | _, _ => c end.
Lemma beside_eq {T : Type} {NT : Num T} : forall c o : Col T, beside c o = TextProofs.beside c o.
Proof. intros [a|a] [b|b]; reflexivity. Qed.

(** ** C60.  Two columns of equal length >= 2 saved under names that end in their only "]" come back, in
    order, under the names without spaces and "#"; the data is unchanged, except that a real column saved
    beside a complex one comes back as complex numbers with zero imaginary part ([beside]).
    Missing (and false): names without "]", equal names, fewer than two rows. *)
Theorem C60_roundtrip_partial : forall (T : Type) (NT : Num T) (F : Fmt T), FmtLaws F -> forall (x y : Col T) u w,
  collen x = collen y -> 2 <= collen x -> plain u -> plain w -> squeezed u <> squeezed w ->
  exists txt, save_txt F (Some x) (Some y) (u ++ "]") (w ++ "]") = Ok (Some txt) /\
    read_txt F txt = Ok [(KS (squeezed (u ++ "]")), beside x y); (KS (squeezed (w ++ "]")), beside y x)].
Proof.
  intros T NT F L x y u w C N (U1 & U2) (W1 & W2) D. unfold save_txt.
  destruct (savetxt F x y (two_names (u ++ "]") (w ++ "]"))) as [txt|e] eqn:S; [|unfold savetxt, c_ in S; rewrite C, Nat.eqb_refl in S; discriminate].
  cbn [bind]. exists txt. split; [reflexivity|].
  assert (NU : none_of is_nl (u ++ "]")) by (apply none_app; auto; repeat constructor). assert (NW : none_of is_nl (w ++ "]")) by (apply none_app; auto; repeat constructor).
  destruct (read_saved F L x y _ _ txt C NU NW S) as ((rest & E) & R). rewrite R by lia.
  assert (NN : names_of txt = squeezed u :: squeezed w :: [""]) by (rewrite E; apply names_brackets; assumption).
  rewrite !squeezed_app. change (squeezed "]") with "]". rewrite !beside_eq. unfold TextProofs.beside.
  destruct x as [a|a], y as [b|b]; cbn [is_cx orb]; eapply dict_two; try exact NN; try exact D; rewrite ?tocx_len; cbn [collen] in *; rewrite ?map_length; try lia.
Qed.
Print Assumptions C60_roundtrip_partial.

Definition s_col : Col Qc := Rl [0%Qc; Q2Qc (1 # 2); Q2Qc (-7 # 3)].
Definition z_col : Col Qc := Cx [(1%Qc, 0%Qc); (Q2Qc (1 # 2), Q2Qc (-3 # 1)); (0%Qc, 1%Qc)].
Example C60_case : FmtLaws demo /\ collen s_col = collen z_col /\ 2 <= collen s_col /\ plain "f [Hz" /\ plain "Re Z #1 [Ohm" /\
  squeezed "f [Hz" <> squeezed "Re Z #1 [Ohm" /\ squeezed ("Re Z #1 [Ohm" ++ "]") = "ReZ1[Ohm]" /\
  beside s_col z_col = Cx [(0%Qc, 0%Qc); (Q2Qc (1 # 2), 0%Qc); (Q2Qc (-7 # 3), 0%Qc)] /\ beside z_col s_col = z_col.
Proof.
  split; [exact demo_laws|]. split; [reflexivity|]. split; [cbn; lia|]. split; [split; repeat constructor|]. split; [split; repeat constructor|].
  split; [discriminate|]. split; [reflexivity|]. split; reflexivity.
Qed.

(** what happens outside those conditions *)
Theorem C60_short : forall (T : Type) (NT : Num T) (F : Fmt T), FmtLaws F -> forall (x y : Col T) xn yn,
  collen x = collen y -> collen x < 2 -> none_of is_nl xn -> none_of is_nl yn ->
  exists txt, save_txt F (Some x) (Some y) xn yn = Ok (Some txt) /\ read_txt F txt = Err IndexError.
Proof.
  intros T NT F L x y xn yn C N X Y. unfold save_txt.
  destruct (savetxt F x y (two_names xn yn)) as [txt|e] eqn:S; [|unfold savetxt, c_ in S; rewrite C, Nat.eqb_refl in S; discriminate].
  cbn [bind]. exists txt. split; [reflexivity|].
  destruct (read_saved F L x y _ _ txt C X Y S) as (_ & R). destruct (Nat.eq_dec (collen x) 0) as [Z|Z].
  - unfold savetxt in S. assert (Q : c_ F x y = Ok []).
    { unfold c_. rewrite C, Nat.eqb_refl. destruct x as [[|]|[|]]; try discriminate Z; destruct y as [[|]|[|]]; try discriminate C; reflexivity. }
    rewrite Q in S. cbn [bind] in S. assert (E : header_text (two_names xn yn) ++ rows_text [] = txt) by (assert (Q' : forall A (a b : A), Ok a = Ok b -> a = b) by (intros A a b E'; injection E'; auto); exact (Q' _ _ _ S)). subst txt.
    unfold read_txt. change (rows_text []) with (rows_text (toks false [])). rewrite saved_table; [reflexivity|assumption|assumption|intros ? ? []].
  - rewrite R by exact Z. destruct x as [a|a], y as [b|b]; apply dict_short; rewrite ?tocx_len; cbn [collen] in *; rewrite ?map_length; lia.
Qed.
Print Assumptions C60_short.
Theorem C60_same_names : forall (T : Type) (NT : Num T) (F : Fmt T), FmtLaws F -> forall (x y : Col T) u w,
  collen x = collen y -> 2 <= collen x -> plain u -> plain w -> squeezed u = squeezed w ->
  exists txt, save_txt F (Some x) (Some y) (u ++ "]") (w ++ "]") = Ok (Some txt) /\ read_txt F txt = Ok [(KS (squeezed (u ++ "]")), beside y x)].
Proof.
  intros T NT F L x y u w C N (U1 & U2) (W1 & W2) D. unfold save_txt.
  destruct (savetxt F x y (two_names (u ++ "]") (w ++ "]"))) as [txt|e] eqn:S; [|unfold savetxt, c_ in S; rewrite C, Nat.eqb_refl in S; discriminate].
  cbn [bind]. exists txt. split; [reflexivity|].
  assert (NU : none_of is_nl (u ++ "]")) by (apply none_app; auto; repeat constructor). assert (NW : none_of is_nl (w ++ "]")) by (apply none_app; auto; repeat constructor).
  destruct (read_saved F L x y _ _ txt C NU NW S) as ((rest & E) & R). rewrite R by lia.
  assert (NN : names_of txt = squeezed u :: squeezed u :: [""]) by (rewrite D at 2; rewrite E; apply names_brackets; assumption).
  rewrite !squeezed_app. change (squeezed "]") with "]". rewrite !beside_eq. unfold TextProofs.beside.
  destruct x as [a|a], y as [b|b]; cbn [is_cx orb]; eapply dict_one; try exact NN; rewrite ?tocx_len; cbn [collen] in *; rewrite ?map_length; try lia.
Qed.
Print Assumptions C60_same_names.
(** a second name without "]": the bracket is added to it, as in the example of the documentation *)
Theorem C60_no_bracket : forall (T : Type) (NT : Num T) (F : Fmt T), FmtLaws F -> forall (x y : Col T) u w,
  collen x = collen y -> 2 <= collen x -> plain u -> plain w -> squeezed u <> squeezed w ->
  exists txt, save_txt F (Some x) (Some y) (u ++ "]") w = Ok (Some txt) /\
    read_txt F txt = Ok [(KS (squeezed (u ++ "]")), beside x y); (KS (squeezed w ++ "]"), beside y x)].
Proof.
  intros T NT F L x y u w C N (U1 & U2) (W1 & W2) D. unfold save_txt.
  destruct (savetxt F x y (two_names (u ++ "]") w)) as [txt|e] eqn:S; [|unfold savetxt, c_ in S; rewrite C, Nat.eqb_refl in S; discriminate].
  cbn [bind]. exists txt. split; [reflexivity|].
  assert (NU : none_of is_nl (u ++ "]")) by (apply none_app; auto; repeat constructor).
  destruct (read_saved F L x y _ _ txt C NU W1 S) as ((rest & E) & R). rewrite R by lia.
  assert (NN : names_of txt = squeezed u :: squeezed w :: []).
  { rewrite E, names_split by assumption. rewrite squeezed_app. change (squeezed "]") with "]". rewrite app_assoc_s. cbn [append].
    rewrite splitp_cut; [|apply squeezed_none; exact U2|reflexivity]. rewrite splitp_whole; [reflexivity|apply squeezed_none; exact W2]. }
  rewrite !squeezed_app. change (squeezed "]") with "]". rewrite !beside_eq. unfold TextProofs.beside.
  destruct x as [a|a], y as [b|b]; cbn [is_cx orb]; eapply dict_two; try exact NN; try exact D; rewrite ?tocx_len; cbn [collen] in *; rewrite ?map_length; try lia.
Qed.
Print Assumptions C60_no_bracket.
Theorem C60_refuted : exists (F : Fmt Qc) (x y : Col Qc) txt d, FmtLaws F /\ collen x = collen y /\
  save_txt F (Some x) (Some y) "Time [s]" "Amplitude" = Ok (Some txt) /\ read_txt F txt = Ok d /\ ~ In (KS "Amplitude") (map fst d).
Proof.
  exists demo, s_col, s_col. destruct (C60_no_bracket Qc _ demo demo_laws s_col s_col "Time [s" "Amplitude") as (txt & S & R); [reflexivity|cbn; lia|split; repeat constructor|split; repeat constructor|discriminate|].
  do 2 eexists. split; [exact demo_laws|]. split; [reflexivity|]. split; [exact S|]. split; [exact R|]. cbn. intros [H|[H|[]]]; discriminate H.
Qed.
Print Assumptions C60_refuted.

(** ** C93.  Loading what a solve saved. *)
Lemma dget_dset {A} : forall k k' (v : A) d, dget String.eqb k (dset String.eqb k' v d) = if String.eqb k k' then Some v else dget String.eqb k d.
Proof.
  intros k k' v. induction d as [|(a, b) d IH]; cbn [dset dget]; [rewrite String.eqb_sym; destruct (String.eqb k k') eqn:E; rewrite String.eqb_sym, ?E; reflexivity|].
  destruct (String.eqb_spec k' a) as [->|Na]; cbn [dget]; [destruct (String.eqb k a); reflexivity|]. rewrite IH.
  destruct (String.eqb_spec k a) as [->|Nk]; [|reflexivity]. destruct (String.eqb_spec a k'); [congruence|reflexivity].
Qed.
Lemma same_dir : forall d a b, String.eqb (d ++ a) (d ++ b) = String.eqb a b.
Proof. induction d as [|c d IH]; intros; [reflexivity|]. cbn [append String.eqb]. rewrite Ascii.eqb_refl. apply IH. Qed.
Lemma write_ok : forall (T : Type) (NT : Num T) (F : Fmt T), FmtLaws F -> forall (x y : Col T) u w,
  collen x = collen y -> 2 <= collen x -> plain u -> plain w -> squeezed u <> squeezed w ->
  exists t, (forall fs name, write F fs name x y (u ++ "]") (w ++ "]") = Ok (dset String.eqb name t fs)) /\
    (forall fs name, dget String.eqb name fs = Some t -> read_two F fs name = Ok (beside x y, beside y x)).
Proof.
  intros T NT F L x y u w C N U W D. destruct (C60_roundtrip_partial T NT F L x y u w C N U W D) as (t & S & R). exists t. split.
  - intros fs name. unfold save_txt in S. unfold write. destruct (savetxt F x y _) as [t'|]; [|discriminate]. cbn [bind] in *.
    assert (t' = t) by (assert (Q : forall A (a b : A), Ok (Some a) = Ok (Some b) -> a = b) by (intros A a b E; injection E; auto); exact (Q _ _ _ S)). subst t'. reflexivity.
  - intros fs name G. unfold read_two. rewrite G, R. reflexivity.
Qed.

(** Everything but WPy comes back from a run that computed both planes: WPy comes back as WPx, because
    WPy.txt is written from WPx.  The frequencies are saved beside complex data and come back as moduli. *)
Theorem C93_both_partial : forall (T : Type) (NT : Num T) (F : Fmt T), FmtLaws F -> forall ab abc (r : Results T) (fs : files) folder n m,
  2 <= n -> 2 <= m -> Forall (fun l => List.length l = n) [r_s r; r_WP r; r_WPx r; r_lambdas r] ->
  Forall (fun l => List.length l = m) [r_f r; r_fx r; r_fy r] -> Forall (fun l => List.length l = m) [r_lambdaf r; r_Z r; r_Zx r; r_Zy r] ->
  exists fs' l v, save_results F true (dir_of folder) r fs = Ok fs' /\ load_results F ab abc fs' (Some folder) None = Ok l /\
    l_s l = Rl (r_s r) /\ l_WP l = Rl (r_WP r) /\ l_WPx l = Rl (r_WPx r) /\ l_WPy l = Rl (r_WPx r) /\ l_lambdas l = Rl (r_lambdas r) /\
    l_f l = map (fun f => abc (f, nzero)) (r_f r) /\ l_Z l = Cx (r_Z r) /\ l_lambdaf l = Cx (r_lambdaf r) /\ l_Zx l = Cx (r_Zx r) /\ l_Zy l = Cx (r_Zy r) /\
    nth_error (r_s r) (n - 1) = Some v /\ l_wakelength l = (v, nzero) /\ l_folder l = dir_of folder.
Proof.
  intros T NT F L ab abc r fs folder n m Hn Hm H1 H2 H3. set (d := dir_of folder).
  repeat match goal with H : Forall _ (_ :: _) |- _ => let A := fresh "A" in let B := fresh "B" in inversion H as [|? ? A B]; subst; clear H end.
  repeat match goal with H : Forall _ [] |- _ => clear H end.
  destruct (write_ok T NT F L (Rl (r_s r)) (Rl (r_WP r)) "s [m" "WP [V/pC") as (t1 & W1 & R1); [cbn [collen]; congruence|cbn [collen]; lia|split; repeat constructor|split; repeat constructor|discriminate|].
  destruct (write_ok T NT F L (Rl (r_s r)) (Rl (r_WPx r)) "s [m" "WP [V/pC") as (t2 & W2 & R2); [cbn [collen]; congruence|cbn [collen]; lia|split; repeat constructor|split; repeat constructor|discriminate|].
  destruct (write_ok T NT F L (Rl (r_s r)) (Rl (r_lambdas r)) "s [Hz" "Charge distribution [C/m") as (t3 & W3 & R3); [cbn [collen]; congruence|cbn [collen]; lia|split; repeat constructor|split; repeat constructor|discriminate|].
  destruct (write_ok T NT F L (Rl (r_f r)) (Cx (r_Z r)) "f [Hz" "Z [Ohm") as (t4 & W4 & R4); [cbn [collen]; congruence|cbn [collen]; lia|split; repeat constructor|split; repeat constructor|discriminate|].
  destruct (write_ok T NT F L (Rl (r_f r)) (Cx (r_lambdaf r)) "f [Hz" "Charge distribution spectrum [C/s") as (t5 & W5 & R5); [cbn [collen]; congruence|cbn [collen]; lia|split; repeat constructor|split; repeat constructor|discriminate|].
  destruct (write_ok T NT F L (Rl (r_fx r)) (Cx (r_Zx r)) "f [Hz" "Zx [Ohm") as (t6 & W6 & R6); [cbn [collen]; congruence|cbn [collen]; lia|split; repeat constructor|split; repeat constructor|discriminate|].
  destruct (write_ok T NT F L (Rl (r_fy r)) (Cx (r_Zy r)) "f [Hz" "Zy [Ohm") as (t7 & W7 & R7); [cbn [collen]; congruence|cbn [collen]; lia|split; repeat constructor|split; repeat constructor|discriminate|].
  set (n := List.length (r_s r)) in *.
  destruct (nth_error (r_s r) (n - 1)) as [v|] eqn:V; [|apply nth_error_None in V; fold n in V; lia].
  eexists. eexists. exists v. split.
  { unfold save_results. fold d. rewrite (W1 fs (d ++ "WP.txt") : write F fs (d ++ "WP.txt") (Rl (r_s r)) (Rl (r_WP r)) "s [m]" "WP [V/pC]" = _). cbn [bind].
    rewrite (W2 _ _ : write F _ _ (Rl (r_s r)) (Rl (r_WPx r)) "s [m]" "WP [V/pC]" = _). cbn [bind].
    rewrite (W2 _ _ : write F _ _ (Rl (r_s r)) (Rl (r_WPx r)) "s [m]" "WP [V/pC]" = _). cbn [bind].
    rewrite (W3 _ _ : write F _ _ (Rl (r_s r)) (Rl (r_lambdas r)) "s [Hz]" "Charge distribution [C/m]" = _). cbn [bind].
    rewrite (W4 _ _ : write F _ _ (Rl (r_f r)) (Cx (r_Z r)) "f [Hz]" "Z [Ohm]" = _). cbn [bind].
    rewrite (W5 _ _ : write F _ _ (Rl (r_f r)) (Cx (r_lambdaf r)) "f [Hz]" "Charge distribution spectrum [C/s]" = _). cbn [bind].
    rewrite (W6 _ _ : write F _ _ (Rl (r_fx r)) (Cx (r_Zx r)) "f [Hz]" "Zx [Ohm]" = _). cbn [bind].
    rewrite (W7 _ _ : write F _ _ (Rl (r_fy r)) (Cx (r_Zy r)) "f [Hz]" "Zy [Ohm]" = _). cbn [bind]. reflexivity. }
  split.
  { unfold load_results. cbn [bind]. fold d.
    rewrite R3 by (rewrite !dget_dset, !same_dir; reflexivity). cbn [bind].
    rewrite (R2 _ (d ++ "WPx.txt")) by (rewrite !dget_dset, !same_dir; reflexivity). cbn [bind].
    rewrite (R2 _ (d ++ "WPy.txt")) by (rewrite !dget_dset, !same_dir; reflexivity). cbn [bind].
    rewrite R1 by (rewrite !dget_dset, !same_dir; reflexivity). cbn [bind].
    rewrite R5 by (rewrite !dget_dset, !same_dir; reflexivity). cbn [bind].
    rewrite R6 by (rewrite !dget_dset, !same_dir; reflexivity). cbn [bind].
    rewrite R7 by (rewrite !dget_dset, !same_dir; reflexivity). cbn [bind].
    rewrite R4 by (rewrite !dget_dset, !same_dir; reflexivity). cbn [bind fst snd].
    assert (CL : col_last (beside (Rl (r_s r)) (Rl (r_WP r))) = Ok (v, nzero)).
    { rewrite !beside_eq. unfold TextProofs.beside. cbn [is_cx orb]. unfold col_last. cbn [tocx]. apply nth_error_split in V as (l1 & l2 & E & K).
      assert (l2 = []). { assert (Q : n = List.length l1 + S (List.length l2)) by (unfold n; rewrite E, app_length; reflexivity). destruct l2; [reflexivity|cbn in Q; lia]. }
      subst l2. rewrite E, map_app, rev_app_distr. reflexivity. }
    rewrite CL. cbn [bind]. reflexivity. }
  cbn [l_s l_WP l_WPx l_WPy l_lambdas l_f l_Z l_lambdaf l_Zx l_Zy l_wakelength l_folder]. rewrite !beside_eq. unfold TextProofs.beside. cbn [is_cx orb col_abs tocx].
  rewrite map_map. repeat split; reflexivity.
Qed.
Print Assumptions C93_both_partial.

(** a run of the longitudinal plane alone cannot be loaded: the transverse files do not exist *)
Theorem C93_longitudinal : forall (T : Type) (NT : Num T) (F : Fmt T), FmtLaws F -> forall ab abc (r : Results T) (fs fs' : files) folder,
  (forall s, dget String.eqb (dir_of folder ++ s) fs = None) ->
  save_results F false (dir_of folder) r fs = Ok fs' -> exists e, load_results F ab abc fs' (Some folder) None = Err e.
Proof.
  intros T NT F L ab abc r fs fs' folder H S. unfold load_results. cbn [bind]. set (d := dir_of folder) in *.
  destruct (read_two F fs' (d ++ "lambda.txt")) as [la|e]; [|exists e; reflexivity]. cbn [bind].
  assert (K : forall fs name x y xn yn fs', write F fs name x y xn yn = Ok fs' -> exists t, fs' = dset String.eqb name t fs).
  { intros fs0 name x y xn yn fs1 E. unfold write in E. destruct (savetxt F x y _) as [t|]; [|discriminate]. cbn [bind] in E. exists t.
    assert (Q : forall A (a b : A), Ok a = Ok b -> a = b) by (intros A a b E'; injection E'; auto). symmetry. exact (Q _ _ _ E). }
  unfold save_results in S.
  destruct (write F fs _ _ _ _ _) as [f1|] eqn:E1; [|discriminate]. cbn [bind] in S. apply K in E1 as (t1 & ->).
  destruct (write F _ (d ++ "lambda.txt") _ _ _ _) as [f2|] eqn:E2; [|discriminate]. cbn [bind] in S. apply K in E2 as (t2 & ->).
  destruct (write F _ (d ++ "Z.txt") _ _ _ _) as [f3|] eqn:E3; [|discriminate]. cbn [bind] in S. apply K in E3 as (t3 & ->).
  destruct (write F _ (d ++ "spectrum.txt") _ _ _ _) as [f4|] eqn:E4; [|discriminate]. cbn [bind] in S. apply K in E4 as (t4 & ->).
  assert (Q : forall A (a b : A), Ok a = Ok b -> a = b) by (intros A a b E'; injection E'; auto). apply Q in S. subst fs'.
  exists OtherException. unfold read_two at 1. rewrite !dget_dset, !same_dir. cbn [String.eqb Ascii.eqb Bool.eqb]. rewrite H. reflexivity.
Qed.
Print Assumptions C93_longitudinal.

Definition qz (z : Z) : Qc := Q2Qc (z # 1).
Definition qzz (p : Z * Z) : Qc * Qc := (qz (fst p), qz (snd p)).
Definition res0 (wy : list Qc) : Results Qc :=
  mkResults (map qz [0; 1; 3]%Z) (map qz [1; 1; 2]%Z) (map qz [0; 1; 1]%Z) wy (map qz [1; 2; 1]%Z) (map qz [0; 5]%Z) (map qzz [(1, 1); (2, 0)]%Z) (map qzz [(3, 1); (2, 1)]%Z)
    (map qz [0; 5]%Z) (map qzz [(0, 1); (1, 2)]%Z) (map qz [0; 5]%Z) (map qzz [(4, 1); (2, 2)]%Z).
Theorem C93_refuted : exists (F : Fmt Qc) (r : Results Qc) fs' l, FmtLaws F /\ save_results F true "results/" r [] = Ok fs' /\
  load_results F (fun x => x) fst fs' (Some "results") None = Ok l /\ l_WPy l <> Rl (r_WPy r).
Proof.
  exists demo, (res0 (map qz [0; 1; 2]%Z)).
  destruct (C93_both_partial Qc _ demo demo_laws (fun x => x) fst (res0 (map qz [0; 1; 2]%Z)) [] "results" 3 2) as (fs' & l & v & S & Ld & _ & _ & _ & Y & _);
    [lia|lia|repeat constructor|repeat constructor|repeat constructor|].
  exists fs', l. split; [exact demo_laws|]. split; [exact S|]. split; [exact Ld|]. rewrite Y. intros Q. assert (X : nth 2 (map qz [0; 1; 1]%Z) 0%Qc = nth 2 (map qz [0; 1; 2]%Z) 0%Qc) by (assert (P : forall a b : list Qc, Rl a = Rl b -> a = b) by (intros a b E; injection E; auto); apply P in Q; cbn [r_WPx r_WPy res0] in Q; rewrite Q; reflexivity). apply (f_equal this) in X. vm_compute in X. discriminate X.
Qed.
Print Assumptions C93_refuted.
Example C93_case : dir_of "results" = "results/" /\ dir_of "results/" = "results/" /\
  Forall (fun l => List.length l = 3) [r_s (res0 [0%Qc]); r_WP (res0 [0%Qc]); r_WPx (res0 [0%Qc]); r_lambdas (res0 [0%Qc])] /\
  exists fs', save_results demo false "results/" (res0 [0%Qc]) [] = Ok fs' /\ map fst fs' = ["results/WP.txt"; "results/lambda.txt"; "results/Z.txt"; "results/spectrum.txt"].
Proof. repeat split; [repeat constructor|]. eexists. split; vm_compute; reflexivity. Qed.
