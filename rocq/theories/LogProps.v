(** Properties C114 and C115: the log of a run. *)
From Coq Require Import List Arith ZArith Bool String Lia QArith Qcanon Reals Lra.
From Verif Require Import Num Vec FieldModel GridModel SolverModel SolverCons SolverBuild SolverTime SolverMaterials GridFileModel GridProofs GridProofs2
  MpiModel MpiSolverModel WakeModel WakeNum SourceModel SolverKit GridInitModel GridInitProofs GridInitProps LogModel LogProofs.
Import ListNotations.
Open Scope string_scope.
Open Scope nat_scope.

(** ** C114: what the file shows *)
(** Values that an array of real numbers, integers, booleans or strings holds. *)
Fixpoint plain {T} (v : pv T) : Prop :=
  match v with
  | VBool _ | VInt _ | VFloat _ | VInf | VStr _ => True
  | VList l => (fix go l := match l with [] => True | a :: r => plain a /\ go r end) l
  | _ => False
  end.
(** Values whose dicts have strings as keys and whose arrays are of these kinds. *)
Fixpoint loggable {T} (v : pv T) : Prop :=
  match v with
  | VArray a => plain a
  | VList l | VTuple l => (fix go l := match l with [] => True | a :: r => loggable a /\ go r end) l
  | VDict d => (fix go d := match d with [] => True | (k, a) :: r => (exists s, k = KStr s) /\ loggable a /\ go r end) d
  | _ => True
  end.
(** The text that stands for a value: itself, as a list for tuples and arrays, as its str() for other objects. *)
Inductive shows {T} : pv T -> json T -> Prop :=
| sh_none : shows VNone JNull | sh_bool b : shows (VBool b) (JBool b) | sh_int z : shows (VInt z) (JInt z)
| sh_float x : shows (VFloat x) (JFloat x) | sh_inf : shows VInf JInf | sh_str s : shows (VStr s) (JStr s) | sh_obj s : shows (VObj s) (JStr s)
| sh_list l r : Forall2 shows l r -> shows (VList l) (JList r)
| sh_tuple l r : Forall2 shows l r -> shows (VTuple l) (JList r)
| sh_dict d r : Forall2 (fun a b => fst a = KStr (fst b) /\ shows (snd a) (snd b)) d r -> shows (VDict d) (JObj r)
| sh_array v j : shows v j -> shows (VArray v) j.

Lemma plain_dumps {T} (v : pv T) : plain v -> exists j, dumps v = Ok j /\ shows v j.
Proof.
  revert v. apply (pv_all (fun v => plain v -> exists j, dumps v = Ok j /\ shows v j)); try (intros; cbn in *; contradiction);
    try (intros; eexists; split; [reflexivity|constructor]).
  intros l F H. rewrite dumps_list. destruct (all_ok_forall2 dumps shows l) as (r & E & Q).
  - induction F as [|a l Ha F IH]; constructor; [apply Ha, H|apply IH, H].
  - rewrite E. exists (JList r). split; [reflexivity|constructor; exact Q].
Qed.
Lemma convert_list {T} (l : list (pv T)) : Forall (fun v => exists j, dumps (convert v) = Ok j /\ shows v j) l ->
  exists r, all_ok dumps (map convert l) = Ok r /\ Forall2 shows l r.
Proof.
  induction 1 as [|a l (j & E & S) _ (r & Er & F)]; [exists []; auto|]. exists (j :: r). cbn [map all_ok]. rewrite E, Er. auto.
Qed.
Lemma convert_dict {T} (d : list (key * pv T)) : Forall (fun a => (exists s, fst a = KStr s) /\ exists j, dumps (convert (snd a)) = Ok j /\ shows (snd a) j) d ->
  exists r, all_ok dump_item (map (fun a => (fst a, convert (snd a))) d) = Ok r /\ Forall2 (fun a b => fst a = KStr (fst b) /\ shows (snd a) (snd b)) d r.
Proof.
  induction 1 as [|[k v] d ((s & K) & j & E & S) _ (r & Er & F)]; [exists []; auto|]. cbn [fst snd] in *. subst k.
  exists ((s, j) :: r). cbn [map all_ok]. unfold dump_item at 1. cbn [fst snd]. rewrite E, Er. split; [reflexivity|]. constructor; [auto|exact F].
Qed.
Lemma convert_dumps {T} (v : pv T) : loggable v -> exists j, dumps (convert v) = Ok j /\ shows v j.
Proof.
  revert v. apply (pv_all (fun v => loggable v -> exists j, dumps (convert v) = Ok j /\ shows v j));
    try (intros; eexists; split; [reflexivity|constructor]).
  - intros l F H. cbn [convert]. rewrite dumps_list. destruct (convert_list l) as (r & E & Q).
    + induction F as [|a l Ha F IH]; constructor; [apply Ha, H|apply IH, H].
    + rewrite E. exists (JList r). split; [reflexivity|constructor; exact Q].
  - intros l F H. cbn [convert]. rewrite dumps_list. destruct (convert_list l) as (r & E & Q).
    + induction F as [|a l Ha F IH]; constructor; [apply Ha, H|apply IH, H].
    + rewrite E. exists (JList r). split; [reflexivity|constructor; exact Q].
  - intros d F H. cbn [convert]. rewrite dumps_dict. destruct (convert_dict d) as (r & E & Q).
    + induction F as [|[k a] d Ha F IH]; constructor; [split; [apply H|apply Ha, H]|apply IH, H].
    + rewrite E. exists (JObj r). split; [reflexivity|constructor; exact Q].
  - intros v _ H. cbn [convert]. destruct (plain_dumps v H) as (j & E & S). exists j. split; [exact E|constructor; exact S].
Qed.
(** A section of the file. *)
Definition section_of {T} (d : log T) (e : entry T) : Prop :=
  match d with [] => e = Empty | _ => exists j, e = Full j /\ shows (VDict d) j end.
Lemma sections_all {T} (l : list (string * log T)) : Forall (fun a => loggable (VDict (snd a))) l ->
  exists c, sections l = (c, None) /\ Forall2 (fun a b => fst b = fst a /\ section_of (snd a) (snd b)) l c.
Proof.
  induction 1 as [|[t d] l H _ (c & E & F)]; [exists []; auto|]. cbn [snd] in H. cbn [sections]. destruct d as [|a d].
  - rewrite E. eexists. split; [reflexivity|]. constructor; [split; reflexivity|exact F].
  - destruct (convert_dumps _ H) as (j & Ej & S). rewrite Ej, E. eexists. split; [reflexivity|]. constructor; [|exact F]. split; [reflexivity|]. exists j. auto.
Qed.
(** The folder is there or can be made by one mkdir, and the log has values of the kinds above: no error, and the file in the folder
    shows the three logs, with the folder, in this order; other folders and files are as before. *)
Theorem C114_written_partial : forall (T : Type) (split : string -> list string) (lg : Logger T) f (k : Disk T),
  loggable (VDict (lwake lg)) -> loggable (VDict (lsolver lg)) -> loggable (VDict (lgrid lg)) ->
  In (split f) (dirs k) \/ In (removelast (split f)) (dirs k) ->
  exists k' lg' w s g, save_logs split lg (Some f) k = (k', lg', None) /\
    In (split f, [("WakeSolver Logs", w); ("Solver Logs", s); ("Grid Logs", g)]) (logs k') /\
    (forall c, In (split f, c) (logs k') -> c = [("WakeSolver Logs", w); ("Solver Logs", s); ("Grid Logs", g)]) /\
    section_of (lwake lg') w /\ section_of (lsolver lg) s /\ section_of (lgrid lg) g /\
    (forall t, log_get (lwake lg') t = if String.eqb t "results_folder" then Some (VStr f) else log_get (lwake lg) t) /\
    (forall p c, p <> split f -> In (p, c) (logs k') <-> In (p, c) (logs k)) /\
    (forall p, In p (dirs k') <-> In p (dirs k) \/ p = split f).
Proof.
  intros T split lg f k Hw Hs Hg Hd. unfold save_logs. cbn [lgrid lsolver lwake].
  assert (G : forall t, log_get (log_set (lwake lg) "results_folder" (VStr f)) t = if String.eqb t "results_folder" then Some (VStr f) else log_get (lwake lg) t) by (intros t; apply log_get_set).
  set (w' := log_set (lwake lg) "results_folder" (VStr f)) in *.
  assert (Hw' : loggable (VDict w')).
  { unfold w'. clear - Hw. induction (lwake lg) as [|[c a] d IH]; cbn in *; [eauto|]. destruct Hw as (A & B & C).
    destruct (is_key "results_folder" c); [exact (conj A (conj I C))|exact (conj A (conj B (IH C)))]. }
  rewrite G, String.eqb_refl.
  assert (D : exists k1, (if has_dir k (split f) then Ok k else mkdir k (split f)) = Ok k1 /\ logs k1 = logs k /\ (forall p, In p (dirs k1) <-> In p (dirs k) \/ p = split f)).
  { assert (B : forall p, has_dir k p = true <-> In p (dirs k)).
    { intros p. unfold has_dir. rewrite existsb_exists. split; [intros (x & I & E); destruct (list_eq_dec string_dec p x) as [->|]; [exact I|discriminate]|].
      intros I. exists p. split; [exact I|]. destruct (list_eq_dec string_dec p p); [reflexivity|congruence]. }
    destruct (has_dir k (split f)) eqn:E.
    - exists k. split; [reflexivity|]. split; [reflexivity|]. apply B in E. intros p. split; [auto|]. intros [I| ->]; assumption.
    - destruct Hd as [I|I]; [apply B in I; congruence|]. apply B in I. unfold mkdir. rewrite I. eexists. split; [reflexivity|]. split; [reflexivity|].
      cbn. intros p. intuition congruence. }
  destruct D as (k1 & -> & Lk & Dk).
  destruct (sections_all [("WakeSolver Logs", w'); ("Solver Logs", lsolver lg); ("Grid Logs", lgrid lg)]) as (c & E & F); [repeat constructor; assumption|].
  rewrite E. inversion F as [|? [t1 e1] ? ? [T1 S1] F1]; subst. inversion F1 as [|? [t2 e2] ? ? [T2 S2] F2]; subst. inversion F2 as [|? [t3 e3] ? ? [T3 S3] F3]; subst. inversion F3; subst.
  cbn [fst snd] in *. subst. exists (write k1 (split f) [("WakeSolver Logs", e1); ("Solver Logs", e2); ("Grid Logs", e3)]). do 4 eexists. split; [reflexivity|]. cbn [lwake write logs dirs].
  split; [left; reflexivity|]. split.
  { intros c [H|H]; [injection H as <-; reflexivity|]. apply filter_In in H. destruct H as [_ H]. cbn [fst] in H. destruct (list_eq_dec string_dec (split f) (split f)); congruence. }
  split; [exact S1|]. split; [exact S2|]. split; [exact S3|]. split; [exact G|]. split; [|exact Dk].
  intros p c Np. rewrite Lk. split.
  - intros [H|H]; [injection H as H1 _; congruence|]. apply filter_In in H. apply H.
  - intros H. right. apply filter_In. split; [exact H|]. cbn [fst]. destruct (list_eq_dec string_dec (split f) p); congruence.
Qed.
Print Assumptions C114_written_partial.
Definition split1 (f : string) : list string := if String.eqb f "a/b" then ["a"; "b"] else if String.eqb f "" then [] else [f].
Definition logger1 (v : pv Qc) : Logger Qc :=
  {| lgrid := [(KStr "Nx", VInt 4); (KStr "dx", VArray (VList [VFloat (q 1 2); VFloat (q 1 4)]))]; lsolver := [(KStr "background", v)]; lwake := [] |}.
Definition disk1 : Disk Qc := {| dirs := [[]; ["results"]]; logs := [(["results"], [("WakeSolver Logs", Empty)])] |}.
Example C114_written_case : loggable (VDict (lsolver (logger1 (VTuple [VInf; VObj "<int64>"])))) /\ loggable (VDict (lgrid (logger1 VNone))) /\
  match save_logs split1 (logger1 (VTuple [VInf; VObj "<int64>"])) (Some "results") disk1 with
  | (k', _, None) => map snd (logs k') = [[("WakeSolver Logs", Full (JObj [("results_folder", JStr "results")]));
      ("Solver Logs", Full (JObj [("background", JList [JInf; JStr "<int64>"])])); ("Grid Logs", Full (JObj [("Nx", JInt 4); ("dx", JList [JFloat (q 1 2); JFloat (q 1 4)])]))]]
  | _ => False
  end.
Proof. split; [cbn; repeat split; eauto|]. split; [cbn; repeat split; eauto|]. vm_compute. reflexivity. Qed.
(** An array of complex numbers: TypeError, and the file that was there is replaced by one without the solver's and the grid's log. *)
Theorem C114_complex_refuted : exists (lg : Logger Qc) k k' lg' e, save_logs split1 lg (Some "results") k = (k', lg', Some e) /\
  lsolver lg = [(KStr "background", VArray (VList [VObj "(1+2j)"]))] /\
  In ["results"] (dirs k) /\ logs k' = [(["results"], [("WakeSolver Logs", Full (JObj [("results_folder", JStr "results")])); ("Solver Logs", Cut)])] /\ lgrid lg <> [].
Proof. exists (logger1 (VArray (VList [VObj "(1+2j)"]))), disk1. do 3 eexists. split; [vm_compute; reflexivity|]. split; [reflexivity|]. split; [cbn; auto|]. split; [reflexivity|discriminate]. Qed.
Print Assumptions C114_complex_refuted.
(** A folder inside one that does not exist: the documentation says it is created; nothing is written. *)
Theorem C114_nested_folder_refuted : exists (lg : Logger Qc) k lg' e, save_logs split1 lg (Some "a/b") k = (k, lg', Some e) /\
  loggable (VDict (lsolver lg)) /\ loggable (VDict (lgrid lg)) /\ In [] (dirs k).
Proof. exists (logger1 VNone), disk1. do 2 eexists. split; [vm_compute; reflexivity|]. cbn. repeat split; eauto. Qed.
Print Assumptions C114_nested_folder_refuted.
(** Without a folder in the call or in the wake log: KeyError, nothing written. *)
Theorem C114_no_folder_fails : forall (T : Type) (split : string -> list string) (lg : Logger T) k,
  (forall v, ~ In (KStr "results_folder", v) (lwake lg)) -> save_logs split lg None k = (k, lg, Some KeyError).
Proof.
  intros T split lg k H. unfold save_logs. assert (E : log_get (lwake lg) "results_folder" = None).
  { induction (lwake lg) as [|[[s|] v] d IH]; [reflexivity| |]; cbn [log_get is_key].
    - destruct (String.eqb_spec "results_folder" s) as [<-|]; [exfalso; apply (H v); left; reflexivity|]. apply IH. intros w Hw. apply (H w). right. exact Hw.
    - apply IH. intros w Hw. apply (H w). right. exact Hw. }
  rewrite E. reflexivity.
Qed.
Print Assumptions C114_no_folder_fails.

(** ** C115: the log and the objects *)
Lemma linspace_ends (a b : R) n : 0 < n -> nth 0 (linspace a b n) 0%R = a /\ nth (List.length (linspace a b n) - 1) (linspace a b n) 0%R = b.
Proof.
  intros Hn. assert (N : INR n <> 0%R) by (apply not_0_INR; lia).
  assert (G : forall i, i <= n -> nth i (linspace a b n) 0%R = (a + INR i * ((b - a) / INR n))%R).
  { intros i Hi. change (nth i (linspace a b n) 0%R) with (get (linspace a b n) i). unfold linspace. rewrite get_tab by lia. rewrite !nofnat_INR. reflexivity. }
  unfold linspace at 2. rewrite tab_length, Nat.add_sub, !G by lia. split; [cbn; lra|]. field. exact N.
Qed.
Lemma item_nth (x : list R) i v : item x i = Ok v -> nth i x 0%R = v.
Proof. unfold item. destruct (nth_error x i) eqn:E; cbn; [|discriminate]. intros H. injection H as <-. apply nth_error_nth, E. Qed.
Lemma axes_ends (a : GiArgs R) lo hi x y z : first_axes a = Ok (lo, hi, (x, y, z)) ->
  (forall nx ny nz, ga_N a = (Some nx, Some ny, Some nz) -> 0 < nx /\ 0 < ny /\ 0 < nz) ->
  (px lo = nth 0 x 0%R /\ px hi = nth (List.length x - 1) x 0%R) /\ (py lo = nth 0 y 0%R /\ py hi = nth (List.length y - 1) y 0%R) /\
  (pz lo = nth 0 z 0%R /\ pz hi = nth (List.length z - 1) z 0%R).
Proof.
  intros H Hn. unfold first_axes in H.
  assert (U : forall r, (match ga_min a, ga_max a with
    | (Some x0, Some y0, Some z0), (Some x1, Some y1, Some z1) =>
        match ga_N a with
        | (Some nx, Some ny, Some nz) => Ok ((x0, y0, z0), (x1, y1, z1), (linspace x0 x1 nx, linspace y0 y1 ny, linspace z0 z1 nz))
        | _ => Err TypeError
        end
    | _, _ => Err ValueError
    end) = Ok r -> r = (lo, hi, (x, y, z)) -> (px lo = nth 0 x 0%R /\ px hi = nth (List.length x - 1) x 0%R) /\
      (py lo = nth 0 y 0%R /\ py hi = nth (List.length y - 1) y 0%R) /\ (pz lo = nth 0 z 0%R /\ pz hi = nth (List.length z - 1) z 0%R)).
  { intros r E ->. destruct (ga_min a) as [[[x0|] [y0|]] [z0|]]; try discriminate E. destruct (ga_max a) as [[[x1|] [y1|]] [z1|]]; try discriminate E.
    destruct (ga_N a) as [[[nx|] [ny|]] [nz|]]; try discriminate E. destruct (Hn nx ny nz eq_refl) as (Nx & Ny & Nz). injection E as <- <- <- <- <-. cbn [px py pz fst snd].
    destruct (linspace_ends x0 x1 nx Nx) as [-> ->]. destruct (linspace_ends y0 y1 ny Ny) as [-> ->]. destruct (linspace_ends z0 z1 nz Nz) as [-> ->]. auto 10. }
  destruct (ga_axes a) as [[[xa|] [ya|]] [za|]]; try (apply (U _ H eq_refl)).
  binv H u0 U0. binv H u1 U1. binv H v0 V0. binv H v1 V1. binv H w0 W0. binv H w1 W1. destruct (ga_mpi a); [discriminate|]. injection H as <- <- <- <- <-.
  cbn [px py pz fst snd]. rewrite (item_nth _ _ _ U0), (item_nth _ _ _ U1), (item_nth _ _ _ V0), (item_nth _ _ _ V1), (item_nth _ _ _ W0), (item_nth _ _ _ W1). auto 10.
Qed.
(** No refinement and no subdivision: the counts, sizes and bounds in the log are those of the grid; solids and materials are those given, and a
    rotation, translation or scale is missing only if it is the neutral one. *)
Theorem C115_grid_partial : forall file edges round5 lsq inside (a : GiArgs R) o,
  init file edges round5 lsq inside a = Ok o -> ga_refine a = false -> ga_mpi a = None ->
  (forall nx ny nz, ga_N a = (Some nx, Some ny, Some nz) -> 0 < nx /\ 0 < ny /\ 0 < nz) ->
  exists l, log_grid a = Ok l /\ let g := gi_grid o in
    log_get l "Nx" = Some (VInt (Z.of_nat (gNx g))) /\ log_get l "Ny" = Some (VInt (Z.of_nat (gNy g))) /\ log_get l "Nz" = Some (VInt (Z.of_nat (gNz g))) /\
    log_get l "dx" = Some (VArray (VList (map (fun x => VFloat x) (diff (gx g))))) /\
    log_get l "dy" = Some (VArray (VList (map (fun x => VFloat x) (diff (gy g))))) /\
    log_get l "dz" = Some (VArray (VList (map (fun x => VFloat x) (diff (gz g))))) /\
    log_get l "xmin" = Some (VFloat (nth 0 (gx g) 0%R)) /\ log_get l "xmax" = Some (VFloat (nth (gNx g) (gx g) 0%R)) /\
    log_get l "ymin" = Some (VFloat (nth 0 (gy g) 0%R)) /\ log_get l "ymax" = Some (VFloat (nth (gNy g) (gy g) 0%R)) /\
    log_get l "zmin" = Some (VFloat (nth 0 (gz g) 0%R)) /\ log_get l "zmax" = Some (VFloat (nth (gNz g) (gz g) 0%R)) /\
    log_get l "stl_solids" = Some (match ga_solids a with None => VNone | Some (SoStr f) => VStr f | Some (SoDict d) => VDict (map (fun b => (KStr (fst b), VStr (snd b))) d) | Some SoOther => VObj EmptyString end) /\
    log_get l "use_mesh_refinement" = Some (VBool false) /\
    (log_get l "stl_rotate" = None <-> ga_rotate a = Same (0, 0, 0)%R) /\ (log_get l "stl_translate" = None <-> ga_translate a = Same (0, 0, 0)%R) /\
    (log_get l "stl_scale" = None <-> ga_scale a = Same (Sc1 1%R)).
Proof.
  intros file edges round5 lsq inside a o H Hr Hm Hn. destruct (init_inv file edges round5 lsq inside a o H) as (lo & hi & x & y & z & A & _ & B).
  rewrite Hr, Hm in B. destruct B as (Gx & Gy & Gz). unfold log_grid. rewrite A. cbn [bind]. eexists. split; [reflexivity|]. cbn zeta.
  assert (V0 : forall p : per (vec3 R), given_vec p = false <-> p = Same (0, 0, 0)%R).
  { intros [[[u v] w]|d]; cbn [given_vec zero3 px py pz fst snd]; [|split; discriminate]. split.
    - intros F. apply negb_false_iff in F. unfold zero3 in F. cbn [px py pz fst snd] in F. apply andb_true_iff in F. destruct F as [F F3]. apply andb_true_iff in F. destruct F as [F1 F2].
      apply neqb_eq in F1, F2, F3. cbn in F1, F2, F3. subst. reflexivity.
    - intros F. injection F as -> -> ->. unfold zero3. cbn [px py pz fst snd]. change 0%R with (nzero (T := R)). rewrite !(proj2 (neqb_eq _ _) eq_refl). reflexivity. }
  assert (S0 : given_scale (ga_scale a) = false <-> ga_scale a = Same (Sc1 1%R)).
  { destruct (ga_scale a) as [[s|p]|d]; cbn [given_scale]; [|split; discriminate|split; discriminate]. split.
    - intros F. apply negb_false_iff in F. apply neqb_eq in F. cbn in F. subst. reflexivity.
    - intros F. injection F as ->. change 1%R with (none_ (T := R)). rewrite (proj2 (neqb_eq _ _) eq_refl). reflexivity. }
  rewrite <- (V0 (ga_rotate a)), <- (V0 (ga_translate a)), <- S0. unfold gNx, gNy, gNz. rewrite Gx, Gy, Gz.
  destruct (axes_ends a lo hi x y z A Hn) as ((-> & ->) & (-> & ->) & (-> & ->)). clear - Hr. rewrite !log_get_all.
  destruct (given_vec (ga_rotate a)), (given_vec (ga_translate a)), (given_scale (ga_scale a)); cbn [last_of app]; rewrite Hr; cbn; repeat split; try reflexivity; try discriminate; auto.
Qed.
Print Assumptions C115_grid_partial.
(** What was given for the solids, as it stands in the log: a vector or number for all, or one for each name. *)
Definition vec_text (p : vec3 R) : pv R := VList [VFloat (px p); VFloat (py p); VFloat (pz p)].
Definition num_text (n : pynum R) : pv R := match n with PFin x => VFloat x | _ => VInf end.
Theorem C115_solids : forall (a : GiArgs R) l, log_grid a = Ok l ->
  log_get l "stl_materials" = Some (match ga_mats a with
    | None => VNone
    | Some d => VDict (map (fun b => (KStr (fst b), match snd b with PName s => VStr s | PList v => VList (map num_text v) end)) d)
    end) /\
  (forall v, ga_rotate a = Same v -> v <> (0, 0, 0)%R -> log_get l "stl_rotate" = Some (vec_text v)) /\
  (forall d, ga_rotate a = Each d -> log_get l "stl_rotate" = Some (VDict (map (fun b => (KStr (fst b), vec_text (snd b))) d))) /\
  (forall v, ga_translate a = Same v -> v <> (0, 0, 0)%R -> log_get l "stl_translate" = Some (vec_text v)) /\
  (forall d, ga_translate a = Each d -> log_get l "stl_translate" = Some (VDict (map (fun b => (KStr (fst b), vec_text (snd b))) d))) /\
  (forall x, ga_scale a = Same (Sc1 x) -> x <> 1%R -> log_get l "stl_scale" = Some (VFloat x)) /\
  (forall v, ga_scale a = Same (Sc3 v) -> log_get l "stl_scale" = Some (vec_text v)) /\
  (forall d, ga_scale a = Each d -> log_get l "stl_scale" =
     Some (VDict (map (fun b => (KStr (fst b), match snd b with Sc1 x => VFloat x | Sc3 v => vec_text v end)) d))) /\
  log_get l "use_mesh_refinement" = Some (VBool (ga_refine a)).
Proof.
  intros a l H. unfold log_grid in H. binv H b Hb. destruct b as [[lo hi] [[x y] z]]. injection H as <-. rewrite !log_get_all.
  assert (V0 : forall p : vec3 R, p <> (0, 0, 0)%R -> given_vec (Same p) = true).
  { intros [[u v] w] N. apply not_false_is_true. intros E. apply N. cbn [given_vec] in E. apply negb_false_iff in E. unfold zero3 in E. cbn [px py pz fst snd] in E.
    apply andb_true_iff in E. destruct E as [F F3]. apply andb_true_iff in F. destruct F as [F1 F2]. apply neqb_eq in F1, F2, F3. cbn in F1, F2, F3. subst. reflexivity. }
  assert (S0 : forall s : R, s <> 1%R -> given_scale (Same (Sc1 s)) = true).
  { intros s N. apply not_false_is_true. intros E. apply N. cbn [given_scale] in E. apply negb_false_iff in E. apply neqb_eq in E. exact E. }
  assert (Mt : v_mats (ga_mats a) = match ga_mats a with
    | None => VNone | Some d => VDict (map (fun b => (KStr (fst b), match snd b with PName s => VStr s | PList v => VList (map num_text v) end)) d) end) by (destruct (ga_mats a); reflexivity).
  split; [rewrite <- Mt; destruct (given_vec (ga_rotate a)), (given_vec (ga_translate a)), (given_scale (ga_scale a)); reflexivity|].
  split; [intros v E N; rewrite E, (V0 v N); destruct (given_vec (ga_translate a)), (given_scale (ga_scale a)); reflexivity|].
  split; [intros d E; rewrite E; cbn [given_vec]; destruct (given_vec (ga_translate a)), (given_scale (ga_scale a)); reflexivity|].
  split; [intros v E N; rewrite E, (V0 v N); destruct (given_vec (ga_rotate a)), (given_scale (ga_scale a)); reflexivity|].
  split; [intros d E; rewrite E; cbn [given_vec]; destruct (given_vec (ga_rotate a)), (given_scale (ga_scale a)); reflexivity|].
  split; [intros v E N; rewrite E, (S0 v N); destruct (given_vec (ga_rotate a)), (given_vec (ga_translate a)); reflexivity|].
  split; [intros v E; rewrite E; cbn [given_scale]; destruct (given_vec (ga_rotate a)), (given_vec (ga_translate a)); reflexivity|].
  split; [intros d E; rewrite E; cbn [given_scale]; destruct (given_vec (ga_rotate a)), (given_vec (ga_translate a)); reflexivity|].
  destruct (given_vec (ga_rotate a)), (given_vec (ga_translate a)), (given_scale (ga_scale a)); reflexivity.
Qed.
Print Assumptions C115_solids.
Definition args_moved : GiArgs Qc :=
  {| ga_min := (Some (q 0 1), Some (q 0 1), Some (q 0 1)); ga_max := (Some (q 8 1), Some (q 8 1), Some (q 8 1));
     ga_N := (Some 4, Some 4, Some 4); ga_axes := (None, None, None); ga_mpi := None;
     ga_refine := true; ga_method := MInsert; ga_snaps := None; ga_snap_tol := q 1 10; ga_snap_solids := None;
     ga_solids := Some (SoDict [("box", "box.stl"); ("rod", "rod.stl")]%string);
     ga_mats := Some [("rod", PName "copper"); ("box", PList [NpInf; PFin (q 1 1)])]%string;
     ga_rotate := Each [("rod"%string, v3 0 0 90)]; ga_translate := Same (v3 0 1 0); ga_scale := Same (Sc1 (q 1 1));
     ga_colors := ColList [CName "red"]; ga_tol := q 1 1000 |}.
Example C115_solids_case : match log_grid args_moved with
  | Ok l => log_get l "stl_materials" = Some (VDict [(KStr "rod", VStr "copper"); (KStr "box", VList [VInf; VFloat (q 1 1)])]) /\
            log_get l "stl_rotate" = Some (VDict [(KStr "rod", VList [VFloat (q 0 1); VFloat (q 0 1); VFloat (q 90 1)])]) /\
            log_get l "stl_translate" = Some (VList [VFloat (q 0 1); VFloat (q 1 1); VFloat (q 0 1)]) /\ log_get l "stl_scale" = None
  | _ => False
  end.
Proof. vm_compute. auto. Qed.
(** With refinement the log has the counts before it. *)
Theorem C115_refined_refuted : exists (a : GiArgs Qc) o l, init0 a = Ok o /\ log_grid a = Ok l /\
  log_get l "Nz" = Some (VInt 4) /\ gNz (gi_grid o) = 3 /\ ga_mpi a = None.
Proof.
  exists (args0 true None). eexists. eexists. split; [vm_compute; reflexivity|]. split; [vm_compute; reflexivity|]. split; [reflexivity|]. split; reflexivity.
Qed.
Print Assumptions C115_refined_refuted.
Example C115_grid_case : match init0 (args0 false None), log_grid (args0 false None) with
  | Ok o, Ok l => gNz (gi_grid o) = 4 /\ log_get l "Nz" = Some (VInt 4) /\ log_get l "stl_rotate" = None /\ log_get l "zmax" = Some (VFloat (q 8 1))
  | _, _ => False
  end.
Proof. vm_compute. auto. Qed.
(** A constructed solver: the walls of the log are those given, the layers are there exactly with an absorbing wall, and the time step
    of the log is never below that of the solver; they agree if nothing conducts or if no relaxation time is shorter. *)
Theorem C115_solver_partial : forall env (g : Grid R) ar s g' gpu bg, grid_ok g -> construct env g ar = Ok (s, g') ->
  exists l dt, log_solver env g ar gpu bg = Ok l /\ log_get l "dt" = Some (VFloat dt) /\ (sdt s <= dt)%R /\
    (scond s = false \/ (forall n, (n < List.length (farr (ssigma s)))%nat -> get (farr (ssigma s)) n <> 0%R -> get (farr (sieps s)) n <> 0%R ->
       (dt <= / get (farr (sieps s)) n / get (farr (ssigma s)) n)%R) -> sdt s = dt) /\
    (forall d, ar_dt ar = Some d -> dt = d) /\
    log_get l "bc_low" = Some (VList [VStr (bcx (ar_bl ar)); VStr (bcy (ar_bl ar)); VStr (bcz (ar_bl ar))]) /\
    log_get l "bc_high" = Some (VList [VStr (bcx (ar_bh ar)); VStr (bcy (ar_bh ar)); VStr (bcz (ar_bh ar))]) /\
    log_get l "n_pml" = (if spml s then Some (VInt (Z.of_nat (ar_npml ar))) else None) /\
    log_get l "background" = Some bg /\ log_get l "use_gpu" = Some (VBool gpu) /\
    exists mpi, log_get l "use_mpi" = Some (VBool mpi) /\ (mpi = true <-> ar_mpi ar <> None).
Proof.
  intros env g ar s g' gpu bg Hg H. destruct (construct_spec env g ar s g' Hg H) as (bo & M & A & Eb & _ & _ & _ & (dt0 & D0 & D) & _ & _ & _ & _ & _ & _ & _ & _ & _ & Sc & _ & Sp & _).
  unfold log_solver. rewrite <- Eb, A. cbn [bind]. rewrite D0. cbn [bind]. eexists. exists dt0. split; [reflexivity|]. rewrite !log_get_all.
  destruct (relax_R _ _ _ _ _ D) as (L & Cf & _ & _). rewrite Sc.
  assert (L0 : forall t c, (if bo_pml bo then [("n_pml", VInt (T := R) (Z.of_nat (ar_npml ar)))] else []) = t ->
    last_of (t ++ [("dt", VFloat c)])%list "n_pml" = if spml s then Some (VInt (Z.of_nat (ar_npml ar))) else None).
  { intros t c <-. rewrite Sp. destruct (bo_pml bo); reflexivity. }
  split; [destruct (bo_pml bo); reflexivity|]. split; [exact L|]. split.
  - intros [E|E]; [apply Cf, E|]. unfold relax_dt in D. destruct (mt_cond M); [|injection D as <-; reflexivity]. binv D t Ht.
    destruct (np_min_R _ _ Ht) as [I _]. destruct (nltb t dt0) eqn:F; [|injection D as <-; reflexivity]. exfalso. apply nltb_R in F.
    unfold taus in I. apply in_flat_map in I. destruct I as [n [Hn I]]. unfold toarray in I, Hn. cbn zeta in I.
    destruct (neqb (get (farr (ssigma s)) n) nzero) eqn:E1; [destruct I|]. destruct (neqb (get (farr (sieps s)) n) nzero) eqn:E2; [destruct I|]. cbn [negb andb] in I. destruct I as [I|[]].
    apply neqb_neq in E1, E2. apply in_seq in Hn. specialize (E n ltac:(lia) E1 E2). cbn in I. unfold Rdiv in *. rewrite Rmult_1_l in I. lra.
  - split; [intros d Ed; rewrite Ed in D0; injection D0 as <-; reflexivity|].
    assert (Mp : exists mpi, Some (VBool (T := R) (match ar_mpi ar with Some _ => true | None => false end)) = Some (VBool mpi) /\ (mpi = true <-> ar_mpi ar <> None)).
    { eexists. split; [reflexivity|]. destruct (ar_mpi ar); split; congruence. }
    destruct (bo_pml bo); rewrite Sp; cbn; auto 12.
Qed.
Print Assumptions C115_solver_partial.
Definition slow_args : Args Qc := {| ar_bl := bcs "pec"; ar_bh := bcs "pec"; ar_bg := MList (Fin (q 1 1)) (Fin (q 1 1)) (Some (q 1 2)); ar_solids := [];
  ar_npml := 1; ar_cfln := q 1 2; ar_dt := Some (q 4 1); ar_mpi := None |}.
(** Conducting medium with a relaxation time of 2 and a time step of 4: the solver runs with 2, the log says 4. *)
Theorem C115_dt_refuted : exists s g' l, construct envQ gridQ slow_args = Ok (s, g') /\ log_solver envQ gridQ slow_args false VNone = Ok l /\
  log_get l "dt" = Some (VFloat (q 4 1)) /\ sdt s = q 2 1.
Proof.
  assert (H : match construct envQ gridQ slow_args with Ok (s, _) => Qeq_bool (this (sdt s)) 2 | Err _ => false end = true) by (vm_compute; reflexivity).
  destruct (construct envQ gridQ slow_args) as [[s g']|e]; [|discriminate H]. exists s, g'.
  assert (L : exists bo, apply_bc gridQ (bcs "pec") (bcs "pec") = Ok bo /\ bo_pml bo = false).
  { assert (K : match apply_bc gridQ (bcs "pec") (bcs "pec") with Ok bo => negb (bo_pml bo) | Err _ => false end = true) by (vm_compute; reflexivity).
    destruct (apply_bc gridQ (bcs "pec") (bcs "pec")) as [bo|]; [|discriminate K]. exists bo. split; [reflexivity|]. apply negb_true_iff, K. }
  destruct L as (bo & A & P). eexists. split; [reflexivity|]. unfold log_solver. cbn [slow_args ar_mpi mpi_bc ar_bl ar_bh ar_dt ar_npml]. rewrite A. cbn [bind]. rewrite P.
  split; [reflexivity|]. split; [reflexivity|]. apply Qc_is_canon. apply Qeq_bool_iff. exact H.
Qed.
Print Assumptions C115_dt_refuted.
Definition pml_args : Args Qc := argsQ (bcs "pec") (bcs "pml") (MList (Fin (q 1 1)) (Fin (q 1 1)) (Some (q 1 2))) [].
Example C115_solver_case : match construct envQ gridQ pml_args, log_solver envQ gridQ pml_args false (VStr "vacuum") with
  | Ok (s, _), Ok l => scond s && spml s && match log_get l "dt", log_get l "n_pml" with Some (VFloat d), Some (VInt 1) => Qeq_bool (this d) (this (sdt s)) | _, _ => false end = true
  | _, _ => False
  end.
Proof. vm_compute. reflexivity. Qed.
