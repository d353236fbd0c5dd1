(** Lemmas on emsolve over built solvers. *)
From Coq Require Import List Arith ZArith Bool String Lia.
From Verif Require Import Num Vec FieldModel FieldSpec FieldProofs FieldProofs2 GridModel GridProofs SolverModel SolverPlanes
  SolverBuild SolverKern SolverCons SolverOps SolverFrozen SolverTime SolverKit RoutinesModel RoutinesProofs.
Import ListNotations.

Section Run.
  Context {T : Type} {NT : Num T} {LT : NumLaws T} {OT : NumOrd T}.

  Lemma bind_ok {A} (r : result A) : (do x <- r; Ok x) = r.
  Proof. destruct r; reflexivity. Qed.
  Lemma bind_bind {A B C} (r : result A) (f : A -> result B) (h : B -> result C) :
    (do y <- (do x <- r; f x); h y) = (do x <- r; do y <- f x; h y).
  Proof. destruct r; reflexivity. Qed.
  Lemma bind_ext {A B} (r : result A) (f h : A -> result B) : (forall x, r = Ok x -> f x = h x) ->
    (do x <- r; f x) = (do x <- r; h x).
  Proof. intros H. destruct r; [apply H; reflexivity|reflexivity]. Qed.

  Lemma run_split h1 h2 (s : Solver T) : run s (h1 ++ h2) = (do s1 <- run s h1; run s1 h2).
  Proof. apply seq_upd_app. Qed.
  Lemma run_one (s : Solver T) : one_step s = run s [OStep].
  Proof. unfold run. cbn [seq_upd do_op]. symmetry. apply bind_ok. Qed.

  Lemma run_dt env g g' ar h (s s' : Solver T) : made env g g' ar s -> run s h = Ok s' ->
    made env g g' ar s' /\ sdt s' = sdt s /\ sabc s' = sabc s /\ sbl s' = sbl s /\ sbh s' = sbh s.
  Proof.
    revert s. induction h as [|o h IH]; intros s Hm R.
    - injection R as <-. auto.
    - unfold run in R. cbn [seq_upd] in R. binv R s1 E. fold (run s1 h) in R.
      destruct (do_op_conf _ s o s1 (made_good _ _ _ _ _ Hm) E) as
        (_ & _ & _ & _ & _ & _ & A & _ & B & C & D & _).
      destruct (IH s1 (made_op _ _ _ _ _ _ _ Hm E) R) as (H1 & H2 & H3 & H4 & H5).
      rewrite <- A, <- B, <- C, <- D. auto.
  Qed.

  (** The history of one emsolve call: source, step, callback. *)
  Definition schedule (dt : T) (src cb : T -> list (op T)) (ns : list nat) : list (op T) :=
    flat_map (fun n => src (nmul (nofnat n) dt) ++ [OStep] ++ cb (nmul (nofnat n) dt)) ns.

  Lemma em_loop env g g' ar src cb ds ns : forall (s : Solver T), made env g g' ar s -> sabc s = false ->
    seq_upd (em_iter (fun t s => run s (src t)) (fun t s => run s (cb t))) (s, ds) ns =
    (do s' <- run s (schedule (sdt s) src cb ns); Ok (s', ds)).
  Proof.
    induction ns as [|n ns IH]; intros s Hm Ha; [reflexivity|].
    cbn [seq_upd schedule flat_map]. fold (schedule (sdt s) src cb ns). rewrite !run_split, !bind_bind.
    unfold em_iter at 1. destruct ds as [d2 d1]. rewrite !bind_bind. apply bind_ext. intros s1 R1.
    destruct (run_dt _ _ _ _ _ _ _ Hm R1) as (M1 & D1 & A1 & _).
    rewrite run_split, run_one, !bind_bind. apply bind_ext. intros s2 R2.
    destruct (run_dt _ _ _ _ _ _ _ M1 R2) as (M2 & D2 & A2 & _).
    replace (sabc s2) with false by congruence. cbn [bind fst snd].
    replace (sdt s2) with (sdt s) by congruence. rewrite !bind_bind. apply bind_ext. intros s3 R3. cbn [bind].
    destruct (run_dt _ _ _ _ _ _ _ M2 R3) as (M3 & D3 & A3 & _).
    rewrite (IH s3 M3) by congruence. replace (sdt s3) with (sdt s) by congruence. reflexivity.
  Qed.

  Lemma emsolve_schedule env g g' ar (s : Solver T) src cb Nt : made env g g' ar s -> sabc s = false ->
    emsolve s {| em_Nt := Nt; em_src := fun t s => run s (src t); em_cb := fun t s => run s (cb t); em_save := None |} =
    run s (schedule (sdt s) src cb (seq 0 Nt)).
  Proof.
    intros Hm Ha. unfold emsolve. cbn [em_save em_Nt em_src em_cb bind]. rewrite Ha. cbn [bind].
    rewrite (em_loop env g g' ar) by assumption. rewrite bind_bind. apply bind_ok.
  Qed.

  (** ** Absorbing walls *)
  Definition abc_low_wide (g : Grid T) (s : Solver T) : Prop :=
    forall a, a < 3 -> is_abc s (false, a) = true -> 2 <= dim a (gNx g) (gNy g) (gNz g).

  Lemma made_fit env g g' ar (s : Solver T) : made env g g' ar s -> abc_low_wide g s ->
    abc_fit (gNx g) (gNy g) (gNz g) s.
  Proof.
    intros Hm Hw. pose proof (made_good _ _ _ _ _ Hm) as G.
    split; [exact (gd_E _ _ G)|]. split; [exact (gd_H _ _ G)|].
    split; [exact (gd_px _ _ G)|]. split; [exact (gd_py _ _ G)|]. split; [exact (gd_pz _ _ G)|]. exact Hw.
  Qed.

  Lemma made_sabc env g g' ar (s : Solver T) : made env g g' ar s -> sabc s = existsb (is_abc s) abc_faces.
  Proof.
    intros Hm. destruct (made_values _ _ _ _ _ Hm) as (M & bo & Hb & _ & _ & _ & _ & _ & Ha & _).
    rewrite Ha. assert (P := made_grid _ _ _ _ _ Hm).
    unfold apply_bc in Hb. binv Hb x0 e0. binv Hb x1 e1. binv Hb x2 e2. binv Hb x3 e3. injection Hb as <-.
    cbn [bo_abc]. unfold any_bc, axes, abc_faces. cbn [existsb]. unfold is_abc. cbn [fst snd].
    rewrite ?orb_false_r, !orb_assoc. reflexivity.
  Qed.

  Lemma fromarray_self (F G : Field T) Nx Ny Nz : sized F Nx Ny Nz -> sized G Nx Ny Nz ->
    fromarray F (farr G) = Ok G.
  Proof.
    intros (W1 & a1 & b1 & c1) (W2 & a2 & b2 & c2). unfold fromarray, wf in *.
    destruct F as [nx ny nz af], G as [mx my mz ag]; cbn in *. subst.
    rewrite W1, W2, Nat.eqb_refl. reflexivity.
  Qed.

  (** Overwriting the walls is a history of two writes. *)
  Lemma made_same_conf env g g' ar (s s' : Solver T) : made env g g' ar s -> same_conf s s' ->
    sized (sE s') (gNx g) (gNy g) (gNz g) -> sized (sH s') (gNx g) (gNy g) (gNz g) ->
    made env g g' ar s'.
  Proof.
    intros Hm C HE HH. pose proof (made_good _ _ _ _ _ Hm) as G.
    apply (made_op _ _ _ _ (with_fields s (sE s') (sH s) (sJ s)) (OWriteH (farr (sH s')))).
    - apply (made_op _ _ _ _ s (OWriteE (farr (sE s')))); [exact Hm|]. cbn [do_op].
      rewrite (fromarray_self _ _ _ _ _ (gd_E _ _ G) HE). reflexivity.
    - cbn [do_op with_fields sH]. rewrite (fromarray_self _ _ _ _ _ (gd_H _ _ G) HH).
      cbn [bind]. unfold same_conf in C. apply f_equal. symmetry. exact C.
  Qed.

  Lemma get_abc_conf Nx Ny Nz (s s' : Solver T) : abc_fit Nx Ny Nz s -> abc_fit Nx Ny Nz s' ->
    (forall f, is_abc s' f = is_abc s f) -> get_abc s' = get_abc s.
  Proof.
    intros W W' H. unfold get_abc. fold (get_step s) (get_step s'). unfold abc_faces. cbn [seq_upd].
    repeat (rewrite (get_step_ok Nx Ny Nz s) by (assumption || (cbn; lia)); cbn [bind]).
    repeat (rewrite (get_step_ok Nx Ny Nz s') by (assumption || (cbn; lia)); cbn [bind]).
    rewrite !H. reflexivity.
  Qed.

  Lemma step_abc env g g' ar (s s1 : Solver T) : made env g g' ar s -> one_step s = Ok s1 ->
    made env g g' ar s1 /\ sdt s1 = sdt s /\ sabc s1 = sabc s /\ forall f, is_abc s1 f = is_abc s f.
  Proof.
    intros Hm E. rewrite run_one in E. destruct (run_dt _ _ _ _ _ _ _ Hm E) as (M & D & A & B & C).
    split; [exact M|]. split; [exact D|]. split; [exact A|]. intros f. unfold is_abc. rewrite B, C. reflexivity.
  Qed.
  Lemma step_total env g g' ar (s : Solver T) : made env g g' ar s -> exists s1, one_step s = Ok s1.
  Proof.
    intros Hm. destruct (run_total _ _ _ _ s [OStep] Hm) as (s1 & R & _); [repeat constructor|].
    exists s1. rewrite run_one. exact R.
  Qed.
  Lemma wide_same g (s s1 : Solver T) : (forall f, is_abc s1 f = is_abc s f) -> abc_low_wide g s -> abc_low_wide g s1.
  Proof. intros H W a Ha. rewrite H. apply W. exact Ha. Qed.

  (** One iteration of the plain loop. *)
  Definition plain (st : Solver T * (AbcDict * AbcDict)) (n : nat) :=
    em_iter (em_src (em_plain 0)) (em_cb (em_plain 0)) st n.

  Lemma plain_iter env g g' ar (s s1 : Solver T) D n : made env g g' ar s -> abc_low_wide g s -> sabc s = true ->
    get_abc s = Ok D -> one_step s = Ok s1 ->
    plain (s, (D, D)) n = (do s2 <- update_abc s1 D; Ok (s2, (D, D))).
  Proof.
    intros Hm W Ha HD E. unfold plain, em_iter. cbn [em_plain em_src em_cb bind]. rewrite E. cbn [bind].
    destruct (step_abc _ _ _ _ _ _ Hm E) as (M1 & _ & A1 & F1). rewrite A1, Ha.
    rewrite !bind_bind. apply bind_ext. intros s2 U.
    assert (X : same_conf s1 s2 /\ abc_fit (gNx g) (gNy g) (gNz g) s2).
    { pose proof (made_fit _ _ _ _ _ M1 (wide_same g s s1 F1 W)) as W1.
      destruct (get_abc_ok _ _ _ _ (made_fit _ _ _ _ _ Hm W)) as (D' & E' & P). rewrite HD in E'. injection E' as <-.
      assert (P1 : dict_for s1 D) by (intros a Ha1; rewrite !F1; apply P; exact Ha1).
      destruct (existsb (fun a => is_abc s1 (false, a) && is_abc s1 (true, a)) axes) eqn:Eb.
      - apply existsb_exists in Eb. destruct Eb as (a & Hin & Hb). apply andb_true_iff in Hb.
        rewrite (update_abc_key (gNx g) (gNy g) (gNz g) s1 D W1 P1) in U; [discriminate|].
        exists a. split; [unfold axes in Hin; cbn in Hin; lia|exact Hb].
      - destruct (update_abc_ok (gNx g) (gNy g) (gNz g) s1 D W1) as (s2' & E2 & C2 & W2 & _); [|exact P1|].
        + intros a Ha1 Hl. destruct (is_abc s1 (true, a)) eqn:Eh; [|reflexivity].
          assert (existsb (fun a => is_abc s1 (false, a) && is_abc s1 (true, a)) axes = true); [|congruence].
          apply existsb_exists. exists a. split; [unfold axes; cbn; lia|]. rewrite Hl, Eh. reflexivity.
        + rewrite E2 in U. injection U as <-. auto. }
    destruct X as [C2 W2].
    assert (G2 : get_abc s2 = Ok D).
    { rewrite <- HD. apply (get_abc_conf (gNx g) (gNy g) (gNz g)); [exact (made_fit _ _ _ _ _ Hm W)|exact W2|].
      intros f. rewrite (same_conf_abc s1 s2 C2). apply F1. }
    rewrite G2. reflexivity.
  Qed.

  Lemma plain_keep env g g' ar (s : Solver T) D n st : made env g g' ar s -> abc_low_wide g s -> sabc s = true ->
    get_abc s = Ok D -> plain (s, (D, D)) n = Ok st ->
    exists s', st = (s', (D, D)) /\ made env g g' ar s' /\ abc_low_wide g s' /\ sabc s' = true /\ get_abc s' = Ok D.
  Proof.
    intros Hm W Ha HD E. destruct (step_total _ _ _ _ s Hm) as (s1 & E1).
    rewrite (plain_iter _ _ _ _ s s1 D n Hm W Ha HD E1) in E. binv E s2 U. injection E as <-.
    destruct (step_abc _ _ _ _ _ _ Hm E1) as (M1 & _ & A1 & F1).
    assert (W1 := made_fit _ _ _ _ _ M1 (wide_same g s s1 F1 W)).
    destruct (get_abc_ok _ _ _ _ (made_fit _ _ _ _ _ Hm W)) as (D' & E' & P). rewrite HD in E'. injection E' as <-.
    assert (P1 : dict_for s1 D) by (intros a Ha1; rewrite !F1; apply P; exact Ha1).
    exists s2. split; [reflexivity|].
    assert (O : one_sided s1).
    { intros a Ha1 Hl. destruct (is_abc s1 (true, a)) eqn:Eh; [|reflexivity].
      rewrite (update_abc_key (gNx g) (gNy g) (gNz g) s1 D W1 P1) in U; [discriminate|]. exists a. auto. }
    destruct (update_abc_ok (gNx g) (gNy g) (gNz g) s1 D W1 O P1) as (s2' & E2 & C2 & W2 & _).
    rewrite E2 in U. injection U as ->.
    assert (M2 : made env g g' ar s2).
    { apply (made_same_conf _ _ _ _ s1 s2 M1 C2); [exact (proj1 W2)|exact (proj1 (proj2 W2))]. }
    assert (F2 : forall f, is_abc s2 f = is_abc s f) by (intros f; rewrite (same_conf_abc s1 s2 C2); apply F1).
    split; [exact M2|]. split; [exact (wide_same g s s2 F2 W)|]. split.
    - unfold same_conf in C2. rewrite C2. cbn [with_fields sabc]. congruence.
    - rewrite <- HD. apply (get_abc_conf (gNx g) (gNy g) (gNz g)); [exact (made_fit _ _ _ _ _ Hm W)|exact W2|exact F2].
  Qed.

  Lemma plain_shift ns ms : List.length ns = List.length ms -> forall st, seq_upd plain st ns = seq_upd plain st ms.
  Proof.
    revert ms. induction ns as [|n ns IH]; intros [|m ms] L st; try discriminate; [reflexivity|].
    injection L as L. cbn [seq_upd]. change (plain st m) with (plain st n). apply bind_ext. intros st' _. apply IH. exact L.
  Qed.

  Lemma plain_keeps env g g' ar D ns : forall (s : Solver T) st, made env g g' ar s -> abc_low_wide g s -> sabc s = true ->
    get_abc s = Ok D -> seq_upd plain (s, (D, D)) ns = Ok st ->
    exists s', st = (s', (D, D)) /\ made env g g' ar s' /\ abc_low_wide g s' /\ sabc s' = true /\ get_abc s' = Ok D.
  Proof.
    induction ns as [|n ns IH]; intros s st Hm W Ha HD E; cbn [seq_upd] in E.
    - injection E as <-. exists s. auto.
    - binv E st1 E1. destruct (plain_keep _ _ _ _ _ _ _ _ Hm W Ha HD E1) as (s1 & -> & M1 & W1 & A1 & D1).
      exact (IH s1 st M1 W1 A1 D1 E).
  Qed.

  Lemma emsolve_plain_abc (s : Solver T) D Nt : sabc s = true -> get_abc s = Ok D ->
    emsolve s (em_plain Nt) = (do st <- seq_upd plain (s, (D, D)) (seq 0 Nt); Ok (fst st)).
  Proof. intros Ha HD. unfold emsolve. cbn [em_plain em_save bind]. rewrite Ha, HD. reflexivity. Qed.

  (** emsolve for a+b steps is emsolve for a steps then for b steps. *)
  Lemma emsolve_add env g g' ar (s : Solver T) a b : made env g g' ar s -> abc_low_wide g s ->
    emsolve s (em_plain (a + b)) = (do s1 <- emsolve s (em_plain a); emsolve s1 (em_plain b)).
  Proof.
    intros Hm W. destruct (sabc s) eqn:Ha.
    - destruct (get_abc_ok _ _ _ _ (made_fit _ _ _ _ _ Hm W)) as (D & HD & _).
      rewrite !(emsolve_plain_abc s D) by assumption. rewrite seq_app, seq_upd_app, !bind_bind.
      apply bind_ext. intros st E. destruct (plain_keeps _ _ _ _ _ _ _ _ Hm W Ha HD E) as (s1 & -> & M1 & W1 & A1 & D1).
      cbn [bind fst]. rewrite (emsolve_plain_abc s1 D) by assumption.
      rewrite (plain_shift (seq (0 + a) b) (seq 0 b)) by (rewrite !seq_length; reflexivity). reflexivity.
    - pose (none := fun _ : T => @nil (op T)).
      assert (X : forall (t : Solver T) n, emsolve t (em_plain n) =
        emsolve t {| em_Nt := n; em_src := fun x t => run t (none x); em_cb := fun x t => run t (none x); em_save := None |})
        by reflexivity.
      rewrite !X, !(emsolve_schedule env g g' ar) by assumption.
      assert (Y : forall ns, schedule (sdt s) none none ns = repeat OStep (List.length ns))
        by (induction ns as [|n ns IH]; [reflexivity|
          change (OStep :: schedule (sdt s) none none ns = OStep :: repeat OStep (List.length ns)); rewrite IH; reflexivity]).
      rewrite !Y, !seq_length, repeat_app, run_split. apply bind_ext. intros s1 R.
      destruct (run_dt _ _ _ _ _ _ _ Hm R) as (M1 & D1 & A1 & _).
      rewrite X, (emsolve_schedule env g g' ar) by (assumption || congruence).
      rewrite D1, Y, seq_length. reflexivity.
  Qed.

  (** One step with absorbing walls, none of them facing another. *)
  Lemma emsolve_walls env g g' ar (s : Solver T) : made env g g' ar s -> abc_low_wide g s -> one_sided s -> sabc s = true ->
    exists s1 s2, one_step s = Ok s1 /\ emsolve s (em_plain 1) = Ok s2 /\ made env g g' ar s2 /\ sJ s2 = sJ s1 /\
      walls_from (gNx g) (gNy g) (gNz g) s1 s2.
  Proof.
    intros Hm W O Ha. destruct (step_total _ _ _ _ s Hm) as (s1 & E1).
    destruct (get_abc_ok _ _ _ _ (made_fit _ _ _ _ _ Hm W)) as (D & HD & P).
    destruct (step_abc _ _ _ _ _ _ Hm E1) as (M1 & _ & A1 & F1).
    assert (W1 := made_fit _ _ _ _ _ M1 (wide_same g s s1 F1 W)).
    assert (P1 : dict_for s1 D) by (intros a Ha1; rewrite !F1; apply P; exact Ha1).
    assert (O1 : one_sided s1) by (intros a Ha1; rewrite !F1; apply O; exact Ha1).
    destruct (update_abc_ok _ _ _ s1 D W1 O1 P1) as (s2 & E2 & C2 & W2 & V).
    exists s1, s2. split; [exact E1|]. split.
    - rewrite (emsolve_plain_abc s D) by assumption. cbn [seq seq_upd].
      rewrite (plain_iter _ _ _ _ s s1 D 0 Hm W Ha HD E1), E2. reflexivity.
    - split; [exact (made_same_conf _ _ _ _ s1 s2 M1 C2 (proj1 W2) (proj1 (proj2 W2)))|]. split; [|exact V].
      unfold same_conf in C2. rewrite C2. reflexivity.
  Qed.

  Lemma emsolve_both env g g' ar (s : Solver T) n : made env g g' ar s -> abc_low_wide g s ->
    (exists a, a < 3 /\ is_abc s (false, a) = true /\ is_abc s (true, a) = true) ->
    emsolve s (em_plain (S n)) = Err KeyError.
  Proof.
    intros Hm W (a & Ha & Hl & Hh).
    assert (A : sabc s = true).
    { rewrite (made_sabc _ _ _ _ _ Hm). apply existsb_exists. exists (false, a). split; [|exact Hl].
      unfold abc_faces. destruct a as [|[|[|a]]]; [| | |lia]; cbn; auto. }
    destruct (step_total _ _ _ _ s Hm) as (s1 & E1).
    destruct (get_abc_ok _ _ _ _ (made_fit _ _ _ _ _ Hm W)) as (D & HD & P).
    destruct (step_abc _ _ _ _ _ _ Hm E1) as (M1 & _ & A1 & F1).
    assert (W1 := made_fit _ _ _ _ _ M1 (wide_same g s s1 F1 W)).
    assert (P1 : dict_for s1 D) by (intros b Hb; rewrite !F1; apply P; exact Hb).
    rewrite (emsolve_plain_abc s D) by assumption. cbn [seq seq_upd].
    rewrite (plain_iter _ _ _ _ s s1 D 0 Hm W A HD E1).
    rewrite (update_abc_key _ _ _ s1 D W1 P1); [reflexivity|].
    exists a. rewrite !F1. auto.
  Qed.

  (** The loop body with the dictionaries replaced by views of the present field. *)
  Definition em_body (dt : T) (src cb : T -> list (op T)) (s : Solver T) (n : nat) : result (Solver T) :=
    do s1 <- run s (src (nmul (nofnat n) dt) ++ [OStep]);
    do s2 <- (if sabc s then do D <- get_abc s1; update_abc s1 D else Ok s1);
    run s2 (cb (nmul (nofnat n) dt)).

  Lemma update_made env g g' ar (s s2 : Solver T) D : made env g g' ar s -> abc_low_wide g s -> get_abc s = Ok D ->
    update_abc s D = Ok s2 -> made env g g' ar s2 /\ sdt s2 = sdt s /\ sabc s2 = sabc s /\ (forall f, is_abc s2 f = is_abc s f) /\
      get_abc s2 = Ok D.
  Proof.
    intros Hm W HD U. assert (W1 := made_fit _ _ _ _ _ Hm W).
    destruct (get_abc_ok _ _ _ _ W1) as (D' & E' & P). rewrite HD in E'. injection E' as <-.
    assert (O : one_sided s).
    { intros a Ha1 Hl. destruct (is_abc s (true, a)) eqn:Eh; [|reflexivity].
      rewrite (update_abc_key (gNx g) (gNy g) (gNz g) s D W1 P) in U; [discriminate|]. exists a. auto. }
    destruct (update_abc_ok (gNx g) (gNy g) (gNz g) s D W1 O P) as (s2' & E2 & C2 & W2 & _).
    rewrite E2 in U. injection U as ->.
    assert (F2 := same_conf_abc s s2 C2).
    split; [exact (made_same_conf _ _ _ _ s s2 Hm C2 (proj1 W2) (proj1 (proj2 W2)))|].
    unfold same_conf in C2. split; [rewrite C2; reflexivity|]. split; [rewrite C2; reflexivity|]. split; [exact F2|].
    rewrite <- HD. apply (get_abc_conf (gNx g) (gNy g) (gNz g)); assumption.
  Qed.

  Lemma run_get env g g' ar h (s s' : Solver T) : made env g g' ar s -> abc_low_wide g s -> run s h = Ok s' ->
    made env g g' ar s' /\ sdt s' = sdt s /\ sabc s' = sabc s /\ abc_low_wide g s' /\ get_abc s' = get_abc s.
  Proof.
    intros Hm W R. destruct (run_dt _ _ _ _ _ _ _ Hm R) as (M & D & A & B & C).
    assert (F : forall f, is_abc s' f = is_abc s f) by (intros f; unfold is_abc; rewrite B, C; reflexivity).
    assert (W' := wide_same g s s' F W). repeat (split; [assumption|]).
    apply (get_abc_conf (gNx g) (gNy g) (gNz g)); [eapply made_fit; eassumption|eapply made_fit; eassumption|exact F].
  Qed.

  Lemma em_loop_abc env g g' ar src cb D ns : forall (s : Solver T), made env g g' ar s -> abc_low_wide g s -> sabc s = true ->
    get_abc s = Ok D ->
    seq_upd (em_iter (fun t s => run s (src t)) (fun t s => run s (cb t))) (s, (D, D)) ns =
    (do s' <- seq_upd (em_body (sdt s) src cb) s ns; Ok (s', (D, D))).
  Proof.
    induction ns as [|n ns IH]; intros s Hm W Ha HD; [reflexivity|].
    cbn [seq_upd]. unfold em_iter at 1, em_body at 1. rewrite run_split, !bind_bind.
    apply bind_ext. intros s1 R1.
    destruct (run_get _ _ _ _ _ _ _ Hm W R1) as (M1 & D1 & A1 & W1 & G1).
    rewrite run_one, !bind_bind. apply bind_ext. intros s2 R2.
    destruct (run_get _ _ _ _ _ _ _ M1 W1 R2) as (M2 & D2 & A2 & W2 & G2).
    rewrite A2, A1, Ha. rewrite G2, G1, HD. cbn [bind]. rewrite !bind_bind.
    apply bind_ext. intros s3 U.
    destruct (update_made _ _ _ _ s2 s3 D M2 W2) as (M3 & D3 & A3 & F3 & G3); [congruence|exact U|].
    rewrite G3. cbn [bind fst snd]. rewrite !bind_bind.
    replace (sdt s3) with (sdt s) by congruence. apply bind_ext. intros s4 R4. cbn [bind].
    destruct (run_get _ _ _ _ _ _ _ M3 (wide_same g s2 s3 F3 W2) R4) as (M4 & D4 & A4 & W4 & G4).
    rewrite (IH s4 M4 W4) by congruence. replace (sdt s4) with (sdt s) by congruence. reflexivity.
  Qed.

  Lemma emsolve_body env g g' ar (s : Solver T) src cb Nt : made env g g' ar s -> abc_low_wide g s ->
    emsolve s {| em_Nt := Nt; em_src := fun t s => run s (src t); em_cb := fun t s => run s (cb t); em_save := None |} =
    seq_upd (em_body (sdt s) src cb) s (seq 0 Nt).
  Proof.
    intros Hm W. destruct (sabc s) eqn:Ha.
    - destruct (get_abc_ok _ _ _ _ (made_fit _ _ _ _ _ Hm W)) as (D & HD & _).
      unfold emsolve. cbn [em_save em_Nt em_src em_cb bind]. rewrite Ha, HD. cbn [bind].
      rewrite (em_loop_abc env g g' ar) by assumption. rewrite bind_bind. apply bind_ok.
    - rewrite (emsolve_schedule env g g' ar) by assumption.
      generalize (seq 0 Nt) as ns. intros ns. revert s Hm W Ha.
      induction ns as [|n ns IH]; intros s Hm W Ha; [reflexivity|].
      cbn [seq_upd schedule flat_map]. fold (schedule (sdt s) src cb ns). unfold em_body at 1. rewrite Ha.
      rewrite app_assoc, !run_split, !bind_bind. apply bind_ext. intros s1 R1. apply bind_ext. intros s2 R2. cbn [bind].
      apply bind_ext. intros s3 R3.
      destruct (run_get _ _ _ _ _ _ _ Hm W R1) as (M1 & D1 & A1 & W1 & _).
      destruct (run_get _ _ _ _ _ _ _ M1 W1 R2) as (M2 & D2 & A2 & W2 & _).
      destruct (run_get _ _ _ _ _ _ _ M2 W2 R3) as (M3 & D3 & A3 & W3 & _).
      replace (sdt s) with (sdt s3) by congruence. apply IH; [assumption|assumption|congruence].
  Qed.

  (** Saving any field fails before the first step. *)
  Lemma emsolve_save (s : Solver T) a fs cs : em_save a = Some (fs, cs) -> out_names fs cs <> [] ->
    emsolve s a = Err TypeError.
  Proof. intros H N. unfold emsolve. rewrite H. destruct (out_names fs cs); [contradiction|reflexivity]. Qed.
End Run.
