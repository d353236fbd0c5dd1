(** Tools to evaluate concrete runs: a run is computed on the flat arrays and transferred to the
    solver by [run_good]. *)
From Coq Require Import List Arith ZArith Bool String Lia Ring Field QArith Qcanon.
From Verif Require Import Num Vec Index Matrix FieldModel FieldSpec FieldProofs FieldProofs2
  GridModel GridProofs SolverModel SolverPlanes SolverBuild SolverMaterials SolverKern SolverCons SolverSpec
  SolverFlux SolverEnergy SolverOps SolverFrozen SolverLocal SolverRestart.
Import ListNotations.
Open Scope nat_scope.

Section Kit.
  Context {T : Type} {NT : Num T} {LT : NumLaws T} {OT : NumOrd T}.

  Definition arr_okb (K : Kern T) (l : list T) : bool :=
    (List.length l =? 3 * kN K) || (List.length l =? 1).
  Definition op_okb (K : Kern T) (o : op T) : bool :=
    match o with
    | OStep | OReset => true
    | OWriteE l | OWriteH l | OWriteJ l => arr_okb K l
    | OLoad f => arr_okb K (stE f) && arr_okb K (stH f) && arr_okb K (stJ f)
    end.
  Lemma arr_okb_ok K l : arr_okb K l = true -> arr_ok K l.
  Proof.
    unfold arr_okb, arr_ok. rewrite orb_true_iff, !Nat.eqb_eq. auto.
  Qed.
  Lemma op_okb_ok K o : op_okb K o = true -> op_ok K o.
  Proof.
    destruct o; cbn; auto using arr_okb_ok. rewrite !andb_true_iff. intros [[A B] C].
    auto using arr_okb_ok.
  Qed.

  (** One observation: field 0 (E), 1 (H) or 2 (J), component and cell, value. *)
  Definition obs : Type := (nat * (nat * nat * nat * nat) * T)%type.
  Definition sel (f : nat) (s : Solver T) : Field T := match f with 0 => sE s | 1 => sH s | _ => sJ s end.
  Definition ksel (f : nat) (a : St T) : nat -> T := match f with 0 => te a | 1 => th a | _ => tj a end.
  Definition holds (s : Solver T) (o : obs) : Prop :=
    let '(f, (d, i, j, k), v) := o in entry (sel f s) d i j k = v.
  Definition check (K : Kern T) (a : St T) (o : obs) : bool :=
    let '(f, (d, i, j, k), v) := o in
    (d <? 3) && (i <? kNx K) && (j <? kNy K) && (k <? kNz K) &&
    neqb (ksel f a (ix (kNx K) (kNy K) (kNz K) d i j k)) v.

  (** Several runs of one solver, each with its observations. *)
  Definition checks (K : Kern T) (a : St T) (p : list (op T) * list obs) : bool :=
    forallb (op_okb K) (fst p) && forallb (check K (krun K a (fst p))) (snd p).
  Definition simulate (env : Env T) (g : Grid T) (ar : Args T) (ps : list (list (op T) * list obs)) : bool :=
    match construct env g ar with
    | Ok (s, g') => let K := kern_of g g' s in forallb (checks K (abs s)) ps
    | Err _ => false
    end.

  Lemma check_holds K (s : Solver T) a os : good K s -> st_eq K (abs s) a -> forallb (check K a) os = true ->
    Forall (holds s) os.
  Proof.
    intros G [A _] H. apply Forall_forall. intros [[f [[[d i] j] k]] v] Hin.
    rewrite forallb_forall in H. specialize (H _ Hin). unfold check in H.
    repeat rewrite andb_true_iff in H. rewrite !Nat.ltb_lt in H. destruct H as ((((Hd & Hi) & Hj) & Hk) & Hv).
    apply neqb_eq in Hv. cbn [holds].
    destruct (A _ (ix_lt (kNx K) (kNy K) (kNz K) d i j k Hd Hi Hj Hk)) as (P & Q & R).
    destruct f as [|[|f]]; cbn [sel ksel abs te th tj] in *;
      rewrite (entry_ix _ (kNx K) (kNy K) (kNz K)) by apply G; congruence.
  Qed.

  Lemma simulated env g ar ps : grid_obj env g -> simulate env g ar ps = true ->
    exists s g', construct env g ar = Ok (s, g') /\ made env g g' ar s /\
      Forall (fun p => exists s', run s (fst p) = Ok s' /\ Forall (holds s') (snd p)) ps.
  Proof.
    intros Hg H. unfold simulate in H. destruct (construct env g ar) as [[s g']|] eqn:Hc; [|discriminate].
    exists s, g'. split; [reflexivity|].
    assert (Hm : made env g g' ar s) by (constructor; assumption). split; [exact Hm|].
    pose proof (made_good _ _ _ _ _ Hm) as G. set (K := kern_of g g' s) in *. cbv zeta in H.
    apply Forall_forall. intros [h os] Hin. rewrite forallb_forall in H. specialize (H _ Hin).
    unfold checks in H. cbn [fst snd] in *. apply andb_true_iff in H. destruct H as [Ho Hcs].
    destruct (run_good K h s G) as [s' [R [G' A]]].
    { apply Forall_forall. intros o Hin'. rewrite forallb_forall in Ho. apply op_okb_ok, Ho, Hin'. }
    exists s'. split; [exact R|]. eapply check_holds; [exact G'|exact A|exact Hcs].
  Qed.

  (** The same with a test of the constructed solver itself. *)
  Definition simulate2 (env : Env T) (g : Grid T) (ar : Args T) (chk : Solver T -> Grid T -> bool)
      (ps : list (list (op T) * list obs)) : bool :=
    match construct env g ar with
    | Ok (s, g') => chk s g' && forallb (checks (kern_of g g' s) (abs s)) ps
    | Err _ => false
    end.
  Lemma simulated2 env g ar chk ps : grid_obj env g -> simulate2 env g ar chk ps = true ->
    exists s g', construct env g ar = Ok (s, g') /\ made env g g' ar s /\ chk s g' = true /\ Forall (fun p => exists s', run s (fst p) = Ok s' /\ Forall (holds s') (snd p)) ps.
  Proof.
    intros Hg H. unfold simulate2 in H. destruct (construct env g ar) as [[s g']|] eqn:Hc; [|discriminate].
    apply andb_true_iff in H. destruct H as [H1 H2].
    assert (X : simulate env g ar ps = true) by (unfold simulate; rewrite Hc; exact H2).
    destruct (simulated env g ar ps Hg X) as (s0 & g0 & E & M & F). rewrite Hc in E. injection E as <- <-.
    exists s, g'. auto.
  Qed.

  Lemma run_conf env g g' ar h : forall (s s' : Solver T), made env g g' ar s -> run s h = Ok s' ->
    sieps s' = sieps s /\ simu s' = simu s /\ ssigma s' = ssigma s /\ sdt s' = sdt s /\ scond s' = scond s /\
    sbl s' = sbl s /\ sbh s' = sbh s /\ spml s' = spml s.
  Proof.
    induction h as [|o h IH]; intros s s' Hm E.
    - injection E as <-. repeat split.
    - unfold run in E. cbn [seq_upd] in E. destruct (do_op s o) as [s1|] eqn:E1; [|discriminate]. cbn [bind] in E.
      destruct (do_op_conf _ s o s1 (made_good _ _ _ _ _ Hm) E1) as (_ & _ & _ & <- & <- & <- & <- & <- & <- & <- & _ & <- & _).
      apply IH; [eapply made_op; eassumption|exact E].
  Qed.

  Definition still_fresh (h : list (op T)) : bool :=
    forallb (fun o => match o with OStep => false | _ => true end) h.
  Lemma krun_fresh K h : forall a, tfresh (krun K a h) = tfresh a && still_fresh h.
  Proof.
    induction h as [|o h IH]; intros a; [cbn; rewrite andb_true_r; reflexivity|].
    cbn [krun fold_left]. fold (krun K (kop K a o) h). rewrite IH.
    destruct o; cbn [kop kstep tfresh still_fresh forallb andb]; rewrite ?andb_false_r; reflexivity.
  Qed.

  (** The same, with what the runs keep. *)
  Definition kept (env : Env T) (g g' : Grid T) (ar : Args T) (s : Solver T) (h : list (op T)) (os : list obs) (s' : Solver T) : Prop :=
    run s h = Ok s' /\ Forall (holds s') os /\ made env g g' ar s' /\ sstep0 s' = still_fresh h /\
    sieps s' = sieps s /\ simu s' = simu s /\ ssigma s' = ssigma s /\ sdt s' = sdt s /\ scond s' = scond s /\
    sbl s' = sbl s /\ sbh s' = sbh s /\ spml s' = spml s.
  Lemma simulated3 env g ar chk ps : grid_obj env g -> simulate2 env g ar chk ps = true ->
    exists s g', construct env g ar = Ok (s, g') /\ made env g g' ar s /\ chk s g' = true /\
      Forall (fun p => exists s', kept env g g' ar s (fst p) (snd p) s') ps.
  Proof.
    intros Hg H. destruct (simulated2 env g ar chk ps Hg H) as (s & g' & Hc & Hm & Hk & F).
    exists s, g'. repeat (split; [assumption|]).
    eapply Forall_impl; [|exact F]. intros [h os] [s' [R O]]. cbn [fst snd] in *. exists s'.
    unfold kept. destruct (made_run _ _ _ _ h s s' Hm R) as [Hm' _].
    destruct (made_run_abs _ _ _ _ _ _ _ Hm R) as (_ & _ & _ & _ & Ef). cbn [abs tfresh] in Ef.
    rewrite krun_fresh in Ef. cbn [abs tfresh] in Ef.
    destruct (construct_new _ _ _ _ _ Hg Hc) as (_ & _ & _ & Es). rewrite Es in Ef. cbn [andb] in Ef.
    pose proof (run_conf _ _ _ _ h s s' Hm R) as C. intuition.
  Qed.
  Lemma run_app h1 h2 (s s1 : Solver T) : run s h1 = Ok s1 -> run s (h1 ++ h2) = run s1 h2.
  Proof.
    revert s. induction h1 as [|o h1 IH]; intros s E.
    - injection E as <-. reflexivity.
    - unfold run in *. cbn [seq_upd List.app] in *. destruct (do_op s o) as [s2|]; [|discriminate].
      cbn [bind] in *. apply IH, E.
  Qed.

  (** Every history of writes of the right size and steps runs without error. *)
  Lemma run_total env g g' ar (s : Solver T) h : made env g g' ar s ->
    Forall (fun o => match o with
                     | OStep | OReset => True
                     | OWriteE l | OWriteH l | OWriteJ l => List.length l = 3 * (gNx g * gNy g * gNz g)
                     | OLoad f => List.length (stE f) = 3 * (gNx g * gNy g * gNz g) /\
                                  List.length (stH f) = 3 * (gNx g * gNy g * gNz g) /\
                                  List.length (stJ f) = 3 * (gNx g * gNy g * gNz g)
                     end) h ->
    exists s', run s h = Ok s' /\ made env g g' ar s'.
  Proof.
    intros Hm Hh. pose proof (made_good _ _ _ _ _ Hm) as G.
    destruct (run_good _ h s G) as [s' [R _]].
    - eapply Forall_impl; [|exact Hh]. intros o. unfold op_ok, arr_ok.
      change (kN (kern_of g g' s)) with (gNx g * gNy g * gNz g). destruct o; tauto.
    - exists s'. split; [exact R|]. apply (made_run _ _ _ _ h s s' Hm R).
  Qed.

  (** Test over all entries of a box. *)
  Definition all_box (Nx Ny Nz : nat) (p : nat -> nat -> nat -> nat -> bool) : bool :=
    forallb (fun d => forallb (fun i => forallb (fun j => forallb (fun k => p d i j k)
      (seq 0 Nz)) (seq 0 Ny)) (seq 0 Nx)) (seq 0 3).
  Lemma all_box_ok Nx Ny Nz p : all_box Nx Ny Nz p = true ->
    forall d i j k, in_box Nx Ny Nz d i j k -> p d i j k = true.
  Proof.
    unfold all_box. intros H d i j k (Hd & Hi & Hj & Hk).
    rewrite forallb_forall in H. specialize (H d). rewrite in_seq in H. specialize (H ltac:(lia)).
    rewrite forallb_forall in H. specialize (H i). rewrite in_seq in H. specialize (H ltac:(lia)).
    rewrite forallb_forall in H. specialize (H j). rewrite in_seq in H. specialize (H ltac:(lia)).
    rewrite forallb_forall in H. specialize (H k). rewrite in_seq in H. exact (H ltac:(lia)).
  Qed.
End Kit.

(** ** A small graded grid over the rationals *)
Definition q (n : Z) (d : positive) : Qc := Q2Qc (n # d).
Definition envQ : Env Qc :=
  {| e_eps0 := q 1 1; e_mu0 := q 1 1; e_c := q 1 1; e_pml_lo := q 1 200; e_pml_hi := q 10 1;
     e_sqrt := fun x => x; e_geom := fun a b n => linspace a b (n - 1) |}.
Definition axQ : list Qc := [q 0 1; q 1 1; q 3 1; q 4 1].
Definition ayQ : list Qc := [q 0 1; q 2 1; q 3 1; q 5 1].
Definition azQ : list Qc := [q 0 1; q 1 1; q 2 1; q 4 1].
Definition gridQ : Grid Qc :=
  match compute_grid axQ ayQ azQ with Ok g => g
  | Err _ => {| gx := []; gy := []; gz := []; gL := field_zeros 0 0 0; giA := field_zeros 0 0 0;
                gtL := field_zeros 0 0 0; gitA := field_zeros 0 0 0 |} end.
Lemma gridQ_obj : grid_obj envQ gridQ.
Proof.
  apply (go_axes envQ axQ ayQ azQ). unfold gridQ.
  assert (H : match compute_grid axQ ayQ azQ with Ok _ => true | Err _ => false end = true) by (vm_compute; reflexivity).
  destruct (compute_grid axQ ayQ azQ); [reflexivity|discriminate].
Qed.
Lemma Qc_this (a b : Qc) : this a = this b -> a = b.
Proof. intros H. apply Qc_is_canon. rewrite H. apply Qeq_refl. Qed.
Definition argsQ (bl bh : bc3) (bg : material Qc) (so : list (solid Qc)) : Args Qc :=
  {| ar_bl := bl; ar_bh := bh; ar_bg := bg; ar_solids := so; ar_npml := 1; ar_cfln := q 1 2;
     ar_dt := Some (q 1 4); ar_mpi := None |}.
Definition bcs (s : string) : bc3 := {| bcx := s; bcy := s; bcz := s |}.
(** An array of 81 different values. *)
Definition ramp (m : Z) : list Qc := tab 81 (fun n => q ((Z.of_nat n * Z.of_nat n * m) mod 17 - 5)%Z 1).
Definition vac : material Qc := MName "vacuum".

Definition all_obs (f : nat) (v : Qc) : list (obs (T := Qc)) :=
  flat_map (fun d => flat_map (fun i => flat_map (fun j => map (fun k => (f, (d, i, j, k), v))
    (seq 0 3)) (seq 0 3)) (seq 0 3)) (seq 0 3).
Lemma all_obs_hold f v (s : Solver Qc) : Forall (holds s) (all_obs f v) ->
  forall d i j k, in_box 3 3 3 d i j k -> entry (sel f s) d i j k = v.
Proof.
  intros H d i j k (Hd & Hi & Hj & Hk). rewrite Forall_forall in H.
  apply (H (f, (d, i, j, k), v)). unfold all_obs.
  apply in_flat_map. exists d. split; [apply in_seq; lia|].
  apply in_flat_map. exists i. split; [apply in_seq; lia|].
  apply in_flat_map. exists j. split; [apply in_seq; lia|].
  apply in_map_iff. exists k. split; [reflexivity|apply in_seq; lia].
Qed.
