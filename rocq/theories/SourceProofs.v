(** Lemmas about the sources. *)
From Coq Require Import List Arith ZArith Bool String Lia Ring Field.
From Verif Require Import Num Vec FieldModel FieldSpec FieldProofs FieldProofs2 GridModel GridProofs SolverModel SolverPlanes SolverBuild SolverKern SolverCons
  WakeModel WakeNum WakeProofs WakeCells WakeRun WakeTotal WakeWin SourceModel.
Import ListNotations.

Section SP.
  Context {T : Type} {NT : Num T} {LT : NumLaws T} {OT : NumOrd T} {FT : NumFl T} {FL : NumFlLaws T} {TR : NumTr T}.
  Add Field snum : (@num_field T NT LT).
  Local Open Scope num_scope.

  (** Writing a field of the right size keeps a solver reachable. *)
  Lemma fromarray_self (F G : Field T) Nx Ny Nz : sized F Nx Ny Nz -> sized G Nx Ny Nz -> fromarray F (farr G) = Ok G.
  Proof.
    intros SF SG. pose proof (sized_len _ _ _ _ SF) as LF. pose proof (sized_len _ _ _ _ SG) as LG.
    destruct SF as (_ & X & Y & Z), SG as (_ & X' & Y' & Z'). unfold fromarray, with_arr.
    replace (List.length (farr G) =? List.length (farr F))%nat with true by (symmetry; apply Nat.eqb_eq; congruence).
    destruct G as [a b c d]. cbn in *. subst. reflexivity.
  Qed.

  Lemma made_sized env g g' ar (s : Solver T) : made env g g' ar s ->
    sized (sE s) (gNx g) (gNy g) (gNz g) /\ sized (sH s) (gNx g) (gNy g) (gNz g) /\ sized (sJ s) (gNx g) (gNy g) (gNz g).
  Proof. intros H. pose proof (made_good _ _ _ _ _ H) as G. repeat split; try apply (gd_E _ _ G); try apply (gd_H _ _ G); apply (gd_J _ _ G). Qed.
  Lemma write_J env g g' ar (s : Solver T) J : made env g g' ar s -> sized J (gNx g) (gNy g) (gNz g) ->
    made env g g' ar (with_fields s (sE s) (sH s) J).
  Proof.
    intros H SJ. eapply (made_op _ _ _ _ s (OWriteJ (farr J)) _ H). cbn [do_op].
    rewrite (fromarray_self _ J _ _ _ (proj2 (proj2 (made_sized _ _ _ _ _ H))) SJ). reflexivity.
  Qed.
  Lemma write_E env g g' ar (s : Solver T) E : made env g g' ar s -> sized E (gNx g) (gNy g) (gNz g) ->
    made env g g' ar (with_fields s E (sH s) (sJ s)).
  Proof.
    intros H SE. eapply (made_op _ _ _ _ s (OWriteE (farr E)) _ H). cbn [do_op].
    rewrite (fromarray_self _ E _ _ _ (proj1 (made_sized _ _ _ _ _ H)) SE). reflexivity.
  Qed.
  Lemma write_H env g g' ar (s : Solver T) H : made env g g' ar s -> sized H (gNx g) (gNy g) (gNz g) ->
    made env g g' ar (with_fields s (sE s) H (sJ s)).
  Proof.
    intros M SH. eapply (made_op _ _ _ _ s (OWriteH (farr H)) _ M). cbn [do_op].
    rewrite (fromarray_self _ H _ _ _ (proj1 (proj2 (made_sized _ _ _ _ _ M))) SH). reflexivity.
  Qed.
  Lemma write_EH env g g' ar (s : Solver T) E H : made env g g' ar s -> sized E (gNx g) (gNy g) (gNz g) -> sized H (gNx g) (gNy g) (gNz g) ->
    made env g g' ar (with_fields s E H (sJ s)).
  Proof.
    intros M SE SH. pose proof (write_E _ _ _ _ _ E M SE) as M1. pose proof (write_H _ _ _ _ _ H M1 SH) as M2. exact M2.
  Qed.

  (** A whole line along z *)
  Lemma line_write (F : Field T) Nx Ny Nz ix iy l : sized F Nx Ny Nz -> (ix < Nx)%nat -> (iy < Ny)%nat -> List.length l = Nz ->
    exists G, setitem F (KTup (KI (Z.of_nat ix)) (KI (Z.of_nat iy)) kfull (CStr "z")) (VArr (vec l)) = Ok G /\ sized G Nx Ny Nz /\
      forall c i j k, (c < 3)%nat -> (i < Nx)%nat -> (j < Ny)%nat -> (k < Nz)%nat ->
        entry G c i j k = if ((c =? 2) && (i =? ix) && (j =? iy))%nat then get l k else entry F c i j k.
  Proof.
    intros [W [<- [<- <-]]] Hx Hy Hl.
    destruct (setitem_spec F (KI (Z.of_nat ix)) (KI (Z.of_nat iy)) kfull (CStr "z") 2 (VArr (vec l)) [ix] [iy] (seq 0 (fNz F)) W eq_refl
      (resolve_nat _ _ Hx) (resolve_nat _ _ Hy) (resolve_full _)) as (G & E & W' & X & Y & Z & A).
    { cbn. rewrite seq_length, Hl, Nat.eqb_refl, orb_true_r. reflexivity. }
    exists G. split; [exact E|]. split; [split; auto|]. intros c i j k Hc Hi Hj Hk.
    rewrite !entry_at, A by assumption. rewrite !pos_of_one, pos_of_full by assumption.
    destruct (i =? ix)%nat, (j =? iy)%nat, (c =? 2)%nat; try reflexivity. cbn. f_equal. rewrite Hl.
    destruct (fNz F =? 1)%nat eqn:E1; [apply Nat.eqb_eq in E1|]; lia.
  Qed.

  Lemma beam_first_ok (b : Beam T) (g : Grid T) : bm_first b = None -> (0 < gNx g)%nat -> (0 < gNy g)%nat -> (0 < gNz g)%nat ->
    exists ix iy zmin, beam_first b g None = Ok (ix, iy, zmin) /\ (ix < gNx g)%nat /\ (iy < gNy g)%nat /\
      nearest (centres (gx g)) (bm_x b) = Ok ix /\ nearest (centres (gy g)) (bm_y b) = Ok iy /\ np_min (centres (gz g)) = Ok zmin.
  Proof.
    intros Hf Px Py Pz. unfold beam_first. rewrite Hf.
    assert (Lx : List.length (centres (gx g)) = gNx g) by (rewrite centres_length; reflexivity).
    assert (Ly : List.length (centres (gy g)) = gNy g) by (rewrite centres_length; reflexivity).
    assert (Lz : List.length (centres (gz g)) = gNz g) by (rewrite centres_length; reflexivity).
    destruct (nearest_ok (centres (gx g)) (bm_x b)) as (ix & -> & Hx); [lia|].
    destruct (nearest_ok (centres (gy g)) (bm_y b)) as (iy & -> & Hy); [lia|]. cbn [bind].
    destruct (np_min_ok (centres (gz g))) as [zmin ->]; [intros X; rewrite X in Lz; cbn in Lz; lia|]. cbn [bind].
    exists ix, iy, zmin. rewrite <- Lx, <- Ly. auto 10.
  Qed.
  Lemma item_ok (v : list T) i : (i < List.length v)%nat -> item v i = Ok (get v i).
  Proof. intros H. unfold item, some. rewrite (nth_error_nth' v nzero H). reflexivity. Qed.
  Lemma widths_length (ax : list T) : List.length (widths ax) = (List.length ax - 1)%nat.
  Proof. apply tab_length. Qed.

  (** One update: the line, and nothing else. *)
  Lemma beam_update_spec env (g : Grid T) ZMIN (b : Beam T) (s : Solver T) t ix iy zmin :
    beam_first b g ZMIN = Ok (ix, iy, zmin) -> (ix < gNx g)%nat -> (iy < gNy g)%nat -> sized (sJ s) (gNx g) (gNy g) (gNz g) ->
    exists b' J, beam_update env g ZMIN b s t = Ok (b', with_fields s (sE s) (sH s) J) /\
      bm_first b' = Some (ix, iy, zmin) /\ (forall z u, beam_profile env b' zmin z u = beam_profile env b zmin z u) /\
      bm_q b' = bm_q b /\ bm_v b' = bm_v b /\ sized J (gNx g) (gNy g) (gNz g) /\
      forall c i j k, (c < 3)%nat -> (i < gNx g)%nat -> (j < gNy g)%nat -> (k < gNz g)%nat ->
        entry J c i j k = if ((c =? 2) && (i =? ix) && (j =? iy))%nat
          then bm_q b * bm_v b * beam_profile env b zmin (get (centres (gz g)) k) t / get (widths (gx g)) ix / get (widths (gy g)) iy
          else entry (sJ s) c i j k.
  Proof.
    intros Hf Hx Hy SJ. unfold beam_update. rewrite Hf. cbn [bind].
    rewrite !item_ok by (rewrite widths_length; assumption). cbn [bind].
    set (l := map _ _). destruct (line_write (sJ s) _ _ _ ix iy l SJ Hx Hy) as (J & E & S & A).
    { unfold l. rewrite map_length, centres_length. reflexivity. }
    rewrite E. cbn [bind]. do 2 eexists. split; [reflexivity|]. cbn [bm_first bm_q bm_v]. split; [reflexivity|]. split; [reflexivity|].
    do 2 (split; [reflexivity|]). split; [exact S|]. intros c i j k Hc Hi Hj Hk. rewrite A by assumption.
    destruct (_ && _)%bool; [|reflexivity]. unfold l, get at 1.
    set (h := fun z => bm_q b * bm_v b * beam_profile env b zmin z t / get (widths (gx g)) ix / get (widths (gy g)) iy).
    rewrite (nth_indep _ nzero (h nzero)) by (rewrite map_length, centres_length; exact Hk). exact (map_nth h _ nzero k).
  Qed.

  (** ** Runs *)
  Lemma seq_upd_snoc {A B} (f : A -> B -> result A) (l : list B) (x : B) : forall a,
    seq_upd f a (l ++ [x]) = bind (seq_upd f a l) (fun a' => f a' x).
  Proof.
    induction l as [|y l IH]; intros a; cbn [seq_upd app].
    - cbn [bind]. destruct (f a x); reflexivity.
    - destruct (f a y) as [a'|e]; cbn [bind]; [apply IH|reflexivity].
  Qed.
  Lemma src_run_S {A} (upd : A -> Solver T -> T -> result (A * Solver T)) a s n :
    src_run upd a s (S n) = bind (src_run upd a s n) (fun st => src_iter upd st n).
  Proof. unfold src_run. rewrite seq_S. apply seq_upd_snoc. Qed.
  Lemma step_keeps_J (s s' : Solver T) : one_step s = Ok s' -> scond s = false -> sJ s' = sJ s.
  Proof.
    intros H Hc. unfold one_step in H. binv H s1 H1. binv H HH H2. binv H EE H3. binv H JJ H4. injection H as <-.
    assert (C : scond s1 = false /\ sJ s1 = sJ s).
    { unfold first_step in H1. destruct (sstep0 s); [|injection H1 as <-; auto]. binv H1 s2 H5. unfold set_ghosts in H5.
      binv H5 Hh H6. binv H5 Ee H7. injection H5 as <-. unfold attrcleanup in H1.
      destruct (sops _); [|discriminate]. injection H1 as <-. auto. }
    destruct C as [C1 C2]. unfold updJ in H4. rewrite C1 in H4. injection H4 as <-. exact C2.
  Qed.
  Lemma step_keeps env g g' ar (s s' : Solver T) : made env g g' ar s -> one_step s = Ok s' ->
    made env g g' ar s' /\ sdt s' = sdt s /\ scond s' = scond s.
  Proof.
    intros H E. assert (E' : do_op s OStep = Ok s') by exact E. split; [eapply made_op; eassumption|].
    pose proof (do_op_conf _ _ _ _ (made_good _ _ _ _ _ H) E') as C. tauto.
  Qed.

  Definition line_J env (g : Grid T) (b : Beam T) (ix iy : nat) (zmin t : T) (k : nat) : T :=
    bm_q b * bm_v b * beam_profile env b zmin (get (centres (gz g)) k) t / get (widths (gx g)) ix / get (widths (gy g)) iy.
  Lemma beam_run env (g g' : Grid T) ar (b : Beam T) (s : Solver T) : made env g g' ar s -> bm_first b = None ->
    exists ix iy zmin, (ix < gNx g)%nat /\ (iy < gNy g)%nat /\
      nearest (centres (gx g)) (bm_x b) = Ok ix /\ nearest (centres (gy g)) (bm_y b) = Ok iy /\ np_min (centres (gz g)) = Ok zmin /\
    forall n, exists bn sn, src_run (beam_update env g None) b s n = Ok (bn, sn) /\ made env g g' ar sn /\
      sdt sn = sdt s /\ scond sn = scond s /\
      beam_first bn g None = Ok (ix, iy, zmin) /\
      (forall z u, beam_profile env bn zmin z u = beam_profile env b zmin z u) /\ bm_q bn = bm_q b /\ bm_v bn = bm_v b /\
      (scond s = false -> forall c i j k, (c < 3)%nat -> (i < gNx g)%nat -> (j < gNy g)%nat -> (k < gNz g)%nat ->
         entry (sJ sn) c i j k = match n with
           | 0 => entry (sJ s) c i j k
           | S m => if ((c =? 2) && (i =? ix) && (j =? iy))%nat then line_J env g b ix iy zmin (nofnat m * sdt s) k
                    else entry (sJ s) c i j k
           end).
  Proof.
    intros Hm Hf. destruct (made_dims _ _ _ _ _ Hm) as (_ & _ & _ & _ & _ & _ & P1 & P2 & P3).
    destruct (beam_first_ok b g Hf P1 P2 P3) as (ix & iy & zmin & E & Hx & Hy & N1 & N2 & N3).
    exists ix, iy, zmin. do 5 (split; [assumption|]). induction n as [|n (bn & sn & R & M & D & C & F & Pr & Q & V & J)].
    - exists b, s. split; [reflexivity|]. do 3 (split; [auto|]). split; [exact E|]. auto.
    - rewrite src_run_S, R. cbn [bind]. unfold src_iter. cbn [fst snd]. rewrite D.
      destruct (beam_update_spec env g None bn sn (nofnat n * sdt s) ix iy zmin F Hx Hy (proj2 (proj2 (made_sized _ _ _ _ _ M))))
        as (b' & J' & U & F' & Pr' & Q' & V' & SJ & HJ).
      rewrite U. cbn [bind fst snd]. pose proof (write_J _ _ _ _ _ _ M SJ) as M1.
      destruct (made_step _ _ _ _ _ M1) as (s2 & E2 & M2). rewrite E2. cbn [bind].
      destruct (step_keeps _ _ _ _ _ _ M1 E2) as (_ & D2 & C2). cbn [with_fields sdt scond] in D2, C2.
      exists b', s2. split; [reflexivity|]. split; [exact M2|]. split; [congruence|]. split; [congruence|].
      split; [unfold beam_first; rewrite F'; reflexivity|]. split; [intros z u; rewrite Pr', Pr; reflexivity|].
      split; [congruence|]. split; [congruence|]. intros Hc c i j k H1 H2 H3 H4.
      rewrite (step_keeps_J _ _ E2) by (cbn; congruence). cbn [with_fields sJ]. rewrite HJ by assumption.
      destruct (_ && _)%bool eqn:L; [unfold line_J; rewrite Pr, Q, V; reflexivity|].
      rewrite J by assumption. destruct n; [reflexivity|]. rewrite L. reflexivity.
  Qed.
  (** As the beam argument of wakesolve: it never fails and keeps the solver reachable. *)
  Definition beam_as_update env (g : Grid T) (b : Beam T) (t : T) (s : Solver T) : result (Solver T) :=
    do r <- beam_update env g None b s t; Ok (snd r).
  Lemma beam_harmless env (g g' : Grid T) ar (b : Beam T) : bm_first b = None ->
    harmless env g g' ar (beam_as_update env g b).
  Proof.
    intros Hf t s M. destruct (made_dims _ _ _ _ _ M) as (_ & _ & _ & _ & _ & _ & P1 & P2 & P3).
    destruct (beam_first_ok b g Hf P1 P2 P3) as (ix & iy & zmin & E & Hx & Hy & _).
    destruct (beam_update_spec env g None b s t ix iy zmin E Hx Hy (proj2 (proj2 (made_sized _ _ _ _ _ M)))) as (b' & J & U & _ & _ & _ & _ & SJ & _).
    unfold beam_as_update. rewrite U. cbn [bind snd]. eexists. split; [reflexivity|]. apply write_J; assumption.
  Qed.
End SP.
