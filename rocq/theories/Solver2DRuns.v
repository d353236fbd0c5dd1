(** The energy of whole runs, Dey-Mittra and enlarged-cell steps. *)
From Coq Require Import List Arith ZArith Bool String Lia Ring Field.
From Verif Require Import Num Vec FieldModel GridModel SolverModel WakeModel Grid2DModel Grid2DProofs Solver2DModel Solver2DProofs.
Import ListNotations.

Section Runs.
  Context {T : Type} {NT : Num T} {LT : NumLaws T} {OT : NumOrd T}.
  Add Field s3 : (@num_field T NT LT).
  Local Open Scope num_scope.
  Definition off : (nat -> nat -> T) * (nat -> nat -> T) := (fun _ _ => 0, fun _ _ => 0).

  Section Fdtd.
    Context (p : @par2 T) (Ndx : p_dx p <> 0) (Ndy : p_dy p <> 0) (Ne : p_eps p <> 0) (Nm : p_mu p <> 0) (Nt : p_dt p <> 0).
    Definition mhf i j := (i <? p_nx p)%nat && (j <? p_ny p)%nat && g_int (p_g p) i j.
    Definition mxf i j := (i <? p_nx p)%nat && (1 <=? j)%nat && (j <? p_ny p)%nat && g_int (p_g p) i j && nltb nzero (g_lx (p_g p) i j).
    Definition myf i j := (1 <=? i)%nat && (i <? p_nx p)%nat && (j <? p_ny p)%nat && g_int (p_g p) i j && nltb nzero (g_ly (p_g p) i j).
    Definition enf := en (p_nx p) (p_ny p) mhf (fun _ _ => none_) (fun _ _ => p_dt p / (p_dy p * p_mu p)) (fun _ _ => p_dt p / (p_dx p * p_mu p))
      (fun _ _ => none_) (fun _ _ => p_eps p / p_mu p) (fun _ _ => p_eps p / p_mu p).
    Lemma quiet_fdtd jx jy s : quiet mhf mxf myf s -> quiet mhf mxf myf (step_fdtd p jx jy s).
    Proof.
      intros (Qh & Qx & Qy). unfold step_fdtd, e_fdtd, h_fdtd. repeat split; cbn [hz ex ey]; intros i j M.
      - fold (mhf i j). rewrite M. apply Qh. exact M.
      - fold (mxf i j). rewrite M. apply Qx. exact M.
      - fold (myf i j). rewrite M. apply Qy. exact M.
    Qed.
    Lemma quiet_run js s : quiet mhf mxf myf s -> quiet mhf mxf myf (run2 (step_fdtd p) js s).
    Proof. revert s. induction js as [|j js IH]; intros s Q; [exact Q|]. cbn. apply IH, quiet_fdtd, Q. Qed.
    Lemma enf_step s : quiet mhf mxf myf s -> enf (step_fdtd p (fst off) (snd off) s) = enf s.
    Proof.
      intros Q. unfold enf. apply (en_const (p_nx p) (p_ny p) mhf mxf myf (fun _ _ => none_) (fun _ _ => p_dt p / (p_dy p * p_eps p)) (fun _ _ => p_dt p / (p_dx p * p_eps p))); [| | | | |exact Q| | |].
      - intros i j M. unfold mxf in M. rewrite !andb_true_iff, !Nat.ltb_lt, Nat.leb_le in M. intuition.
      - intros i j M. unfold myf in M. rewrite !andb_true_iff, !Nat.ltb_lt, Nat.leb_le in M. intuition.
      - intros. ring.
      - intros. field. auto.
      - intros. field. auto.
      - intros i j. unfold step_fdtd, e_fdtd, h_fdtd, hstep, ci. cbn [hz]. fold (mhf i j). destruct (mhf i j); [ring|reflexivity].
      - intros i j. unfold step_fdtd at 1, e_fdtd at 1. cbn [ex]. fold (mxf i j). destruct (mxf i j); [|reflexivity]. cbn [off fst]. unfold step_fdtd, e_fdtd. cbn [hz h_fdtd ex]. ring.
      - intros i j. unfold step_fdtd at 1, e_fdtd at 1. cbn [ey]. fold (myf i j). destruct (myf i j); [|reflexivity]. cbn [off snd]. unfold step_fdtd, e_fdtd. cbn [hz h_fdtd ey]. ring.
    Qed.
    Lemma enf_run n s : quiet mhf mxf myf s -> enf (run2 (step_fdtd p) (repeat off n) s) = enf s.
    Proof.
      revert s. induction n as [|n IH]; intros s Q; [reflexivity|]. cbn [repeat run2 fold_left]. fold (run2 (step_fdtd p) (repeat off n)).
      change (fold_left _ (repeat off n) ?x) with (run2 (step_fdtd p) (repeat off n) x). rewrite IH by (apply quiet_fdtd, Q). apply enf_step. exact Q.
    Qed.
  End Fdtd.

  Section Dm.
    Context (p : @par2 T) (Ndx : p_dx p <> 0) (Ndy : p_dy p <> 0) (Ne : p_eps p <> 0) (Nm : p_mu p <> 0) (Nt : p_dt p <> 0)
      (Ns : forall i j, g_int (p_g p) i j = true -> g_S (p_g p) i j <> 0).
    Definition mxd i j := (i <? p_nx p)%nat && (1 <=? j)%nat && (j <? p_ny p)%nat && nltb nzero (g_lx (p_g p) i j).
    Definition myd i j := (1 <=? i)%nat && (i <? p_nx p)%nat && (j <? p_ny p)%nat && nltb nzero (g_ly (p_g p) i j).
    Definition end_ := en (p_nx p) (p_ny p) (mhf p) (fun i j => p_dt p / (p_mu p * g_S (p_g p) i j)) (g_lx (p_g p)) (g_ly (p_g p))
      (fun i j => p_mu p * g_S (p_g p) i j / p_dt p) (fun i j => p_eps p * p_dy p * g_lx (p_g p) i j / p_dt p) (fun i j => p_eps p * p_dx p * g_ly (p_g p) i j / p_dt p).
    Lemma quiet_dm jx jy s : quiet (mhf p) mxd myd s -> quiet (mhf p) mxd myd (step_dm p jx jy s).
    Proof.
      intros (Qh & Qx & Qy). unfold step_dm, e_dm, h_dm. repeat split; cbn [hz ex ey]; intros i j M.
      - fold (mhf p i j). rewrite M. apply Qh. exact M.
      - fold (mxd i j). rewrite M. apply Qx. exact M.
      - fold (myd i j). rewrite M. apply Qy. exact M.
    Qed.
    Lemma quiet_dm_run js s : quiet (mhf p) mxd myd s -> quiet (mhf p) mxd myd (run2 (step_dm p) js s).
    Proof. revert s. induction js as [|j js IH]; intros s Q; [exact Q|]. cbn. apply IH, quiet_dm, Q. Qed.
    Lemma end_step s : quiet (mhf p) mxd myd s -> end_ (step_dm p (fst off) (snd off) s) = end_ s.
    Proof.
      intros Q. unfold end_. apply (en_const (p_nx p) (p_ny p) (mhf p) mxd myd (fun i j => p_dt p / (p_mu p * g_S (p_g p) i j)) (fun _ _ => p_dt p / (p_eps p * p_dy p)) (fun _ _ => p_dt p / (p_eps p * p_dx p))); [| | | | |exact Q| | |].
      - intros i j M. unfold mxd in M. rewrite !andb_true_iff, !Nat.ltb_lt, Nat.leb_le in M. intuition.
      - intros i j M. unfold myd in M. rewrite !andb_true_iff, !Nat.ltb_lt, Nat.leb_le in M. intuition.
      - intros i j M. unfold mhf in M. apply andb_true_iff in M as [_ M]. apply Ns in M. field. auto.
      - intros. field. auto.
      - intros. field. auto.
      - intros i j. unfold step_dm, e_dm, h_dm, hstep, ci, circ. cbn [hz]. fold (mhf p i j). destruct (mhf p i j) eqn:M; [|reflexivity]. apply andb_true_iff in M as [_ M]. apply Ns in M. field. auto.
      - intros i j. unfold step_dm at 1, e_dm at 1. cbn [ex]. fold (mxd i j). destruct (mxd i j); [|reflexivity]. cbn [off fst]. unfold step_dm, e_dm. cbn [hz h_dm ex]. ring.
      - intros i j. unfold step_dm at 1, e_dm at 1. cbn [ey]. fold (myd i j). destruct (myd i j); [|reflexivity]. cbn [off snd]. unfold step_dm, e_dm. cbn [hz h_dm ey]. ring.
    Qed.
    Lemma end_run n s : quiet (mhf p) mxd myd s -> end_ (run2 (step_dm p) (repeat off n) s) = end_ s.
    Proof.
      revert s. induction n as [|n IH]; intros s Q; [reflexivity|]. cbn [repeat run2 fold_left].
      change (fold_left _ (repeat off n) ?x) with (run2 (step_dm p) (repeat off n) x). rewrite IH by (apply quiet_dm, Q). apply end_step. exact Q.
    Qed.
  End Dm.
  Lemma quiet_zero mh mx my : quiet mh mx my (@zero2 T NT).
  Proof. repeat split; intros; reflexivity. Qed.

  (** equality of states, entry by entry *)
  Definition same (s s' : @em2 T) : Prop := (forall i j, ex s i j = ex s' i j) /\ (forall i j, ey s i j = ey s' i j) /\ (forall i j, hz s i j = hz s' i j).
  (** No unstable and no intruded cell: the enlarged-cell step is the Dey-Mittra step. *)
  Lemma ect_dm p e jx jy s s' : (forall i j, (i < p_nx p)%nat -> (j < p_ny p)%nat -> g_unst (p_g p) i j = false) -> (forall i j, e_intr e i j = false) ->
    p_mu p <> 0 -> (forall i j, g_int (p_g p) i j = true -> g_S (p_g p) i j <> 0) ->
    same s s' -> same (step_ect p e jx jy s) (step_dm p jx jy s').
  Proof.
    intros U I Nm Ns (X & Y & Z).
    assert (F : forall st, fold_left (ect_unst p e (rho2 p s)) (cells (p_nx p) (p_ny p)) st = st).
    { intros st. assert (G : forall l, (forall c, In c l -> (fst c < p_nx p)%nat /\ (snd c < p_ny p)%nat) -> fold_left (ect_unst p e (rho2 p s)) l st = st).
      { induction l as [|[i j] l IH]; intros H; [reflexivity|]. cbn [fold_left]. unfold ect_unst at 2. destruct st as [v h].
        destruct (H (i, j) (or_introl eq_refl)) as [Hi Hj]. rewrite (U i j) by assumption. rewrite andb_false_r. apply IH. intros c Hc. apply H. right. exact Hc. }
      apply G. intros [i j] Hc. apply in_flat_map in Hc. destruct Hc as (i' & Hi & Hj). apply in_map_iff in Hj. destruct Hj as (j' & E & Hj). injection E as -> ->.
      apply in_seq in Hi, Hj. cbn. lia. }
    assert (H : forall i j, hz (h_ect p e s) i j = hz (h_dm p s') i j).
    { intros i j. unfold h_ect. rewrite F. cbn [hz h_dm]. rewrite I. rewrite <- (Z i j).
      destruct (i <? p_nx p)%nat eqn:E1; [|reflexivity]. destruct (j <? p_ny p)%nat eqn:E2; [|reflexivity]. cbn [andb].
      destruct (g_int (p_g p) i j) eqn:E3; [|reflexivity]. cbn [andb]. apply Nat.ltb_lt in E1, E2. rewrite (U i j E1 E2). cbn [negb]. unfold rho2, circ. rewrite E3, !X, !Y.
      apply Ns in E3. field. auto. }
    assert (X' : ex (h_ect p e s) = ex s) by (unfold h_ect; rewrite F; reflexivity). assert (Y' : ey (h_ect p e s) = ey s) by (unfold h_ect; rewrite F; reflexivity).
    unfold step_ect, step_dm, e_dm. repeat split; cbn [ex ey hz]; intros i j; rewrite ?X', ?Y'; rewrite ?H; cbn [ex ey h_dm]; rewrite ?X, ?Y; reflexivity.
  Qed.
  Lemma ect_dm_run p e js : (forall i j, (i < p_nx p)%nat -> (j < p_ny p)%nat -> g_unst (p_g p) i j = false) -> (forall i j, e_intr e i j = false) ->
    p_mu p <> 0 -> (forall i j, g_int (p_g p) i j = true -> g_S (p_g p) i j <> 0) ->
    forall s s', same s s' -> same (run2 (step_ect p e) js s) (run2 (step_dm p) js s').
  Proof. intros U I Nm Ns. induction js as [|j js IH]; intros s s' E; [exact E|]. cbn. apply IH. apply ect_dm; assumption. Qed.

  (** Without conductors the Dey-Mittra step is the plain step with mu over dx dy. *)
  Definition thin (p : @par2 T) : par2 := {| p_g := p_g p; p_nx := p_nx p; p_ny := p_ny p; p_dx := p_dx p; p_dy := p_dy p; p_eps := p_eps p; p_mu := p_mu p / (p_dx p * p_dy p); p_dt := p_dt p |}.
  Lemma dm_free p jx jy s s' : p_dx p <> 0 -> p_dy p <> 0 -> p_mu p <> 0 -> p_eps p <> 0 ->
    (forall i j, g_lx (p_g p) i j = p_dx p /\ g_ly (p_g p) i j = p_dy p /\ g_S (p_g p) i j = none_ /\ g_int (p_g p) i j = true) ->
    same s s' -> same (step_dm p jx jy s) (step_fdtd (thin p) jx jy s').
  Proof.
    intros Ndx Ndy Nm Ne G (X & Y & Z).
    assert (H : forall i j, hz (h_dm p s) i j = hz (h_fdtd (thin p) s') i j).
    { intros i j. cbn [hz h_dm h_fdtd thin p_nx p_ny p_g p_dx p_dy p_mu p_dt]. rewrite <- Z. unfold circ. destruct (G i j) as (G1 & G2 & G3 & G4). destruct (G (S i) j) as (_ & G5 & _). destruct (G i (S j)) as (G6 & _).
      rewrite G1, G2, G3, G4, G5, G6, <- !X, <- !Y. destruct (_ && _ && _); [|reflexivity]. field. repeat split; auto. }
    unfold step_dm, step_fdtd, e_dm, e_fdtd. repeat split; cbn [ex ey hz]; intros i j; rewrite ?H; cbn [ex ey h_dm h_fdtd thin p_nx p_ny p_g p_dx p_dy p_eps p_dt]; rewrite <- ?X, <- ?Y.
    - destruct (G i j) as (_ & _ & _ & G4). rewrite G4, andb_true_r. destruct (_ && _ && _ && _); [|reflexivity]. field. auto.
    - destruct (G i j) as (_ & _ & _ & G4). rewrite G4, andb_true_r. destruct (_ && _ && _ && _); [|reflexivity]. field. auto.
    - reflexivity.
  Qed.
End Runs.
