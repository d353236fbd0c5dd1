(** The monitor's accumulators after any number of updates. *)
From Coq Require Import List Arith Bool Lia.
From Verif Require Import Num Vec FieldModel FieldSpec FieldProofs FieldProofs2 GridModel GridProofs SolverModel SolverCons WakeModel WakeZ SourceModel SourceProofs MonitorModel.
Import ListNotations.

Section MonitorProofs.
  Context {T : Type} {NT : Num T} {LT : NumLaws T} {TR : NumTr T}.
  Add Field mon_field : (@num_field T NT LT).
  Local Open Scope num_scope.

  (** entry of an accumulator: frequency q, component c, cell (i,j,k) of an Nx x Ny x Nz grid *)
  Definition acc_of (m : Monitor T) (c : nat) : list (list (cx T)) :=
    let '(x, y, z) := mo_acc m in match c with 0 => x | 1 => y | _ => z end.
  Definition acc_at (m : Monitor T) (q c i j k : nat) : cx T :=
    let '(nx, ny, nz) := mo_shape m in cget (nth q (acc_of m c) []) ((i * ny + j) * nz + k).

  Lemma cell_div ny nz i j k : (j < ny)%nat -> (k < nz)%nat -> let p := ((i * ny + j) * nz + k)%nat in
    (p mod nz = k /\ p / nz mod ny = j /\ p / (nz * ny) = i)%nat.
  Proof.
    intros Hj Hk p. assert (D : (p / nz = i * ny + j)%nat) by (unfold p; rewrite Nat.div_add_l by lia; rewrite Nat.div_small by lia; lia).
    split; [unfold p; rewrite Nat.add_comm, Nat.mod_add by lia; apply Nat.mod_small; lia|].
    split; [rewrite D, Nat.add_comm, Nat.mod_add by lia; apply Nat.mod_small; lia|].
    rewrite <- Nat.div_div by lia. rewrite D, Nat.div_add_l by lia. rewrite Nat.div_small by lia. lia.
  Qed.
  Lemma cell_lt nx ny nz i j k : (i < nx)%nat -> (j < ny)%nat -> (k < nz)%nat -> ((i * ny + j) * nz + k < nx * ny * nz)%nat.
  Proof. intros. assert ((i * ny + j < nx * ny)%nat) by nia. assert (((i * ny + j) * nz + nz <= nx * ny * nz)%nat) by nia. lia. Qed.
  Lemma nth_tab {A} n (f : nat -> A) p d : (p < n)%nat -> nth p (tab n f) d = f p.
  Proof. intros H. unfold tab. rewrite (nth_indep _ d (f 0%nat)) by (rewrite map_length, seq_length; exact H). rewrite map_nth, seq_nth by exact H. reflexivity. Qed.
  Lemma cget_tab n (f : nat -> cx T) p : (p < n)%nat -> cget (tab n f) p = f p.
  Proof.
    intros H. unfold cget. rewrite (nth_indep _ _ (f 0%nat)) by (rewrite tab_length; exact H). unfold tab. rewrite map_nth. rewrite seq_nth by exact H. reflexivity.
  Qed.
  Lemma dims (E : Field T) c : m0 (to_matrix_c E c) = fNx E /\ m1 (to_matrix_c E c) = fNy E /\ m2 (to_matrix_c E c) = fNz E.
  Proof. auto. Qed.
  Lemma one_at d i : (i < d)%nat -> (if d =? 1 then 0 else i)%nat = i.
  Proof. intros H. destruct (Nat.eqb_spec d 1); lia. Qed.

  Lemma add_spec (E : Field T) c a ph nx ny nz : sized E nx ny nz -> exists a', mo_add (nx, ny, nz) a (to_matrix_c E c) ph = Ok a' /\
    forall i j k, (i < nx)%nat -> (j < ny)%nat -> (k < nz)%nat ->
      let p := ((i * ny + j) * nz + k)%nat in cget a' p = cadd (cget a p) (cscale (entry E c i j k) ph).
  Proof.
    intros (W & Ex & Ey & Ez). destruct (dims E c) as (D0 & D1 & D2). unfold mo_add. rewrite D0, D1, D2, Ex, Ey, Ez.
    unfold fits. rewrite !Nat.eqb_refl. cbn [orb andb]. eexists. split; [reflexivity|]. intros i j k Hi Hj Hk. cbv zeta. set (p := ((i * ny + j) * nz + k)%nat).
    rewrite cget_tab by (apply cell_lt; assumption). destruct (cell_div ny nz i j k Hj Hk) as (P1 & P2 & P3). fold p in P1, P2, P3. rewrite P1, P2, P3.
    rewrite !one_at by assumption. do 2 f_equal. rewrite mget_to_matrix by lia. symmetry. apply entry_at.
  Qed.
  Lemma adds_spec (E : Field T) c nx ny nz t : sized E nx ny nz -> forall fs acc, List.length acc = List.length fs ->
    exists acc', mo_adds (nx, ny, nz) fs t (to_matrix_c E c) acc = Ok acc' /\ List.length acc' = List.length fs /\
    forall q i j k, (q < List.length fs)%nat -> (i < nx)%nat -> (j < ny)%nat -> (k < nz)%nat ->
      let p := ((i * ny + j) * nz + k)%nat in
      cget (nth q acc' []) p = cadd (cget (nth q acc []) p) (cscale (entry E c i j k) (mo_phase (get fs q) t)).
  Proof.
    intros S. induction fs as [|f fs IH]; intros [|a acc] L; try discriminate.
    - exists []. split; [reflexivity|]. split; [reflexivity|]. cbn. intros. lia.
    - destruct (add_spec E c a (mo_phase f t) nx ny nz S) as (a' & A & P). destruct (IH acc) as (r & R & Lr & Q); [cbn in L; lia|].
      exists (a' :: r). cbn [mo_adds]. rewrite A. cbn [bind]. rewrite R. split; [reflexivity|]. split; [cbn; lia|].
      intros [|q] i j k Hq Hi Hj Hk; cbn [nth get]; [apply P; assumption|]. apply Q; try assumption. cbn in Hq. lia.
  Qed.

  (** The state after n updates with fields Es: the sums. *)
  Definition sums (m : Monitor T) (freqs : list T) (dt : T) nx ny nz (n : nat) (Es : nat -> Field T) : Prop :=
    mo_freqs m = freqs /\ mo_index m = n /\ mo_dt m = Some dt /\ mo_shape m = (nx, ny, nz) /\
    (forall c, List.length (acc_of m c) = List.length freqs) /\
    forall q c i j k, (q < List.length freqs)%nat -> (c < 3)%nat -> (i < nx)%nat -> (j < ny)%nat -> (k < nz)%nat ->
      acc_at m q c i j k = csum n (fun l => cscale (entry (Es l) c i j k) (mo_phase (get freqs q) (nofnat l * dt))).
  Lemma update_sums m freqs dt nx ny nz n Es dt' : sums m freqs dt nx ny nz n Es -> sized (Es n) nx ny nz ->
    exists m', mo_update m (Es n) dt' = Ok m' /\ sums m' freqs dt nx ny nz (S n) Es.
  Proof.
    intros (F & I & D & Sh & L & A) S. unfold mo_update, mo_start. rewrite D. cbv zeta. rewrite D, Sh, F, I.
    destruct (mo_acc m) as [[ax ay] az] eqn:Q.
    assert (Lx := L 0%nat). assert (Ly := L 1%nat). assert (Lz := L 2%nat). unfold acc_of in Lx, Ly, Lz. rewrite Q in Lx, Ly, Lz.
    destruct (adds_spec (Es n) 0 nx ny nz (nofnat n * dt) S freqs ax Lx) as (bx & -> & Bx & Px). cbn [bind].
    destruct (adds_spec (Es n) 1 nx ny nz (nofnat n * dt) S freqs ay Ly) as (by_ & -> & By & Py). cbn [bind].
    destruct (adds_spec (Es n) 2 nx ny nz (nofnat n * dt) S freqs az Lz) as (bz & -> & Bz & Pz). cbn [bind].
    eexists. split; [reflexivity|]. unfold sums. cbn [mo_freqs mo_index mo_dt mo_shape mo_acc]. do 4 (split; [reflexivity|]).
    split. { intros [|[|c]]; unfold acc_of; cbn [mo_acc]; assumption. }
    intros q c i j k Hq Hc Hi Hj Hk. specialize (A q c i j k Hq Hc Hi Hj Hk). unfold acc_at, acc_of in *. cbn [mo_shape mo_acc]. rewrite Sh, Q in A.
    unfold csum. cbn [sum]. rewrite surjective_pairing with (p := cget _ _).
    assert (E : cget (nth q (match c with 0%nat => bx | 1%nat => by_ | _ => bz end) []) ((i * ny + j) * nz + k)%nat =
      cadd (cget (nth q (match c with 0%nat => ax | 1%nat => ay | _ => az end) []) ((i * ny + j) * nz + k)%nat) (cscale (entry (Es n) c i j k) (mo_phase (get freqs q) (nofnat n * dt)))).
    { destruct c as [|[|[|c]]]; [apply Px|apply Py|apply Pz|lia]; assumption. }
    rewrite E, A. unfold cadd, csum. cbn [fst snd]. reflexivity.
  Qed.
  Lemma first_sums freqs dt nx ny nz Es : sized (Es 0%nat) nx ny nz ->
    exists m', mo_update (mo_init freqs) (Es 0%nat) dt = Ok m' /\ sums m' freqs dt nx ny nz 1 Es.
  Proof.
    intros S. pose proof S as (W & Ex & Ey & Ez).
    assert (H : sums (mo_start (mo_init freqs) (Es 0%nat) dt) freqs dt nx ny nz 0 Es).
    { unfold mo_start. cbn [mo_init mo_dt mo_freqs mo_index]. rewrite Ex, Ey, Ez. unfold sums. cbn [mo_freqs mo_index mo_dt mo_shape]. do 4 (split; [reflexivity|]).
      split. { intros [|[|c]]; unfold acc_of; cbn [mo_acc]; apply tab_length. }
      intros q c i j k Hq Hc Hi Hj Hk. unfold acc_at, acc_of. cbn [mo_shape mo_acc].
      replace (match c with 0%nat => _ | 1%nat => _ | _ => _ end) with (tab (List.length freqs) (fun _ : nat => tab (nx * ny * nz) (fun _ : nat => @c0 T NT))) by (destruct c as [|[|c]]; reflexivity).
      rewrite nth_tab by exact Hq. rewrite cget_tab by (apply cell_lt; assumption). reflexivity. }
    destruct (update_sums _ _ _ _ _ _ _ _ dt H S) as (m' & E & P). exists m'. split; [|exact P].
    unfold mo_update in E |- *. cbv zeta in E |- *. assert (X : mo_start (mo_start (mo_init freqs) (Es 0%nat) dt) (Es 0%nat) dt = mo_start (mo_init freqs) (Es 0%nat) dt) by reflexivity.
    rewrite X in E. exact E.
  Qed.

  (** any number of updates *)
  Fixpoint updates (m : Monitor T) (l : list (Field T * T)) : result (Monitor T) :=
    match l with [] => Ok m | (E, dt) :: l => do m' <- mo_update m E dt; updates m' l end.
  Lemma updates_sums freqs dt nx ny nz Es : forall l m n, sums m freqs dt nx ny nz n Es ->
    (forall p E d, nth_error l p = Some (E, d) -> E = Es (n + p)%nat /\ sized E nx ny nz) ->
    exists m', updates m l = Ok m' /\ sums m' freqs dt nx ny nz (n + List.length l) Es.
  Proof.
    induction l as [|[E d] l IH]; intros m n H P.
    - exists m. rewrite Nat.add_0_r. auto.
    - destruct (P 0%nat E d eq_refl) as [X Sz]. rewrite Nat.add_0_r in X. subst E. destruct (update_sums _ _ _ _ _ _ _ _ d H Sz) as (m' & U & H'). cbn [updates].
      rewrite U. cbn [bind List.length]. rewrite Nat.add_succ_r. apply (IH m' (S n) H').
      intros p E d' Q. destruct (P (S p) E d' Q) as [-> S']. rewrite Nat.add_succ_r in *. auto.
  Qed.
End MonitorProofs.

Section MonitorRun.
  Context {T : Type} {NT : Num T} {LT : NumLaws T} {OT : NumOrd T} {FT : NumFl T} {TR : NumTr T}.
  Local Open Scope num_scope.

  Lemma mon_run_S {A} (upd : A -> Solver T -> T -> result (A * Solver T)) a s m n :
    mon_run upd a s m (S n) = (do p <- mon_run upd a s m n; mon_iter upd p n).
  Proof. unfold mon_run. rewrite seq_S, Nat.add_0_l. apply seq_upd_snoc. Qed.
  (** A run with a monitor is the run without it, and the monitor sees the field after each step. *)
  Lemma mon_run_sums {A} (upd : A -> Solver T -> T -> result (A * Solver T)) a s freqs nx ny nz dt (St : nat -> A * Solver T) : St 0%nat = (a, s) ->
    forall n, (forall l, (l < n)%nat -> src_iter upd (St l) l = Ok (St (S l)) /\ sized (sE (snd (St (S l)))) nx ny nz /\ sdt (snd (St (S l))) = dt) ->
    (0 < n)%nat -> exists m, mon_run upd a s (mo_init freqs) n = Ok (St n, m) /\ sums m freqs dt nx ny nz n (fun l => sE (snd (St (S l)))).
  Proof.
    intros E0. induction n as [|n IH]; intros H Hn; [lia|]. destruct (H n (Nat.lt_succ_diag_r n)) as (It & Sz & Dt). rewrite mon_run_S.
    destruct n as [|n].
    - unfold mon_run. cbn [seq seq_upd bind]. unfold mon_iter. cbn [fst snd]. rewrite <- E0, It. cbn [bind].
      destruct (first_sums freqs dt nx ny nz (fun l => sE (snd (St (S l)))) Sz) as (m & U & P). rewrite Dt, U. cbn [bind]. exists m. auto.
    - destruct IH as (m & R & P); [intros l Hl; apply H; lia|lia|]. rewrite R. cbn [bind]. unfold mon_iter. cbn [fst snd]. rewrite It. cbn [bind].
      destruct (update_sums m freqs dt nx ny nz (S n) (fun l => sE (snd (St (S l)))) dt P Sz) as (m' & U & P'). rewrite Dt, U. cbn [bind]. exists m'. auto.
  Qed.
End MonitorRun.
