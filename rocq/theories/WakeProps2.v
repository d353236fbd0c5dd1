(** Properties C57, C58, C61, C62, C71, C76 to C80: files, windows and options of the wake solver. *)
From Coq Require Import List Arith ZArith Bool String Lia QArith Qcanon.
From Verif Require Import Num Vec FieldModel FieldSpec FieldProofs GridModel SolverModel SolverKern SolverCons SolverKit
  WakeModel WakeNum WakeProofs WakeCells WakeNames WakeRun WakeTrans WakeTotal WakeProps.
Import ListNotations.
Open Scope nat_scope.

(** ** C57.  Full claim: sorting the dataset names of a run gives time order, for every run length. *)
Theorem C57_order_partial : forall (T : Type) (NT : Num T) (LT : NumLaws T) (OT : NumOrd T) (FT : NumFl T) (FL : NumFlLaws T)
    (s : Solver T) g (w : Wake T) (a : WakeArgs T) s' f,
  wake_record s g w a = Ok (s', f) -> sdt s <> nzero ->
  exists zmin zmax ixt iyt u b c,
    np_min (centres (gz g)) = Ok zmin /\ np_max (centres (gz g)) = Ok zmax /\
    let Nt := Z.to_nat (wake_Nt w (wa_len a) (sdt s) zmax zmin) in
    steps s (window (wa_plane a) ixt) (window (wa_plane a) iyt) (sNz s) (wa_beam a) (wa_cb a) Nt u b c /\
    (Nt <= 10 ^ 5 -> forall n, n < Nt ->
       exists name, nth_error (sort_names (map fst f)) n = Some name /\ find f name = Some (c n)).
Proof.
  intros T NT LT OT FT FL s g w a s' f H Hd.
  destruct (run_keys s g w a s' f H Hd) as (zmin & zmax & ixt & iyt & u & b & c & A & B & C & _ & _ & D).
  exists zmin, zmax, ixt, iyt, u, b, c. split; [exact A|]. split; [exact B|]. cbv zeta in *. split; [exact C|].
  intros H5 n Hn. destruct (D H5) as [K F]. exists (snap_key n). split; [|apply F; exact Hn].
  unfold keys in K. rewrite K. rewrite nth_error_app1 by (rewrite map_length, seq_length; exact Hn).
  rewrite (map_nth_error snap_key n (seq 0 _) (d := n)); [reflexivity|].
  rewrite (nth_error_nth' _ 0) by (rewrite seq_length; exact Hn). rewrite seq_nth by exact Hn. reflexivity.
Qed.
Print Assumptions C57_order_partial.

(** Every longer run is read back in another order; the name of step 100000 sorts before that of 99999. *)
Theorem C57_long_runs_refuted : (exists Nt, sort_names (meta_order ++ map snap_key (seq 0 Nt)) <> map snap_key (seq 0 Nt) ++ meta_keys) /\
  (forall Nt, 10 ^ 5 < Nt -> sort_names (meta_order ++ map snap_key (seq 0 Nt)) <> map snap_key (seq 0 Nt) ++ meta_keys) /\
  str_leb (snap_key (10 ^ 5)) (snap_key (Nat.pred (10 ^ 5))) = true /\ str_leb (snap_key (Nat.pred (10 ^ 5))) (snap_key (10 ^ 5)) = false.
Proof.
  split; [|split; [exact sort_run_fails|]].
  - exists (S (10 ^ 5)). apply sort_run_fails. apply Nat.lt_succ_diag_r.
  - rewrite key_99999, key_100000. split; reflexivity.
Qed.
Print Assumptions C57_long_runs_refuted.

(** The same for a whole run. *)
Theorem C57_long_run_order : forall (T : Type) (NT : Num T) (LT : NumLaws T) (OT : NumOrd T) (FT : NumFl T) (FL : NumFlLaws T)
    (s : Solver T) g (w : Wake T) (a : WakeArgs T) s' f zmin zmax,
  wake_record s g w a = Ok (s', f) -> sdt s <> nzero ->
  np_min (centres (gz g)) = Ok zmin -> np_max (centres (gz g)) = Ok zmax ->
  10 ^ 5 < Z.to_nat (wake_Nt w (wa_len a) (sdt s) zmax zmin) ->
  sort_names (map fst f) <> map snap_key (seq 0 (Z.to_nat (wake_Nt w (wa_len a) (sdt s) zmax zmin))) ++ meta_keys.
Proof.
  intros T NT LT OT FT FL s g w a s' f zmin zmax H Hd H1 H2 H5.
  destruct (run_keys s g w a s' f H Hd) as (zmin' & zmax' & ixt & iyt & u & b & c & A & B & C & K & _).
  assert (zmin' = zmin) by congruence. assert (zmax' = zmax) by congruence. subst. cbv zeta in K. unfold keys in K. rewrite K.
  apply sort_run_fails. exact H5.
Qed.
Print Assumptions C57_long_run_order.

(** Example: the box of C52. *)
Example C57_case : exists g' s s' f, made envQ gridQ g' boxQ s /\ wake_record s gridQ (wQ 0 false) runQ = Ok (s', f) /\
  sdt s <> nzero /\ List.length f = 23 /\ nth_error (sort_names (map fst f)) 9 = Some "#00009"%string.
Proof.
  destruct boxQ_made as (g' & s & Hm & Hd). assert (Hd0 : sdt s <> nzero).
  { rewrite Hd. intros H. apply (f_equal this) in H. discriminate H. }
  destruct (record_ok envQ gridQ g' boxQ s (wQ 0 false) runQ Hm) as (s' & f & E & _).
  - rewrite Hd. reflexivity.
  - apply ramp_harmless.
  - apply idle_harmless.
  - exists g', s, s', f. split; [exact Hm|]. split; [exact E|]. split; [exact Hd0|].
    destruct (run_keys s gridQ (wQ 0 false) runQ s' f E Hd0) as (zmin & zmax & ixt & iyt & u & b & c & A & B & C & K & _ & K5).
    cbv zeta in *. rewrite Hd in *.
    assert (V : match np_min (centres (gz gridQ)), np_max (centres (gz gridQ)) with
                | Ok lo, Ok hi => wake_Nt (wQ 0 false) (wa_len runQ) (q 1 4) hi lo | _, _ => 0%Z end = 16%Z) by (vm_compute; reflexivity).
    rewrite A, B in V. rewrite V in K, K5. destruct K5 as [K5 _]; [apply Nat.leb_le; vm_compute; reflexivity|].
    assert (L : forall n l, List.length (insert_name n l) = S (List.length l)).
    { intros n l. induction l as [|x l IH]; [reflexivity|]. cbn [insert_name]. destruct (str_leb n x); [reflexivity|]. cbn [List.length]. rewrite IH. reflexivity. }
    assert (L2 : forall l, List.length (sort_names l) = List.length l).
    { induction l as [|x l IH]; [reflexivity|]. cbn [sort_names fold_right]. rewrite L. unfold sort_names in IH. rewrite IH. reflexivity. }
    split.
    + rewrite <- (map_length fst), <- L2. fold (keys f). rewrite K5. reflexivity.
    + fold (keys f). rewrite K5. reflexivity.
Qed.

(** ** C58.  In exact arithmetic the number of steps read is the number recorded and every dataset
    read is a snapshot. *)
Theorem C58_snapshots_only_partial : forall (T : Type) (NT : Num T) (LT : NumLaws T) (OT : NumOrd T) (FT : NumFl T) (FL : NumFlLaws T)
    (s : Solver T) g (w : Wake T) (a : WakeArgs T) s' f su,
  wake_record s g w a = Ok (s', f) -> sdt s <> nzero -> setup (read_Ez w f) = Ok su ->
  exists zmin zmax ixt iyt u b c,
    np_min (centres (gz g)) = Ok zmin /\ np_max (centres (gz g)) = Ok zmax /\
    let Nt := Z.to_nat (wake_Nt w (wa_len a) (sdt s) zmax zmin) in
    steps s (window (wa_plane a) ixt) (window (wa_plane a) iyt) (sNz s) (wa_beam a) (wa_cb a) Nt u b c /\
    su_nt su <= Nt /\ (Nt <= 10 ^ 5 -> su_nt su = Nt /\ forall n, n < su_nt su -> dataset su n = Ok (c n)).
Proof.
  intros T NT LT OT FT FL s g w a s' f su H Hd Hs.
  destruct (run_keys s g w a s' f H Hd) as (zmin & zmax & ixt & iyt & u & b & c & A & B & C & _ & Ft & D).
  exists zmin, zmax, ixt, iyt, u, b, c. split; [exact A|]. split; [exact B|]. cbv zeta in *.
  set (Nt := Z.to_nat (wake_Nt w (wa_len a) (sdt s) zmax zmin)) in *. split; [exact C|].
  assert (X : su_nt su = (if (List.length (keys f) - 4 <? Nt) then List.length (keys f) - 4 else Nt) /\ su_keys su = keys f /\ su_f su = f).
  { apply (setup_nt w f su Nt (sdt s)); assumption. }
  destruct X as (X1 & X2 & X3). split.
  { rewrite X1. destruct (Nat.ltb_spec (List.length (keys f) - 4) Nt); lia. }
  intros H5. destruct (D H5) as [K F].
  assert (E : su_nt su = Nt).
  { rewrite X1, K, app_length, map_length, seq_length. cbn [meta_keys List.length].
    destruct (Nat.ltb_spec (Nt + 7 - 4) Nt); lia. }
  split; [exact E|]. intros n Hn. rewrite E in Hn. unfold dataset. rewrite X2, X3, K.
  rewrite nth_error_app1 by (rewrite map_length, seq_length; exact Hn).
  rewrite (map_nth_error snap_key n (seq 0 Nt) (d := n)).
  2:{ rewrite (nth_error_nth' _ 0) by (rewrite seq_length; exact Hn). rewrite seq_nth by exact Hn. reflexivity. }
  cbn [some bind]. rewrite F by exact Hn. reflexivity.
Qed.
Print Assumptions C58_snapshots_only_partial.

(** A time array one entry longer than the snapshots (float rounding of np.arange, WakeFloat.v): the
    widths dx are read as the field of the last step. *)
Theorem C58_long_time_array : forall (T : Type) (NT : Num T) (LT : NumLaws T) (OT : NumOrd T) (FT : NumFl T)
    (w : Wake T) (a : nat -> ndarray T) xs ys zs dx dy dz (t : list T) Nt su,
  Nt <= 10 ^ 5 -> List.length t = S Nt ->
  let f := axes_file xs ys zs dx dy dz t ++ map (fun n => (snap_key n, a n)) (seq 0 Nt) in
  setup (read_Ez w f) = Ok su -> su_nt su = S Nt /\ dataset su Nt = Ok (vec dx).
Proof.
  intros T NT LT OT FT w a xs ys zs dx dy dz t Nt su H5 Ht f Hs.
  assert (K : keys f = map snap_key (seq 0 Nt) ++ meta_keys).
  { unfold f, keys. rewrite map_app, map_map. cbn [fst]. change (map fst (axes_file xs ys zs dx dy dz t)) with meta_order.
    apply sort_run. exact H5. }
  unfold setup in Hs.
  change (wk_t (read_Ez w f)) with (Some t) in Hs. cbn [some bind] in Hs.
  repeat match type of Hs with (do x <- ?r; _) = _ => destruct r eqn:?; [cbn [bind] in Hs|discriminate Hs] end.
  change (wk_hf (read_Ez w f)) with (Some f) in *.
  match goal with H : some AttributeError (Some f) = Ok ?z |- _ => cbn [some] in H; injection H as <- end.
  apply (f_equal (fun r => match r with Ok x => x | Err _ => su end)) in Hs. subst su.
  unfold dataset. cbn [su_nt su_keys su_f]. rewrite Ht, K, app_length, map_length, seq_length. cbn [meta_keys List.length].
  split.
  - destruct (Nat.ltb_spec (Nt + 7 - 4) (S Nt)); lia.
  - rewrite nth_error_app2 by (rewrite map_length, seq_length; lia). rewrite map_length, seq_length, Nat.sub_diag.
    reflexivity.
Qed.
Print Assumptions C58_long_time_array.

Example C58_case : exists w : Wake Qc, exists f su, setup (read_Ez w f) = Ok su /\ su_nt su = 6 /\ dataset su 5 = Ok (vec dxQ).
Proof.
  pose (f := axes_file [q 2 1] [q 2 1] zQ dxQ dxQ dzQ (tab 6 (fun n => nofnat n * q 1 2)%num)
             ++ map (fun n => (snap_key n, vec (rowQ 2 n))) (seq 0 5)).
  assert (H : exists su, setup (read_Ez (wQ 0 false) f) = Ok su).
  { assert (V : match setup (read_Ez (wQ 0 false) f) with Ok _ => true | _ => false end = true) by (vm_compute; reflexivity).
    destruct (setup (read_Ez (wQ 0 false) f)) as [su|]; [exists su; reflexivity|discriminate]. }
  destruct H as [su H]. exists (wQ 0 false), f, su. split; [exact H|].
  apply (C58_long_time_array Qc _ _ _ _ (wQ 0 false) (fun n => vec (rowQ 2 n)) [q 2 1] [q 2 1] zQ dxQ dxQ dzQ
           (tab 6 (fun n => nofnat n * q 1 2)%num) 5 su); [apply Nat.leb_le; vm_compute; reflexivity|reflexivity|exact H].
Qed.

(** ** C61.  Full claim: a supplied matrix is used.  It never is: without an open file the call raises
    AttributeError, with one the file's snapshots replace the matrix. *)
Theorem C61_supplied_matrix_ignored : forall (T : Type) (NT : Num T) (OT : NumOrd T) (FT : NumFl T) (w : Wake T) disk (E E' : list (list T)),
  calc_long_WP w disk (Some E) = calc_long_WP w disk (Some E') /\
  (wk_hf w = None -> forall w', calc_long_WP w disk (Some E) <> Ok w').
Proof.
  intros T NT OT FT w disk E E'. split; [apply supplied_same|]. intros H w' X.
  unfold calc_long_WP in X. cbn [bind] in X. unfold setup in X.
  repeat match type of X with (do x <- (do y <- ?r; _); _) = _ => destruct r eqn:?; [cbn [bind] in X|discriminate X] end.
  match goal with Y : some AttributeError (wk_hf _) = Ok _ |- _ => cbn [with_Ezt wk_hf] in Y; rewrite H in Y; discriminate Y end.
Qed.
Print Assumptions C61_supplied_matrix_ignored.
Theorem C61_refuted : exists (w : Wake Qc) f (E E' : list (list Qc)) w', E <> E' /\ wk_hf w = Some f /\
  calc_long_WP w None (Some E) = Ok w' /\ calc_long_WP w None (Some E') = Ok w' /\ wk_Ezt w' <> Some E /\ wk_Ezt w' <> Some E'.
Proof.
  pose (f := fileQ (fun n => vec (rowQ 2 n))).
  pose (E := repeat (repeat (q 1 1) 3) 6). pose (E' := repeat (repeat (q 5 1) 3) 6).
  pose (first := fun r : result (Wake Qc) => match r with Ok w => match wk_Ezt w with Some m => Some (this (get (nth 0 m []) 0)) | None => None end | Err _ => None end).
  assert (V : first (calc_long_WP (read_Ez (wQ 0 false) f) None (Some E)) = Some 2%Q) by (vm_compute; reflexivity).
  destruct (calc_long_WP (read_Ez (wQ 0 false) f) None (Some E)) as [w'|] eqn:X; [|discriminate V].
  exists (read_Ez (wQ 0 false) f), f, E, E', w'.
  split. { intros H. apply (f_equal (fun m => this (get (nth 0 m []) 0))) in H. discriminate H. }
  split; [reflexivity|]. split; [exact X|].
  split; [rewrite <- X; apply (C61_supplied_matrix_ignored Qc)|]. unfold first in V.
  split; intros H; rewrite H in V; discriminate V.
Qed.
Print Assumptions C61_refuted.

(** ** C62.  Full claim: a dict charge distribution is interpolated from its two entries.  Every dict
    raises. *)
Theorem C62_refuted : (exists (w : Wake Qc) (d : list (string * list Qc)), List.length d = 2 /\
    (forall z l, calc_lambdas_input w (ChDict d) <> Ok (z, l))) /\
  forall (T : Type) (NT : Num T) (w : Wake T) (d : list (string * list T)) r, calc_lambdas_input w (ChDict d) <> Ok r.
Proof.
  assert (G : forall (T : Type) (NT : Num T) (w : Wake T) (d : list (string * list T)) r, calc_lambdas_input w (ChDict d) <> Ok r).
  { intros T NT w d r H. unfold calc_lambdas_input in H.
    destruct (charge_axis w (ChDict d)) as [oz|]; [cbn [bind] in H|discriminate H].
    destruct oz; cbn [some bind] in H; discriminate H. }
  split; [|exact G]. exists (wQ 0 false), [("X"%string, [q 1 1]); ("Y"%string, [q 2 1])]. split; [reflexivity|].
  intros z l. apply G.
Qed.
Print Assumptions C62_refuted.
(** Files and arrays over a matching axis work. *)
Theorem C62_arrays_partial : forall (T : Type) (NT : Num T) (w : Wake T) (z v : list T),
  wk_z w = Some z -> List.length z = List.length v ->
  calc_lambdas_input w (ChArray v) = Ok (z, map (fun x => x / wk_q w)%num v).
Proof.
  intros T NT w z v Hz Hl. unfold calc_lambdas_input, charge_axis. rewrite Hz. cbn [some bind len_charge].
  rewrite Hl, Nat.eqb_refl. reflexivity.
Qed.
Print Assumptions C62_arrays_partial.
