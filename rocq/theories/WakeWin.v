(** Lemmas: the transverse window of a record, distances between cells and widths along the path. *)
From Coq Require Import List Arith ZArith Bool String Lia Field.
From Verif Require Import Num Vec FieldModel FieldSpec FieldProofs GridModel SolverModel SolverKern SolverCons
  WakeModel WakeNum WakeProofs WakeCells WakeNames WakeRun WakeTrans WakeTotal.
Import ListNotations.

Lemma window_first d : 3 <= d -> resolve d (KS (Some (Z.of_nat 0 - 1)%Z) (Some (Z.of_nat 0 + 2)%Z) None) = Ok [].
Proof.
  intros H. unfold resolve, slice_count, clip_pos. cbn [Z.eqb Z.of_nat].
  change (0 <? 1)%Z with true. change (0 - 1)%Z with (-1)%Z. change (0 + 2)%Z with 2%Z.
  change (-1 <? 0)%Z with true. change (2 <? 0)%Z with false. cbv iota.
  replace (-1 + Z.of_nat d <? 0)%Z with false by lia.
  replace (Z.of_nat d <? -1 + Z.of_nat d)%Z with false by lia.
  replace (Z.of_nat d <? 2)%Z with false by lia.
  change (2 <? 0)%Z with false. cbv iota.
  replace (-1 + Z.of_nat d <? 2)%Z with false by lia. reflexivity.
Qed.
Lemma window_last d : 2 <= d ->
  resolve d (KS (Some (Z.of_nat (d - 1) - 1)%Z) (Some (Z.of_nat (d - 1) + 2)%Z) None) = Ok [d - 2; d - 1].
Proof.
  intros H. pose proof (resolve_range d (d - 2) d ltac:(lia)) as R. unfold krange in R.
  replace (d - (d - 2)) with 2 in R by lia. cbn [seq] in R. replace (S (d - 2)) with (d - 1) in R by lia.
  rewrite <- R. replace (Z.of_nat (d - 1) - 1)%Z with (Z.of_nat (d - 2)) by lia.
  assert (C : clip_pos (Z.of_nat d) (Z.of_nat (d - 1) + 2) = clip_pos (Z.of_nat d) (Z.of_nat d)).
  { unfold clip_pos. destruct (Z.ltb_spec (Z.of_nat (d - 1) + 2) 0); [lia|]. destruct (Z.ltb_spec (Z.of_nat d) 0); [lia|].
    destruct (Z.ltb_spec (Z.of_nat (d - 1) + 2) 0); [lia|]. destruct (Z.ltb_spec (Z.of_nat d) 0); [lia|].
    destruct (Z.ltb_spec (Z.of_nat d) (Z.of_nat (d - 1) + 2)); [|lia]. destruct (Z.ltb_spec (Z.of_nat d) (Z.of_nat d)); lia. }
  unfold resolve. rewrite C. reflexivity.
Qed.

Section Win.
  Context {T : Type} {NT : Num T} {LT : NumLaws T} {OT : NumOrd T} {FT : NumFl T} {FL : NumFlLaws T}.
  Add Field winf : (@num_field T NT LT).
  Local Open Scope num_scope.

  (** The axes and the snapshots in the file of a run. *)
  Theorem run_axes (s : Solver T) g (w : Wake T) (a : WakeArgs T) s' f :
    wake_record s g w a = Ok (s', f) -> sdt s <> 0 ->
    exists ixt iyt zmax zmin xs ys zs u b c,
      nearest (centres (gx g)) (wk_xtest w) = Ok ixt /\ nearest (centres (gy g)) (wk_ytest w) = Ok iyt /\
      np_max (centres (gz g)) = Ok zmax /\ np_min (centres (gz g)) = Ok zmin /\
      take (window (wa_plane a) ixt) (centres (gx g)) = Ok xs /\ take (window (wa_plane a) iyt) (centres (gy g)) = Ok ys /\
      find f "x" = Some (vec xs) /\ find f "y" = Some (vec ys) /\
      let Nt := Z.to_nat (wake_Nt w (wa_len a) (sdt s) zmax zmin) in
      steps s (window (wa_plane a) ixt) (window (wa_plane a) iyt) (sNz s) (wa_beam a) (wa_cb a) Nt u b c /\
      f = axes_file xs ys zs (widths (gx g)) (widths (gy g)) (widths (gz g)) (tab Nt (fun n => nofnat n * sdt s))
          ++ map (fun n => (snap_key n, c n)) (seq 0 Nt).
  Proof.
    intros Hr Hd. apply wake_record_inv in Hr; [|exact Hd].
    destruct Hr as (ixt & iyt & zmax & zmin & xs & ys & zs & Hx & Hy & Hmax & Hmin & Hxs & Hys & Hzs & Hp).
    cbv zeta in Hp. destruct (record_steps _ _ _ _ _ _ _ _ _ Hp) as [St Ef]. apply (f_equal snd) in Ef. cbn [snd] in Ef.
    exists ixt, iyt, zmax, zmin, xs, ys, zs. do 3 eexists. do 6 (split; [eassumption|]).
    split; [rewrite Ef; reflexivity|]. split; [rewrite Ef; reflexivity|]. cbv zeta. split; [exact St|exact Ef].
  Qed.

  Lemma nearest_spec (v : list T) p i : nearest v p = Ok i ->
    (i < List.length v)%nat /\ forall l, (l < List.length v)%nat -> nltb (nabs (get v l - p)) (nabs (get v i - p)) = false.
  Proof.
    unfold nearest. intros H. apply argmin_spec in H. rewrite map_length in H. destruct H as (A & B & _).
    split; [exact A|]. intros l Hl. specialize (B l Hl). unfold get in B.
    assert (G : forall k, (k < List.length v)%nat -> nth k (map (fun a => nabs (a - p)) v) 0 = nabs (nth k v 0 - p)).
    { intros k Hk. rewrite (nth_indep _ 0 (nabs (0 - p))) by (rewrite map_length; exact Hk).
      apply (map_nth (fun a => nabs (a - p)) v 0 k). }
    rewrite !G in B by assumption. exact B.
  Qed.

  (** A record without transverse cells cannot be integrated. *)
  Lemma empty_cells (w : Wake T) f su w' :
    wk_hf w = None -> setup (read_Ez w f) = Ok su -> (0 < su_nt su)%nat ->
    (exists c ny nz, dataset su 0 = Ok c /\ shape c = [0%nat; ny; nz]) -> calc_long_WP_3d w (Some f) <> Ok w'.
  Proof.
    intros Hf Hs Hn (c & ny & nz & Hc & Hsh) H. unfold calc_long_WP_3d in H. rewrite opened_fresh in H by exact Hf. cbn [bind] in H.
    rewrite Hs in H. cbn [bind] in H. rewrite offsets_tab in H.
    destruct ((2 * wk_ntc (read_Ez w f) + 1) * (2 * wk_ntc (read_Ez w f) + 1))%nat as [|m] eqn:E; [lia|].
    unfold tab at 1 in H. cbn [seq map seq_upd] in H. unfold cell_step at 1 in H.
    destruct (su_nt su) as [|nt]; [lia|]. unfold collect at 1 in H. cbn [seq seq_upd] in H.
    unfold cell_column at 1 in H. rewrite Hc in H. cbn [bind] in H. rewrite Hsh in H. unfold pick in H. rewrite Hsh in H.
    rewrite resolve_int_bad in H by lia. cbn [bind] in H. discriminate H.
  Qed.

  (** Distance between the centres of the neighbours of cell i. *)
  Lemma two_neq : (1 + 1 : T) <> 0.
  Proof.
    intros H. pose proof (fl_nofnat 2) as A. pose proof (fl_0 (T := T)) as B. 
    assert (E2 : nofnat 2 = (1 + 1 : T)) by (cbn [nofnat]; ring). rewrite E2, H in A. rewrite A in B. discriminate B.
  Qed.
  Lemma centre_get (ax : list T) i : (i + 1 < List.length ax)%nat ->
    get (centres ax) i = get ax i + (get ax (S i) - get ax i) / (1 + 1) /\ get (widths ax) i = get ax (S i) - get ax i.
  Proof.
    intros H. unfold centres, widths. rewrite !get_tab by lia. cbn [nofnat]. split; [|reflexivity].
    f_equal. f_equal. ring.
  Qed.
  Lemma centre_gap (ax : list T) i : (1 <= i)%nat -> (i + 2 < List.length ax)%nat ->
    get (centres ax) (i + 1)%nat - get (centres ax) (i - 1)%nat
    = (get (widths ax) (i - 1)%nat + get (widths ax) (i + 1)%nat) / (1 + 1) + get (widths ax) i.
  Proof.
    intros H1 H2. destruct (centre_get ax (i + 1)%nat) as [-> ->]; [lia|]. destruct (centre_get ax (i - 1)%nat) as [-> ->]; [lia|].
    destruct (centre_get ax i) as [_ ->]; [lia|].
    replace (S (i - 1))%nat with i by lia. replace (S i) with (i + 1)%nat by lia.
    field. apply two_neq.
  Qed.
  Lemma centre_gap_uniform (ax : list T) d i j : (forall k, (k + 1 < List.length ax)%nat -> get (widths ax) k = d) ->
    (1 <= i)%nat -> (i + 2 < List.length ax)%nat -> (1 <= j)%nat -> (j + 1 < List.length ax)%nat ->
    get (centres ax) (i + 1)%nat - get (centres ax) (i - 1)%nat = get (widths ax) (j - 1)%nat + get (widths ax) j.
  Proof.
    intros H H1 H2 H3 H4. rewrite centre_gap by assumption. rewrite !H by lia. field. apply two_neq.
  Qed.
End Win.
