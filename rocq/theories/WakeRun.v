(** Lemmas: what wakesolve records, and the wake potential of a whole run. *)
From Coq Require Import List Arith ZArith Bool String Lia Ring Field.
From Verif Require Import Num Vec FieldModel FieldSpec FieldProofs FieldProofs2 GridModel SolverModel SolverBuild
  WakeModel WakeNum WakeProofs WakeCells WakeNames.
Import ListNotations.

Lemma seq_upd_app {A B} (f : A -> B -> result A) l1 : forall l2 a,
  seq_upd f a (l1 ++ l2) = bind (seq_upd f a l1) (fun a' => seq_upd f a' l2).
Proof.
  induction l1 as [|b l1 IH]; intros l2 a; [reflexivity|]. cbn [seq_upd app].
  destruct (f a b); cbn [bind]; [apply IH|reflexivity].
Qed.

Lemma snap_key_inj a b : a < 10 ^ 5 -> b < 10 ^ 5 -> snap_key a = snap_key b -> a = b.
Proof.
  intros Ha Hb E. apply Nat.compare_eq. rewrite <- snap_key_compare by assumption. rewrite E.
  pose proof (String.compare_antisym (snap_key b) (snap_key b)) as C.
  destruct (String.compare (snap_key b) (snap_key b)); [reflexivity|discriminate C|discriminate C].
Qed.

Section Run.
  Context {T : Type} {NT : Num T} {LT : NumLaws T} {OT : NumOrd T} {FT : NumFl T} {FL : NumFlLaws T}.
  Add Field wrf : (@num_field T NT LT).
  Local Open Scope num_scope.

  (** *** Reads of the field *)
  Lemma getitem_z (F : Field T) kx ky kz sx sy sz :
    resolve (fNx F) kx = Ok sx -> resolve (fNy F) ky = Ok sy -> resolve (fNz F) kz = Ok sz ->
    getitem (fun x => x) F (KTup kx ky kz (CStr "z")) =
      Ok {| shape := keep3 kx ky kz (List.length sx) (List.length sy) (List.length sz);
            dat := tab (List.length sx * List.length sy * List.length sz) (fun p =>
              entry F 2 (nth (p / (List.length sy * List.length sz)) sx 0%nat)
                        (nth ((p / List.length sz) mod List.length sy) sy 0%nat)
                        (nth (p mod List.length sz) sz 0%nat)) |}.
  Proof.
    intros Hx Hy Hz.
    change (getitem (fun x => x) F (KTup kx ky kz (CStr "z"))) with (mat_getitem (to_matrix_c F 2) kx ky kz).
    unfold mat_getitem. change (m0 (to_matrix_c F 2)) with (fNx F).
    change (m1 (to_matrix_c F 2)) with (fNy F). change (m2 (to_matrix_c F 2)) with (fNz F). rewrite Hx, Hy, Hz.
    do 2 f_equal. apply tab_ext. intros p Hp.
    set (ly := List.length sy) in *. set (lz := List.length sz) in *.
    assert (lz <> 0)%nat by (intros E; rewrite E in Hp; lia).
    assert (ly <> 0)%nat by (intros E; rewrite E in Hp; lia).
    rewrite mget_to_matrix.
    - symmetry. apply entry_at.
    - eapply resolve_bound; [exact Hx|]. apply nth_In. apply Nat.div_lt_upper_bound; [nia|]. nia.
    - eapply resolve_bound; [exact Hy|]. apply nth_In. apply Nat.mod_upper_bound. assumption.
    - eapply resolve_bound; [exact Hz|]. apply nth_In. apply Nat.mod_upper_bound. assumption.
  Qed.

  Lemma read_line (F : Field T) i j : (i < fNx F)%nat -> (j < fNy F)%nat ->
    getitem (fun x => x) F (KTup (KI (Z.of_nat i)) (KI (Z.of_nat j)) (krange 0 (Z.of_nat (fNz F))) (CStr "z"))
    = Ok (vec (tab (fNz F) (fun k => entry F 2 i j k))).
  Proof.
    intros Hi Hj.
    rewrite (getitem_z F _ _ _ [i] [j] (seq 0 (fNz F))).
    - cbn [keep3 kept app krange List.length]. rewrite seq_length.
      replace (1 * 1 * fNz F)%nat with (fNz F) by lia. replace (1 * fNz F)%nat with (fNz F) by lia.
      unfold vec. rewrite tab_length. f_equal. f_equal. apply tab_ext. intros k Hk.
      rewrite Nat.mod_1_r, Nat.div_small, Nat.mod_small, seq_nth by lia. reflexivity.
    - apply resolve_nat. exact Hi.
    - apply resolve_nat. exact Hj.
    - pose proof (resolve_range (fNz F) 0 (fNz F) ltac:(lia)) as R. rewrite Nat.sub_0_r in R. exact R.
  Qed.

  Lemma window_range d i : (1 <= i)%nat -> (i + 1 < d)%nat ->
    resolve d (KS (Some (Z.of_nat i - 1)%Z) (Some (Z.of_nat i + 2)%Z) None) = Ok [i - 1; i; i + 1]%nat.
  Proof.
    intros H1 H2. pose proof (resolve_range d (i - 1) (i + 2) ltac:(lia)) as R.
    replace (i + 2 - (i - 1))%nat with 3%nat in R by lia. unfold krange in R.
    replace (Z.of_nat (i - 1)) with (Z.of_nat i - 1)%Z in R by lia.
    replace (Z.of_nat (i + 2)) with (Z.of_nat i + 2)%Z in R by lia. rewrite R. cbn [seq].
    replace (S (i - 1))%nat with i by lia. replace (S i) with (i + 1)%nat by lia. reflexivity.
  Qed.

  Lemma read_window (F : Field T) i j : (1 <= i)%nat -> (i + 1 < fNx F)%nat -> (1 <= j)%nat -> (j + 1 < fNy F)%nat ->
    exists a, getitem (fun x => x) F (KTup (KS (Some (Z.of_nat i - 1)%Z) (Some (Z.of_nat i + 2)%Z) None)
                                           (KS (Some (Z.of_nat j - 1)%Z) (Some (Z.of_nat j + 2)%Z) None)
                                           (krange 0 (Z.of_nat (fNz F))) (CStr "z")) = Ok a /\
      shape a = [3; 3; fNz F] /\
      forall p q k, (p < 3)%nat -> (q < 3)%nat -> (k < fNz F)%nat ->
        get (dat a) (k + fNz F * (q + 3 * p)) = entry F 2 (i - 1 + p) (j - 1 + q) k.
  Proof.
    intros Hi1 Hi2 Hj1 Hj2.
    assert (R : resolve (fNz F) (krange 0 (Z.of_nat (fNz F))) = Ok (seq 0 (fNz F))).
    { pose proof (resolve_range (fNz F) 0 (fNz F) ltac:(lia)) as R. rewrite Nat.sub_0_r in R. exact R. }
    eexists. split; [apply (getitem_z F _ _ _ _ _ _ (window_range _ _ Hi1 Hi2) (window_range _ _ Hj1 Hj2) R)|].
    split; [cbn [shape keep3 kept app List.length krange]; rewrite seq_length; reflexivity|].
    intros p q k Hp Hq Hk. cbn [dat List.length]. rewrite seq_length. set (nz := fNz F) in *.
    assert (E : (k + nz * (q + 3 * p) < 3 * 3 * nz)%nat) by nia.
    rewrite get_tab by exact E.
    assert (D1 : ((k + nz * (q + 3 * p)) / nz = q + 3 * p)%nat).
    { rewrite Nat.add_comm, Nat.mul_comm, Nat.div_add_l, (Nat.div_small k) by lia. lia. }
    assert (M1 : ((k + nz * (q + 3 * p)) mod nz = k)%nat).
    { rewrite (Nat.mul_comm nz), Nat.mod_add, Nat.mod_small by lia. reflexivity. }
    assert (D2 : ((k + nz * (q + 3 * p)) / (3 * nz) = p)%nat).
    { rewrite (Nat.mul_comm 3 nz), <- Nat.div_div, D1 by lia.
      rewrite (Nat.add_comm q), (Nat.mul_comm 3 p), Nat.div_add_l, (Nat.div_small q) by lia. lia. }
    rewrite D1, D2, M1.
    assert (M2 : ((q + 3 * p) mod 3 = q)%nat).
    { rewrite (Nat.mul_comm 3 p), Nat.mod_add, Nat.mod_small by lia. reflexivity. }
    rewrite M2, seq_nth by exact Hk.
    assert (G : forall c r, (1 <= c)%nat -> (r < 3)%nat -> nth r [c - 1; c; c + 1]%nat 0%nat = (c - 1 + r)%nat).
    { intros c r Hc Hr. destruct r as [|[|[|r]]]; cbn [nth]; lia. }
    rewrite !G by assumption. reflexivity.
  Qed.

  (** *** The recorded states *)
  Section Record.
    Context (s : Solver T) (xx yy : ikey) (Nz : nat) (beam cb : T -> Solver T -> result (Solver T)) (head : File T).
    Notation iter := (wake_iter xx yy Nz beam cb).
    Definition prefix (n : nat) : result (Solver T * File T) := seq_upd iter (s, head) (seq 0 n).
    Definition u_ (n : nat) : Solver T := match prefix n with Ok (x, _) => x | Err _ => s end.
    Definition f_ (n : nat) : File T := match prefix n with Ok (_, x) => x | Err _ => head end.
    Definition b_ (n : nat) : Solver T := match beam (nofnat n * sdt (u_ n)) (u_ n) with Ok x => x | Err _ => u_ n end.
    Definition a_ (n : nat) : ndarray T :=
      match getitem (fun x => x) (sE (b_ n)) (KTup xx yy (krange 0 (Z.of_nat Nz)) (CStr "z")) with
      | Ok a => a | Err _ => {| shape := []; dat := [] |} end.

    (** Successive states of the loop: [u n] before and [b n] after the source of step [n]. *)
    Definition steps (Nt : nat) (u b : nat -> Solver T) (a : nat -> ndarray T) : Prop :=
      u 0%nat = s /\ forall n, (n < Nt)%nat ->
        beam (nofnat n * sdt (u n)) (u n) = Ok (b n) /\
        getitem (fun x => x) (sE (b n)) (KTup xx yy (krange 0 (Z.of_nat Nz)) (CStr "z")) = Ok (a n) /\
        exists m, one_step (b n) = Ok m /\ cb (nofnat n * sdt (u n)) m = Ok (u (S n)).

    Lemma prefix_S n : prefix (S n) = do st <- prefix n; iter st n.
    Proof. unfold prefix. rewrite seq_S, seq_upd_app. cbn [Nat.add seq_upd]. destruct (seq_upd iter (s, head) (seq 0 n)); [|reflexivity].
      cbn [bind]. destruct (iter a n); reflexivity. Qed.
    Lemma prefix_ok n m r : (n <= m)%nat -> prefix m = Ok r -> exists q, prefix n = Ok q.
    Proof.
      intros H. revert r. induction H as [|m H IH]; intros r E; [exists r; exact E|].
      rewrite prefix_S in E. binv E q Hq. apply (IH _ Hq).
    Qed.
    Lemma record_steps Nt r : prefix Nt = Ok r ->
      steps Nt u_ b_ a_ /\ r = (u_ Nt, head ++ map (fun n => (snap_key n, a_ n)) (seq 0 Nt)).
    Proof.
      induction Nt as [|n IH] in r |- *; intros E.
      - split; [split; [reflexivity|intros n Hn; lia]|]. unfold u_. rewrite E. unfold prefix in E. cbn [seq seq_upd] in E.
        injection E as <-. cbn [seq map]. rewrite app_nil_r. reflexivity.
      - rewrite prefix_S in E. binv E q Hq. destruct (IH _ Hq) as [[S0 S1] Eq]. subst q.
        unfold wake_iter in E. cbn [bind] in E.
        assert (Eu : u_ n = u_ n) by reflexivity.
        binv E b0 Hb. binv E a0 Ha. binv E m Hm. binv E u1 Hu. injection E as <-.
        assert (Bb : b_ n = b0) by (unfold b_; rewrite Hb; reflexivity).
        assert (Aa : a_ n = a0) by (unfold a_; rewrite Bb, Ha; reflexivity).
        assert (Uu : u_ (S n) = u1).
        { unfold u_ at 1. rewrite prefix_S, Hq. cbn [bind]. unfold wake_iter. rewrite Hb. cbn [bind]. rewrite Ha. cbn [bind].
          rewrite Hm. cbn [bind]. rewrite Hu. reflexivity. }
        split.
        + split; [exact S0|]. intros k Hk. destruct (Nat.eq_dec k n) as [->|N]; [|apply S1; lia].
          rewrite Bb, Aa, Uu. split; [exact Hb|]. split; [exact Ha|]. exists m. split; assumption.
        + rewrite Uu, seq_S, map_app, app_assoc. cbn [map Nat.add]. rewrite Aa. reflexivity.
    Qed.
  End Record.

  Lemma find_app (f g : File T) k : find (f ++ g) k = match find f k with Some a => Some a | None => find g k end.
  Proof. induction f as [|[m a] f IH]; [reflexivity|]. cbn [app find]. destruct (String.eqb m k); [reflexivity|apply IH]. Qed.
  Lemma find_snap (a : nat -> ndarray T) Nt n : (n < Nt)%nat -> (Nt <= 10 ^ 5)%nat ->
    find (map (fun n => (snap_key n, a n)) (seq 0 Nt)) (snap_key n) = Some (a n).
  Proof.
    intros Hn HN. enough (G : forall c s, (s <= n < s + c)%nat -> (s + c <= 10 ^ 5)%nat ->
      find (map (fun n => (snap_key n, a n)) (seq s c)) (snap_key n) = Some (a n)) by (apply G; lia).
    induction c as [|c IH]; intros s H1 H2; [lia|]. cbn [seq map find].
    destruct (String.eqb_spec (snap_key s) (snap_key n)) as [E|E].
    - apply snap_key_inj in E; [subst; reflexivity|lia|lia].
    - apply IH; [|lia]. destruct (Nat.eq_dec s n) as [->|]; [congruence|lia].
  Qed.
  Lemma find_snap_meta (a : nat -> ndarray T) l k : (forall n, snap_key n <> k) ->
    find (map (fun n => (snap_key n, a n)) l) k = None.
  Proof.
    intros H. induction l as [|n l IH]; [reflexivity|]. cbn [map find].
    destruct (String.eqb_spec (snap_key n) k) as [E|E]; [destruct (H _ E)|exact IH].
  Qed.

  (** The seven axes written before the loop. *)
  Definition axes_file (xs ys zs dx dy dz ts : list T) : File T :=
    [("x"%string, vec xs); ("y"%string, vec ys); ("z"%string, vec zs);
     ("dx"%string, vec dx); ("dy"%string, vec dy); ("dz"%string, vec dz); ("t"%string, vec ts)].
  Lemma axes_find xs ys zs dx dy dz ts n : find (axes_file xs ys zs dx dy dz ts) (snap_key n) = None.
  Proof. reflexivity. Qed.

  Lemma nceil_Z (x : T) (z : Z) : x = nofZ z -> Z.to_nat (nceil x) = Z.to_nat z.
  Proof.
    intros ->. destruct z as [|p|p].
    - unfold nofZ. rewrite ceil_nofnat. reflexivity.
    - unfold nofZ. rewrite ceil_nofnat. rewrite Z2Nat.id by lia. reflexivity.
    - unfold nofZ, nceil. replace (- - nofnat (Z.to_nat (- Z.neg p)) : T) with (nofnat (Z.to_nat (- Z.neg p)) : T) by ring.
      rewrite fl_nofnat. lia.
  Qed.
  Lemma arange_steps (Nt : Z) (dt : T) : dt <> 0 ->
    arange 0 (nofZ Nt * dt) dt = Ok (tab (Z.to_nat Nt) (fun n => nofnat n * dt)).
  Proof.
    intros Hd. unfold arange. assert (E : neqb dt 0 = false) by (apply neqb_neq; exact Hd). rewrite E.
    rewrite (nceil_Z _ Nt) by (field; exact Hd). f_equal. apply tab_ext. intros i _. ring.
  Qed.

  Lemma wake_record_inv (s : Solver T) g (w : Wake T) (a : WakeArgs T) r :
    sdt s <> 0 -> wake_record s g w a = Ok r ->
    exists ixt iyt zmax zmin xs ys zs,
      nearest (centres (gx g)) (wk_xtest w) = Ok ixt /\ nearest (centres (gy g)) (wk_ytest w) = Ok iyt /\
      np_max (centres (gz g)) = Ok zmax /\ np_min (centres (gz g)) = Ok zmin /\
      take (window (wa_plane a) ixt) (centres (gx g)) = Ok xs /\ take (window (wa_plane a) iyt) (centres (gy g)) = Ok ys /\
      take (krange 0 (Z.of_nat (sNz s))) (centres (gz g)) = Ok zs /\
      let Nt := Z.to_nat (wake_Nt w (wa_len a) (sdt s) zmax zmin) in
      prefix s (window (wa_plane a) ixt) (window (wa_plane a) iyt) (sNz s) (wa_beam a) (wa_cb a)
        (axes_file xs ys zs (widths (gx g)) (widths (gy g)) (widths (gz g)) (tab Nt (fun n => nofnat n * sdt s))) Nt = Ok r.
  Proof.
    intros Hd H. unfold wake_record in H.
    binv H ixt Hx. binv H iyt Hy. binv H zmax Hmax. binv H zmin Hmin. binv H xs Hxs. binv H ys Hys. binv H zs Hzs.
    rewrite arange_steps in H by exact Hd. cbn [bind] in H.
    exists ixt, iyt, zmax, zmin, xs, ys, zs. repeat (split; [assumption|]). exact H.
  Qed.

  Lemma centres_length (ax : list T) : List.length (centres ax) = (List.length ax - 1)%nat.
  Proof. apply tab_length. Qed.
  Lemma widths_length (ax : list T) : List.length (widths ax) = (List.length ax - 1)%nat.
  Proof. apply tab_length. Qed.

  Lemma keys_run (a : nat -> ndarray T) xs ys zs dx dy dz ts Nt : (Nt <= 10 ^ 5)%nat ->
    keys (axes_file xs ys zs dx dy dz ts ++ map (fun n => (snap_key n, a n)) (seq 0 Nt)) = map snap_key (seq 0 Nt) ++ meta_keys.
  Proof.
    intros H. unfold keys. rewrite map_app, map_map. cbn [fst].
    change (map fst (axes_file xs ys zs dx dy dz ts)) with meta_order. apply sort_run. exact H.
  Qed.

  (** The file of a run is a record in the sense of the wake solver. *)
  Lemma run_recorded (a : nat -> ndarray T) xs ys zs dx dy dz dt Nt : (Nt <= 10 ^ 5)%nat ->
    recorded (axes_file xs ys zs dx dy dz (tab Nt (fun n => nofnat n * dt)) ++ map (fun n => (snap_key n, a n)) (seq 0 Nt))
             Nt dt zs dz a.
  Proof.
    intros H. constructor; try (rewrite find_app; reflexivity).
    - rewrite keys_run by exact H. rewrite app_length, map_length, seq_length. cbn [meta_keys List.length]. lia.
    - intros n Hn. exists (snap_key n). split.
      + rewrite keys_run by exact H. rewrite nth_error_app1 by (rewrite map_length, seq_length; exact Hn).
        rewrite (map_nth_error snap_key n (seq 0 Nt) (d := n)); [reflexivity|].
        rewrite (nth_error_nth' (seq 0 Nt) 0%nat) by (rewrite seq_length; exact Hn). rewrite seq_nth by exact Hn. reflexivity.
      + rewrite find_app. rewrite axes_find. apply find_snap; assumption.
  Qed.

  Lemma take_all (v : list T) n : n = List.length v -> take (krange 0 (Z.of_nat n)) v = Ok v.
  Proof.
    intros ->. unfold take. pose proof (resolve_range (List.length v) 0 (List.length v) ltac:(lia)) as R.
    rewrite Nat.sub_0_r in R. change (Z.of_nat 0) with 0%Z in R. rewrite R. cbn [bind]. f_equal.
    change (map (get v) (seq 0 (List.length v))) with (tab (List.length v) (get v)). apply tab_get.
  Qed.

  Theorem run_long (s : Solver T) g (w : Wake T) (a : WakeArgs T) s' f :
    wake_record s g w a = Ok (s', f) ->
    named (wa_plane a) "longitudinal" = true -> wk_hf w = None -> wk_skip w = 0%nat ->
    nltb 0 (sdt s) = true -> nltb 0 (wk_v w) = true -> sNz s = gNz g ->
    exists ixt iyt zmin zmax u b c,
      nearest (centres (gx g)) (wk_xtest w) = Ok ixt /\ nearest (centres (gy g)) (wk_ytest w) = Ok iyt /\
      np_min (centres (gz g)) = Ok zmin /\ np_max (centres (gz g)) = Ok zmax /\
      let Nt := Z.to_nat (wake_Nt w (wa_len a) (sdt s) zmax zmin) in
      let dt := sdt s in
      steps s (KI (Z.of_nat ixt)) (KI (Z.of_nat iyt)) (sNz s) (wa_beam a) (wa_cb a) Nt u b c /\
      ((3 <= Nt)%nat -> (Nt <= 10 ^ 5)%nat ->
       (forall n, (n < Nt)%nat -> (ixt < fNx (sE (b n)))%nat /\ (iyt < fNy (sE (b n)))%nat /\ fNz (sE (b n)) = sNz s) ->
       exists w', solve_WP (wa_plane a) (with_len w (wa_len a)) (Some f) = Ok w' /\
       wk_s w' = Some (s_axis w dt (wa_len a)) /\
       wk_WP w' = Some (tab (List.length (s_axis w dt (wa_len a))) (fun n =>
         sum (sNz s) (fun k =>
           let it := (Z.of_nat n + delay (wk_v w) dt (get (centres (gz g)) k) zmin)%Z in
           if (it <? Z.of_nat Nt)%Z then entry (sE (b (Z.to_nat it))) 2 ixt iyt k * get (widths (gz g)) k else 0)
         / (wk_q w * pico)))).
  Proof.
    intros Hr Hpl Hhf Hsk Hd Hv HNz.
    apply wake_record_inv in Hr; [|apply pos_neq; exact Hd].
    destruct Hr as (ixt & iyt & zmax & zmin & xs & ys & zs & Hx & Hy & Hmax & Hmin & Hxs & Hys & Hzs & Hp).
    cbv zeta in Hp. set (Nt := Z.to_nat (wake_Nt w (wa_len a) (sdt s) zmax zmin)) in *.
    unfold window in Hp. rewrite Hpl in Hp.
    destruct (record_steps _ _ _ _ _ _ _ _ _ Hp) as [St Ef].
    exists ixt, iyt, zmin, zmax. eexists. eexists. eexists.
    split; [exact Hx|]. split; [exact Hy|]. split; [exact Hmin|]. split; [exact Hmax|]. cbv zeta. fold Nt.
    split; [exact St|]. intros N3 N5 Hsz.
    set (u := u_ _ _ _ _ _ _ _) in *. set (b := b_ _ _ _ _ _ _ _) in *. set (c := a_ _ _ _ _ _ _ _) in *.
    assert (Ef2 : f = axes_file xs ys zs (widths (gx g)) (widths (gy g)) (widths (gz g)) (tab Nt (fun n => nofnat n * sdt s)) ++ map (fun n => (snap_key n, c n)) (seq 0 Nt)) by congruence.
    rewrite Ef2.
    assert (Ez : zs = centres (gz g)).
    { rewrite take_all in Hzs; [congruence|]. rewrite centres_length. exact HNz. }
    subst zs. pose (e := fun n => tab (sNz s) (fun k => entry (sE (b n)) 2 ixt iyt k)).
    assert (Hc : forall n, (n < Nt)%nat -> c n = vec (e n)).
    { intros n Hn. destruct (Hsz n Hn) as (X1 & X2 & X3). destruct St as [_ St]. destruct (St n Hn) as (_ & G & _).
      rewrite <- X3 in G. rewrite read_line in G by assumption. injection G as G. rewrite <- G. unfold e. rewrite X3. reflexivity. }
    pose proof (run_recorded c xs ys (centres (gz g)) (widths (gx g)) (widths (gy g)) (widths (gz g)) (sdt s) Nt N5) as R.
    assert (R2 : recorded (axes_file xs ys (centres (gz g)) (widths (gx g)) (widths (gy g)) (widths (gz g)) (tab Nt (fun n => nofnat n * sdt s)) ++ map (fun n => (snap_key n, c n)) (seq 0 Nt)) Nt (sdt s) (centres (gz g)) (widths (gz g)) (fun n => vec (e n))).
    { destruct R as [R1 R3 R4 R5 R6]. constructor; try assumption. intros n Hn. destruct (R6 n Hn) as (k & K1 & K2).
      exists k. rewrite <- Hc by exact Hn. split; assumption. }
    unfold solve_WP.
    assert (P1 : named (wa_plane a) "both" = false /\ named (wa_plane a) "transverse" = false).
    { unfold named in *. apply String.eqb_eq in Hpl. rewrite Hpl. split; reflexivity. }
    destruct P1 as [P1 P2]. rewrite P1, P2, Hpl. cbn [orb].
    assert (Lz : List.length (centres (gz g)) = sNz s) by (rewrite centres_length; symmetry; exact HNz).
    destruct (long_WP_spec (with_len w (wa_len a)) _ Nt (sdt s) (centres (gz g)) (widths (gz g)) e (wa_len a)
                Hhf eq_refl Hsk R2 N3) as (zmin' & w2 & Z1 & Z2 & Z3 & Z4 & _); auto.
    { intros Q. rewrite Q in Hmin. discriminate. }
    { intros n Hn. unfold e. rewrite tab_length, Lz. reflexivity. }
    { rewrite centres_length, widths_length. lia. }
    assert (zmin' = zmin) by congruence. subst zmin'.
    exists w2. split; [exact Z2|]. split; [exact Z3|]. rewrite Z4. f_equal. unfold s_axis. rewrite tab_length. apply tab_ext. intros n Hn. f_equal.
    rewrite Lz. apply sum_ext. intros k Hk. cbv zeta. cbn [wk_v with_len].
    match goal with |- context [if (?p <? ?q)%Z then _ else _] => destruct (Z.ltb_spec p q) as [L|L] end; [|reflexivity].
    unfold e. rewrite get_tab by exact Hk. reflexivity.
  Qed.
End Run.
