(** Lemmas: gathering a distributed field on rank 0. *)
From Coq Require Import List Arith ZArith Bool String Lia.
From Verif Require Import Num Vec Index Matrix FieldModel FieldSpec FieldProofs FieldProofs2
  GridModel GridProofs SolverModel SolverPlanes MpiModel MpiSolverModel MpiTiles.
Import ListNotations.

Section Gather.
  Context {T : Type} {NT : Num T} {OT : NumOrd T}.

  Lemma seq_upd_app {A B} (f : A -> B -> result A) l1 : forall l2 a,
    seq_upd f a (l1 ++ l2) = bind (seq_upd f a l1) (fun a' => seq_upd f a' l2).
  Proof.
    induction l1 as [|b l1 IH]; intros l2 a; [reflexivity|]. cbn [seq_upd app].
    destruct (f a b); cbn [bind]; [apply IH|reflexivity].
  Qed.

  Lemma seq_upd_collect {A B} (f : A -> result B) (g : A -> B) l : forall acc,
    (forall x, In x l -> f x = Ok (g x)) ->
    seq_upd (fun acc x => do b <- f x; Ok (acc ++ [b])) acc l = Ok (acc ++ map g l).
  Proof.
    induction l as [|x l IH]; intros acc H; cbn [seq_upd map]; [rewrite app_nil_r; reflexivity|].
    rewrite H by (left; reflexivity). cbn [bind]. rewrite IH by (intros; apply H; right; assumption).
    rewrite <- app_assoc. reflexivity.
  Qed.

  Lemma seq_upd_collect' {A B} (f : list B -> A -> result (list B)) (g : A -> B) l : forall acc,
    (forall acc x, In x l -> f acc x = Ok (acc ++ [g x])) -> seq_upd f acc l = Ok (acc ++ map g l).
  Proof.
    induction l as [|x l IH]; intros acc H; cbn [seq_upd map]; [rewrite app_nil_r; reflexivity|].
    rewrite H by (left; reflexivity). cbn [bind]. rewrite IH by (intros; apply H; right; assumption).
    rewrite <- app_assoc. reflexivity.
  Qed.

  Lemma flat_map_tab (v : nat -> nat -> T) ks m :
    flat_map (fun a => map (v a) ks) (seq 0 m) =
    tab (m * List.length ks) (fun p => v (p / List.length ks) (nth (p mod List.length ks) ks 0)).
  Proof.
    induction m as [|m IH]; [reflexivity|]. rewrite seq_S, flat_map_app, IH. cbn [flat_map plus]. rewrite app_nil_r.
    set (n := List.length ks). apply (list_eq_nth _ _ nzero).
    - rewrite app_length, map_length, !tab_length. fold n. lia.
    - intros i Hi. rewrite app_length, map_length, tab_length in Hi. fold n in Hi.
      rewrite nth_tab by lia. destruct (Nat.lt_ge_cases i (m * n)) as [H|H].
      + rewrite app_nth1 by (rewrite tab_length; exact H). rewrite nth_tab by exact H. reflexivity.
      + rewrite app_nth2 by (rewrite tab_length; exact H). rewrite tab_length.
        assert (Ei : i = (i - m * n) + n * m) by lia.
        rewrite (nth_indep _ _ (v m 0)) by (rewrite map_length; fold n; lia). rewrite map_nth.
        rewrite Ei at 2 3. rewrite div_add_l, mod_add_l by lia. reflexivity.
  Qed.

  (** The matrix a component key selects. *)
  Definition selm (sqrt : T -> T) (c : ckey) (F : Field T) : mat3 T :=
    match to_matrix F c with Some m => m | None => get_abs sqrt F end.
  Definition sel_ok (c : ckey) : bool := match comp_of c with Some _ => true | None => is_abs c end.
  Lemma getitem_selm sqrt F kx ky kz c :
    getitem sqrt F (KTup kx ky kz c) = if sel_ok c then mat_getitem (selm sqrt c F) kx ky kz else Err IndexError.
  Proof. unfold getitem, selm, sel_ok, to_matrix. destruct (comp_of c); cbn [option_map]; [reflexivity|]. destruct (is_abs c); reflexivity. Qed.
  Lemma selm_dims sqrt c F : m0 (selm sqrt c F) = fNx F /\ m1 (selm sqrt c F) = fNy F /\ m2 (selm sqrt c F) = fNz F.
  Proof. unfold selm, to_matrix. destruct (comp_of c); cbn; auto. Qed.
  Lemma comp_lt c d : comp_of c = Some d -> d < 3.
  Proof.
    unfold comp_of. intros H. repeat match goal with H : context [match ?x with _ => _ end] |- _ => destruct x end; try discriminate;
      injection H as <-; lia.
  Qed.
  Lemma selm_ext sqrt c F G i j k k' :
    i < fNx F -> j < fNy F -> k < fNz F -> i < fNx G -> j < fNy G -> k' < fNz G ->
    (forall d, d < 3 -> entry F d i j k = entry G d i j k') ->
    mget (selm sqrt c F) i j k = mget (selm sqrt c G) i j k'.
  Proof.
    intros. unfold selm, to_matrix. destruct (comp_of c) as [d|] eqn:E; cbn [option_map].
    - apply comp_lt in E. rewrite !mget_to_matrix by assumption. rewrite <- !entry_at. auto.
    - unfold get_abs. rewrite !mget_mtab by assumption. rewrite !mget_to_matrix by assumption. rewrite <- !entry_at.
      rewrite !H5 by lia. reflexivity.
  Qed.

  Context (Nx Ny size nz : nat) (Hnz : 0 < nz) (Hsize : 0 < size).
  Notation NZ := (size * nz).
  Lemma own_NZ : NZ / size = nz.
  Proof. rewrite Nat.mul_comm. apply Nat.div_mul. lia. Qed.
  Lemma width r : r < size -> nz + (if (r =? 0) || (r =? size - 1) then 1 else 2) = lay NZ size r.
  Proof.
    intros H. unfold lay, own, glo, ghi. rewrite own_NZ.
    destruct (Nat.eqb_spec r 0), (Nat.eqb_spec r (size - 1)), (Nat.ltb_spec 0 r), (Nat.ltb_spec r (size - 1)), (Nat.eqb_spec size 1); cbn [orb]; lia.
  Qed.
  Lemma lo_glo r : (if r =? 0 then 0 else 1) = glo r.
  Proof. unfold glo. destruct r; reflexivity. Qed.

  Lemma assemble_spec m (bufs : list (list T)) (u : nat -> nat -> nat -> T) :
    (forall r, r < size -> nth r bufs [] = tab (m * lay NZ size r) (fun p => u r (p / lay NZ size r) (p mod lay NZ size r))) ->
    exists V, assemble NZ size (Z.of_nat m) bufs = Ok V /\
      forall a r k, a < m -> r < size -> k < nz -> V a (r * nz + k) = u r a (k + glo r).
  Proof.
    intros HB. unfold assemble.
    assert (X : forall n, n <= size -> exists V, seq_upd (paste NZ size (Z.of_nat m) bufs) (fun _ _ => nzero) (seq 0 n) = Ok V /\
      forall a r k, a < m -> r < n -> k < nz -> V a (r * nz + k) = u r a (k + glo r)).
    { induction n as [|n IH]; intros Hn.
      - eexists. split; [reflexivity|]. intros; lia.
      - destruct (IH ltac:(lia)) as (V & EV & A). rewrite seq_S, seq_upd_app, EV. cbn [seq_upd bind plus].
        unfold paste. rewrite own_NZ, width by lia. rewrite HB by lia. unfold reshape2. rewrite tab_length.
        replace ((0 <=? Z.of_nat m)%Z && (Z.of_nat (m * lay NZ size n) =? Z.of_nat m * Z.of_nat (lay NZ size n))%Z) with true
          by (symmetry; rewrite Nat2Z.inj_mul, Z.eqb_refl, andb_true_r; apply Z.leb_le; lia).
        cbn [bind]. eexists. split; [reflexivity|]. intros a r k Ha Hr Hk. cbn beta.
        assert (Hl : nz + glo n <= lay NZ size n) by (unfold lay, own; rewrite own_NZ; lia).
        destruct (Nat.eq_dec r n) as [->|Hrn].
        + destruct (Nat.leb_spec (n * nz) (n * nz + k)); [|lia]. destruct (Nat.ltb_spec (n * nz + k) ((n + 1) * nz)); [|nia].
          cbn [andb]. rewrite lo_glo.
          replace (a * lay NZ size n + (n * nz + k - n * nz + glo n)) with (k + glo n + lay NZ size n * a) by lia.
          rewrite get_tab by nia. rewrite div_add_l, mod_add_l by lia. reflexivity.
        + destruct (Nat.leb_spec (n * nz) (r * nz + k)); [nia|]. cbn [andb]. apply A; lia. }
    apply X. lia.
  Qed.

  Context (Fs : list (Field T)) (G : Field T).
  Context (HL : List.length Fs = size) (HF : forall r, r < size -> sized (nth r Fs (field_zeros 0 0 0)) Nx Ny (lay NZ size r)).
  Context (HGs : sized G Nx Ny NZ).
  Context (Hown : forall r k c i j, r < size -> k < nz -> c < 3 -> i < Nx -> j < Ny ->
    entry (nth r Fs (field_zeros 0 0 0)) c i j (k + glo r) = entry G c i j (r * nz + k)).

  (** Requests: None, an int, or slice(a, b) inside the grid. *)
  Definition request (N : nat) (x : option pyidx) : Prop :=
    match x with
    | None => True
    | Some (PyInt _) => True
    | Some (PySlice (Some a) (Some b) None) => (0 <= a <= b)%Z /\ (b <= Z.of_nat N)%Z
    | _ => False
    end.
  Definition request_key (N : nat) (x : option pyidx) : ikey :=
    match x with None => krange 0 (Z.of_nat N) | Some i => ikey_of i end.

  Lemma request_cases N x : request N x ->
    (exists z, match x with Some x => x | None => PySlice (Some 0%Z) (Some (Z.of_nat N)) None end = PyInt z /\ request_key N x = KI z) \/
    (exists a b, match x with Some x => x | None => PySlice (Some 0%Z) (Some (Z.of_nat N)) None end = PySlice (Some (Z.of_nat a)) (Some (Z.of_nat b)) None /\
       request_key N x = krange (Z.of_nat a) (Z.of_nat b) /\ a <= b <= N).
  Proof.
    destruct x as [[z|z|[a|] [b|] [c|]]|]; cbn [request]; try contradiction; intros H.
    - left. exists z. auto.
    - right. exists (Z.to_nat a), (Z.to_nat b). cbn [request_key ikey_of]. rewrite !Z2Nat.id by lia. unfold krange. repeat split; lia.
    - right. exists 0, N. cbn [request_key]. repeat split; lia.
  Qed.

  Lemma nth_seq0 a n p : p < n -> nth p (seq a n) 0 = a + p.
  Proof. intros. rewrite seq_nth by assumption. reflexivity. Qed.

  (** What is common to the four shapes of request. *)
  Lemma gather_core sqrt c kx ky kz sx sy :
    sel_ok c = true -> resolve Nx kx = Ok sx -> resolve Ny ky = Ok sy ->
    let local F := do v <- getitem sqrt F (KTup kx ky kfull c); Ok (dat v) in
    let m := List.length sx * List.length sy in
    exists bufs, seq_upd (fun l F => do b <- local F; Ok (l ++ [b])) [] Fs = Ok bufs /\
      (do v <- assemble NZ size (Z.of_nat m) bufs;
       do o <- pick_z NZ ((if kept kx then [List.length sx] else []) ++ (if kept ky then [List.length sy] else [])) v kz; Ok (Some o))
      = if (if kept kx then true else List.length sx =? 1) && (if kept ky then true else List.length sy =? 1)
        then (do v <- getitem sqrt G (KTup kx ky kz c); Ok (Some v))
        else (do v <- assemble NZ size (Z.of_nat m) bufs;
              do o <- pick_z NZ ((if kept kx then [List.length sx] else []) ++ (if kept ky then [List.length sy] else [])) v kz; Ok (Some o)).
  Proof.
    intros Hc Rx Ry local m.
    set (loc := fun F : Field T => tab (m * fNz F) (fun p =>
       mget (selm sqrt c F) (nth (p / fNz F / List.length sy) sx 0) (nth ((p / fNz F) mod List.length sy) sy 0) (p mod fNz F))).
    assert (El : forall F n, sized F Nx Ny n -> local F = Ok (loc F)).
    { intros F n [Hw [EX [EY EZ]]]. unfold local. rewrite getitem_selm, Hc. unfold mat_getitem.
      destruct (selm_dims sqrt c F) as (-> & -> & ->). rewrite EX, EY, EZ, Rx, Ry, resolve_full. cbn [bind dat].
      rewrite seq_length. f_equal. unfold loc. rewrite EZ. apply tab_ext. intros p Hp. unfold m in Hp.
      assert (n <> 0) by (intros ->; lia). assert (List.length sy <> 0) by (intros E0; rewrite E0 in Hp; lia).
      f_equal.
      - f_equal. rewrite Nat.div_div by assumption. f_equal. lia.
      - rewrite nth_seq0 by (apply Nat.mod_upper_bound; assumption). reflexivity. }
    assert (Hin : forall F, In F Fs -> local F = Ok (loc F)).
    { intros F Hi. destruct (In_nth _ _ (field_zeros 0 0 0) Hi) as (r & Hr & <-). rewrite HL in Hr. eapply El. apply HF, Hr. }
    exists (map loc Fs). rewrite (seq_upd_collect _ loc Fs [] Hin). split; [reflexivity|].
    set (u := fun r a k => mget (selm sqrt c (nth r Fs (field_zeros 0 0 0))) (nth (a / List.length sy) sx 0) (nth (a mod List.length sy) sy 0) k).
    destruct (assemble_spec m (map loc Fs) u) as (V & EV & A).
    { intros r Hr. rewrite (nth_indep _ [] (loc (field_zeros 0 0 0))) by (rewrite map_length; lia). rewrite map_nth.
      unfold loc, u. destruct (HF r Hr) as (_ & _ & _ & ->). reflexivity. }
    rewrite EV. cbn [bind].
    destruct ((if kept kx then true else List.length sx =? 1) && (if kept ky then true else List.length sy =? 1)) eqn:Ek; [|reflexivity].
    apply andb_prop in Ek. destruct Ek as [K1 K2].
    rewrite getitem_selm, Hc. unfold mat_getitem. destruct (selm_dims sqrt c G) as (-> & -> & ->).
    destruct HGs as (Hw & EX & EY & EZ). rewrite EX, EY, EZ, Rx, Ry. unfold pick_z.
    destruct (resolve NZ kz) as [ks|e] eqn:Rz; cbn [bind]; [|reflexivity]. do 3 f_equal.
    - unfold keep3. rewrite app_assoc. reflexivity.
    - rewrite flat_map_tab.
      assert (Es : size_of ((if kept kx then [List.length sx] else []) ++ (if kept ky then [List.length sy] else [])) = m).
      { unfold m. destruct (kept kx), (kept ky); cbn [app size_of fold_right]; try apply Nat.eqb_eq in K1; try apply Nat.eqb_eq in K2; nia. }
      rewrite Es. unfold m. apply tab_ext. intros p Hp. set (lz := List.length ks) in *. set (ly := List.length sy) in *.
      assert (lz <> 0) by (intros E0; rewrite E0 in Hp; lia).
      assert (ly <> 0) by (intros E0; rewrite E0 in Hp; lia).
      assert (Pa : p / lz < m) by (apply Nat.div_lt_upper_bound; unfold m; lia).
      assert (Pk : p mod lz < lz) by (apply Nat.mod_upper_bound; assumption).
      assert (Pz : nth (p mod lz) ks 0 < NZ) by (eapply resolve_bound; [exact Rz|apply nth_In; exact Pk]).
      set (K := nth (p mod lz) ks 0) in *.
      assert (EK : K = K / nz * nz + K mod nz) by (rewrite Nat.mul_comm; apply Nat.div_mod; lia).
      assert (Kr : K / nz < size) by (apply Nat.div_lt_upper_bound; lia).
      assert (Km : K mod nz < nz) by (apply Nat.mod_upper_bound; lia).
      rewrite EK at 1. rewrite A by assumption. unfold u.
      assert (Px : nth (p / lz / ly) sx 0 < Nx).
      { eapply resolve_bound; [exact Rx|]. apply nth_In. apply Nat.div_lt_upper_bound; [assumption|]. unfold m in Pa. lia. }
      assert (Py : nth ((p / lz) mod ly) sy 0 < Ny).
      { eapply resolve_bound; [exact Ry|]. apply nth_In. apply Nat.mod_upper_bound; assumption. }
      replace (p / (ly * lz)) with (p / lz / ly) by (rewrite Nat.div_div by assumption; f_equal; lia).
      destruct (HF (K / nz) Kr) as (W & X & Y & Z).
      apply selm_ext; rewrite ?X, ?Y, ?Z, ?EX, ?EY, ?EZ; try assumption.
      + unfold lay, own. rewrite own_NZ. lia.
      + intros d Hd. rewrite Hown by assumption. rewrite <- EK. reflexivity.
  Qed.

  Lemma bind_same {A} (r : result A) : (do x <- r; Ok x) = r.
  Proof. destruct r; reflexivity. Qed.

  Lemma gather_zero sqrt x y z comp : request Nx x -> request Ny y ->
    mpi_gather sqrt Nx Ny NZ size 0 Fs x y z comp =
    (do v <- getitem sqrt G (KTup (request_key Nx x) (request_key Ny y) (request_key NZ z)
                               (match comp with Some c => c | None => CStr "z" end)); Ok (Some v)).
  Proof.
    intros Hx Hy. unfold mpi_gather. set (c := match comp with Some c => c | None => _ end).
    assert (Ez : ikey_of match z with Some z => z | None => PySlice (Some 0%Z) (Some (Z.of_nat NZ)) None end = request_key NZ z)
      by (destruct z; reflexivity).
    rewrite Ez. set (kz := request_key NZ z). clearbody kz.
    pose proof (HF 0 ltac:(lia)) as H0. set (F0 := nth 0 Fs _) in *.
    destruct (sel_ok c) eqn:Hc.
    2:{ cbn [negb Nat.eqb]. rewrite !getitem_selm, Hc. reflexivity. }
    assert (Err1 : forall kx ky e, (match resolve Nx kx, resolve Ny ky with Err e', _ => Some e' | _, Err e' => Some e' | _, _ => None end) = Some e ->
       (do v <- getitem sqrt F0 (KTup kx ky kfull c); Ok (dat v)) = Err e /\ getitem sqrt G (KTup kx ky kz c) = Err e).
    { intros kx ky e He. rewrite !getitem_selm, Hc. unfold mat_getitem. destruct H0 as (_ & X0 & Y0 & Z0), HGs as (_ & X1 & Y1 & Z1).
      destruct (selm_dims sqrt c F0) as (-> & -> & ->). destruct (selm_dims sqrt c G) as (-> & -> & ->).
      rewrite X0, Y0, Z0, X1, Y1. destruct (resolve Nx kx), (resolve Ny ky); try discriminate; injection He as <-; auto. }
    assert (Gen : forall kx ky lead mz,
      (forall sx sy, resolve Nx kx = Ok sx -> resolve Ny ky = Ok sy ->
        mz = Z.of_nat (List.length sx * List.length sy) /\
        lead = (if kept kx then [List.length sx] else []) ++ (if kept ky then [List.length sy] else []) /\
        (if kept kx then true else List.length sx =? 1) && (if kept ky then true else List.length sy =? 1) = true) ->
      (do mine <- (do v <- getitem sqrt F0 (KTup kx ky kfull c); Ok (dat v));
       do bufs <- seq_upd (fun l F => do b <- (do v <- getitem sqrt F (KTup kx ky kfull c); Ok (dat v)); Ok (l ++ [b])) [] Fs;
       do v <- assemble NZ size mz bufs;
       do o <- pick_z NZ lead v kz; Ok (Some o)) = (do v <- getitem sqrt G (KTup kx ky kz c); Ok (Some v))).
    { intros kx ky lead mz HH.
      destruct (resolve Nx kx) as [sx|e] eqn:Rx;
      [destruct (resolve Ny ky) as [sy|e] eqn:Ry;
       [|destruct (Err1 kx ky e) as [-> ->]; [rewrite Rx, Ry; reflexivity|reflexivity]]
      |destruct (Err1 kx ky e) as [-> ->]; [rewrite Rx; reflexivity|reflexivity]].
      assert (Loc : exists b, (do v <- getitem sqrt F0 (KTup kx ky kfull c); Ok (dat v)) = Ok b).
      { rewrite getitem_selm, Hc; unfold mat_getitem; destruct H0 as (_ & X0 & Y0 & Z0);
         destruct (selm_dims sqrt c F0) as (-> & -> & ->); rewrite X0, Y0, Z0, Rx, Ry, resolve_full; cbn [bind]; eexists; reflexivity. }
      destruct Loc as (b & ->); cbn [bind].
      destruct (gather_core sqrt c kx ky kz sx sy Hc Rx Ry) as (bufs & -> & Q); cbn [bind].
      destruct (HH sx sy eq_refl eq_refl) as (-> & -> & E). rewrite E in Q. exact Q. }
    assert (L1 : forall N z s, resolve N (KI z) = Ok s -> List.length s = 1).
    { intros N z0 s0 R. unfold resolve in R. destruct (_ && _)%bool in R; [injection R as <-; reflexivity|discriminate]. }
    destruct (request_cases Nx x Hx) as [(zx & Ex & Kx)|(ax & bx & Ex & Kx & Bx)];
    destruct (request_cases Ny y Hy) as [(zy & Ey & Ky)|(ay & by_ & Ey & Ky & By)]; rewrite Ex, Ey, Kx, Ky;
      cbn [ikey_of is_pyint andb negb Nat.eqb extent bind];
      repeat match goal with |- context [KS (Some ?a) (Some ?b) None] => fold (krange a b) end; apply Gen; intros sx sy Rx Ry;
      cbn [kept krange app].
    - apply L1 in Rx. apply L1 in Ry. rewrite Rx, Ry. auto.
    - apply L1 in Rx. rewrite resolve_range in Ry by lia. injection Ry as <-. rewrite seq_length, Rx.
      replace (Z.of_nat by_ - Z.of_nat ay)%Z with (Z.of_nat (by_ - ay)) by lia. rewrite Nat2Z.id, Nat.mul_1_l. auto.
    - apply L1 in Ry. rewrite resolve_range in Rx by lia. injection Rx as <-. rewrite seq_length, Ry.
      replace (Z.of_nat bx - Z.of_nat ax)%Z with (Z.of_nat (bx - ax)) by lia. rewrite Nat2Z.id, Nat.mul_1_r. auto.
    - rewrite resolve_range in Rx, Ry by lia. injection Rx as <-. injection Ry as <-. rewrite !seq_length.
      replace (Z.of_nat bx - Z.of_nat ax)%Z with (Z.of_nat (bx - ax)) by lia.
      replace (Z.of_nat by_ - Z.of_nat ay)%Z with (Z.of_nat (by_ - ay)) by lia. rewrite !Nat2Z.id, Nat2Z.inj_mul. auto.
  Qed.

  Lemma set_block (A : Field T) d r n f : sized A Nx Ny NZ -> d < 3 -> n = nz -> r < size ->
    exists A', setitem A (KTup kfull kfull (krange (Z.of_nat (r * nz)) (Z.of_nat ((r + 1) * nz))) (cname d)) (VArr (arr3 Nx Ny n f)) = Ok A' /\
      sized A' Nx Ny NZ /\
      forall c i j k, c < 3 -> i < Nx -> j < Ny -> k < NZ ->
        entry A' c i j k = if (c =? d) && (r * nz <=? k) && (k <? (r + 1) * nz) then f i j (k - r * nz) else entry A c i j k.
  Proof.
    intros [Hw [EX [EY EZ]]] Hd -> Hr.
    assert (Rz : resolve (fNz A) (krange (Z.of_nat (r * nz)) (Z.of_nat ((r + 1) * nz))) = Ok (seq (r * nz) nz)).
    { rewrite EZ. rewrite resolve_range by nia. do 2 f_equal. lia. }
    assert (Hb : bcast_ok (VArr (arr3 Nx Ny nz f)) (keep3 kfull kfull (krange (Z.of_nat (r * nz)) (Z.of_nat ((r + 1) * nz)))
               (List.length (seq 0 (fNx A))) (List.length (seq 0 (fNy A))) (List.length (seq (r * nz) nz))) = true).
    { rewrite !seq_length, EX, EY. cbn. rewrite !Nat.eqb_refl, !orb_true_r. reflexivity. }
    destruct (setitem_spec A kfull kfull (krange (Z.of_nat (r * nz)) (Z.of_nat ((r + 1) * nz))) (cname d) d _ _ _ _
      Hw (comp_cname d Hd) (resolve_full _) (resolve_full _) Rz Hb) as [A' [E [W [X [Y [Z P]]]]]].
    exists A'. split; [exact E|]. split; [split; [exact W|]; repeat split; congruence|].
    intros c i j k Hc Hi Hj Hk. rewrite !entry_at, P by (try assumption; congruence).
    rewrite !pos_of_full by congruence. rewrite pos_of_seq.
    replace (k <? (r + 1) * nz) with (k <? r * nz + nz) by (f_equal; lia).
    destruct (Nat.leb_spec (r * nz) k), (Nat.ltb_spec k (r * nz + nz)); cbn [andb]; rewrite ?andb_false_r; try reflexivity.
    rewrite !andb_true_r. destruct (c =? d); [|reflexivity].
    cbn [bget keep3 kept kfull krange app rev]. unfold arr3. cbn [shape dat rev app bflat].
    rewrite (bc1 nz) by lia. rewrite (bc1 _ _ Hj), (bc1 _ _ Hi).
    rewrite <- (mget_mtab Nx Ny nz f i j (k - r * nz)) by lia. unfold mget. cbn [m1 m2 mtab]. f_equal. lia.
  Qed.

  Lemma gather_comp_spec (A : Field T) d : sized A Nx Ny NZ -> d < 3 ->
    exists A', gather_comp Nx Ny NZ size Fs A d = Ok A' /\ sized A' Nx Ny NZ /\
      forall c i j k, c < 3 -> i < Nx -> j < Ny -> k < NZ ->
        entry A' c i j k = if c =? d then entry G c i j k else entry A c i j k.
  Proof.
    intros SA Hd. unfold gather_comp.
    set (loc := fun F : Field T => tab (Nx * Ny * fNz F) (fun p =>
       entry F d (p / fNz F / Ny) ((p / fNz F) mod Ny) (p mod fNz F))).
    assert (El : forall F n, sized F Nx Ny n -> (do v <- getitem (fun x => x) F (KTup kfull kfull kfull (cname d)); Ok (dat v)) = Ok (loc F)).
    { intros F n [Hw [EX [EY EZ]]]. unfold getitem, to_matrix. rewrite (comp_cname d Hd). cbn [option_map]. unfold mat_getitem.
      cbn [m0 m1 m2 to_matrix_c mtab]. rewrite EX, EY, EZ, !resolve_full. cbn [bind dat]. rewrite !seq_length. f_equal.
      unfold loc. rewrite EZ. apply tab_ext. intros p Hp.
      assert (n <> 0) by (intros ->; lia). assert (Ny <> 0) by (intros E0; rewrite E0 in Hp; lia).
      assert (p / n / Ny < Nx) by (apply Nat.div_lt_upper_bound; [assumption|]; apply Nat.div_lt_upper_bound; lia).
      assert ((p / n) mod Ny < Ny) by (apply Nat.mod_upper_bound; assumption).
      assert (p mod n < n) by (apply Nat.mod_upper_bound; assumption).
      replace (p / (Ny * n)) with (p / n / Ny) by (rewrite Nat.div_div by assumption; f_equal; lia).
      rewrite !nth_seq0, !Nat.add_0_l by assumption.
      change ({| m0 := Nx; m1 := Ny; m2 := n; mdat := _ |}) with (mtab Nx Ny n (fun i j k => at_ F d i j k)) || idtac.
      rewrite entry_at. apply mget_to_matrix; congruence. }
    assert (Hin : forall F, In F Fs -> (do v <- getitem (fun x => x) F (KTup kfull kfull kfull (cname d)); Ok (dat v)) = Ok (loc F)).
    { intros F Hi. destruct (In_nth _ _ (field_zeros 0 0 0) Hi) as (r & Hr & <-). rewrite HL in Hr. eapply El. apply HF, Hr. }
    assert (Eb : seq_upd (fun l F => do v <- getitem (fun x => x) F (KTup kfull kfull kfull (cname d)); Ok (l ++ [dat v])) [] Fs = Ok (map loc Fs)).
    { apply (seq_upd_collect' _ loc Fs []). intros acc F Hi. specialize (Hin F Hi).
      destruct (getitem _ F _); cbn [bind] in *; [|discriminate]. injection Hin as ->. reflexivity. }
    rewrite Eb. cbn [bind].
    assert (X : forall n, n <= size -> exists A', seq_upd (fun G r =>
      let nz := NZ / size in
      let w := nz + (if (r =? 0) || (r =? size - 1) then 1 else 2) in
      let lo := if r =? 0 then 0 else 1 in
      do v <- reshape2 (nth r (map loc Fs) []) (Z.of_nat (Nx * Ny)) w;
      setitem G (KTup kfull kfull (krange (Z.of_nat (r * nz)) (Z.of_nat ((r + 1) * nz))) (cname d))
        (VArr (arr3 Nx Ny nz (fun i j k => v (i * Ny + j) (k + lo))))) A (seq 0 n) = Ok A' /\ sized A' Nx Ny NZ /\
      forall c i j k, c < 3 -> i < Nx -> j < Ny -> k < NZ ->
        entry A' c i j k = if (c =? d) && (k <? n * nz) then entry G c i j k else entry A c i j k).
    { induction n as [|n IH]; intros Hn.
      - exists A. split; [reflexivity|]. split; [exact SA|]. intros. cbn [Nat.mul]. rewrite andb_false_r. reflexivity.
      - destruct (IH ltac:(lia)) as (A1 & E1 & S1 & P1). rewrite seq_S, seq_upd_app, E1. cbn [seq_upd bind plus]. cbv zeta.
        rewrite own_NZ, width by lia. rewrite lo_glo.
        rewrite (nth_indep _ [] (loc (field_zeros 0 0 0))) by (rewrite map_length; lia). rewrite map_nth.
        unfold reshape2. pose proof (HF n ltac:(lia)) as (Wn & Xn & Yn & Zn). set (Fn := nth n Fs _) in *.
        unfold loc at 1. rewrite tab_length, Zn.
        replace ((0 <=? Z.of_nat (Nx * Ny))%Z && (Z.of_nat (Nx * Ny * lay NZ size n) =? Z.of_nat (Nx * Ny) * Z.of_nat (lay NZ size n))%Z) with true
          by (symmetry; rewrite (Nat2Z.inj_mul (Nx * Ny)), Z.eqb_refl, andb_true_r; apply Z.leb_le; lia).
        cbn [bind].
        destruct (set_block A1 d n nz (fun i j k => get (loc Fn) ((i * Ny + j) * lay NZ size n + (k + glo n))) S1 Hd eq_refl ltac:(lia))
          as (A2 & E2 & S2 & P2). rewrite E2. cbn [bind]. exists A2. split; [reflexivity|]. split; [exact S2|].
        intros c i j k Hc Hi Hj Hk. rewrite P2, P1 by assumption.
        replace ((n + 1) * nz) with (S n * nz) by lia.
        destruct (Nat.eqb_spec c d) as [->|]; cbn [andb]; [|reflexivity].
        destruct (Nat.leb_spec (n * nz) k), (Nat.ltb_spec k (S n * nz)), (Nat.ltb_spec k (n * nz)); cbn [andb]; try lia; try reflexivity.
        assert (Hl : nz + glo n <= lay NZ size n) by (unfold lay, own; rewrite own_NZ; lia).
        unfold loc. rewrite Zn.
        set (K := k - n * nz + glo n). assert (HK : K < lay NZ size n) by (unfold K; nia).
        replace ((i * Ny + j) * lay NZ size n + K) with (K + lay NZ size n * (i * Ny + j)) by lia.
        assert (Hij : i * Ny + j + 1 <= Nx * Ny) by nia.
        assert (HB : K + lay NZ size n * (i * Ny + j) < Nx * Ny * lay NZ size n)
          by (pose proof (Nat.mul_le_mono_r _ _ (lay NZ size n) Hij); lia).
        rewrite get_tab by exact HB. rewrite div_add_l, mod_add_l by exact HK.
        replace (i * Ny + j) with (j + Ny * i) by lia. rewrite div_add_l, mod_add_l by exact Hj.
        unfold K, Fn. rewrite Hown by (try assumption; nia). f_equal. lia. }
    destruct (X size ltac:(lia)) as (A' & E & SA' & P). exists A'. split; [exact E|]. split; [exact SA'|].
    intros c i j k Hc Hi Hj Hk. rewrite P by assumption. destruct (Nat.ltb_spec k (size * nz)); [|lia]. rewrite andb_true_r. reflexivity.
  Qed.

  Lemma gather_field_zero : exists A, mpi_gather_asField Nx Ny NZ size 0 Fs = Ok A /\ sized A Nx Ny NZ /\
    forall c i j k, c < 3 -> i < Nx -> j < Ny -> k < NZ -> entry A c i j k = entry G c i j k.
  Proof.
    unfold mpi_gather_asField. cbn [Nat.eqb axes seq_upd].
    destruct (gather_comp_spec (field_zeros Nx Ny NZ) 0 (sized_zeros _ _ _) ltac:(lia)) as (A0 & -> & S0 & P0). cbn [bind].
    destruct (gather_comp_spec A0 1 S0 ltac:(lia)) as (A1 & -> & S1 & P1). cbn [bind].
    destruct (gather_comp_spec A1 2 S1 ltac:(lia)) as (A2 & -> & S2 & P2). cbn [bind]. exists A2. split; [reflexivity|].
    split; [exact S2|]. intros c i j k Hc Hi Hj Hk. rewrite P2, P1, P0 by assumption.
    destruct c as [|[|[|c]]]; [reflexivity..|lia].
  Qed.
End Gather.
