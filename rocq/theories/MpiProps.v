(** Properties C46, C47, C49, C50, C51, C70: distributed grids, halo exchange, gathering. *)
From Coq Require Import List Arith ZArith Bool String Lia QArith Qcanon Reals.
From Verif Require Import Num Vec Index Matrix FieldModel FieldSpec FieldProofs FieldProofs2 GridModel GridProofs SolverModel SolverPlanes SolverKern SolverCons
  SolverMaterials SolverBuild SolverSpec SolverOps SolverKit MpiModel MpiComm MpiSolverModel MpiTiles MpiHalo MpiGather MpiBc.
Import ListNotations.
Open Scope nat_scope.

(** ** C46.  Rank [r] owns the global layers r*nz .. (r+1)*nz - 1 and holds [below] and [above] extra
    layers; local node [i] is global node r*nz + i - below. *)
Theorem C46_tiles : forall (T : Type) (NT : Num T) (LT : NumLaws T), char0 T ->
  forall (ZMIN ZMAX : T) (Nz size : nat), 0 < size <= Nz ->
  exists NZ nz, NZ = Nz - Nz mod size /\ NZ = size * nz /\ 0 < nz /\
    (forall K, K < NZ -> exists r, (r < size /\ r * nz <= K < (r + 1) * nz) /\
                         forall r', r' < size -> r' * nz <= K < (r' + 1) * nz -> r' = r) /\
    forall r, r < size -> exists t, mpi_tile ZMIN ZMAX Nz size r = Ok t /\ tl_NZ t = NZ /\
      tl_Nz t = nz + below r + (if size =? 1 then 1 else above size r) /\
      List.length (tl_z t) = tl_Nz t + 1 /\
      (forall i, i <= tl_Nz t ->
         get (tl_z t) i = nadd ZMIN (nmul (nofnat (r * nz + i - below r)) (ndiv (nsub ZMAX ZMIN) (nofnat NZ))) /\
         (1 < size -> r * nz + i - below r <= NZ /\ get (tl_z t) i = get (linspace ZMIN ZMAX NZ) (r * nz + i - below r))) /\
      List.length (tl_Z t) = NZ /\
      forall K, K < NZ -> get (tl_Z t) K =
        ndiv (nadd (get (linspace ZMIN ZMAX NZ) K) (get (linspace ZMIN ZMAX NZ) (K + 1))) two.
Proof.
  intros T NT LT C0 ZMIN ZMAX Nz size [H1 H2]. destruct (NZ_facts Nz size H1 H2) as (F1 & F2 & F3 & F4 & F5).
  set (NZ := Nz - Nz mod size) in *. exists NZ, (own NZ size). split; [reflexivity|]. split; [exact F1|]. split; [exact F2|]. split.
  - intros K HK. exists (K / own NZ size). split.
    + split; [apply Nat.div_lt_upper_bound; lia|]. pose proof (Nat.div_mod K (own NZ size) ltac:(lia)).
      pose proof (Nat.mod_upper_bound K (own NZ size) ltac:(lia)). nia.
    + intros r' _ [A B]. apply (Nat.div_unique K (own NZ size) r' (K - r' * own NZ size)); lia.
  - intros r Hr. destruct (tile_spec ZMIN ZMAX Nz size r C0 H2 Hr) as (t & Et & A & B & C & D & E & F). fold NZ in A, B, C, D, E, F.
    assert (Ea : lay NZ size r = own NZ size + below r + (if size =? 1 then 1 else above size r)).
    { unfold lay, glo, ghi, below, above. destruct (Nat.eqb_spec size 1); [|rewrite orb_false_r; reflexivity]. rewrite orb_true_r. reflexivity. }
    exists t. split; [exact Et|]. split; [exact A|]. split; [congruence|]. split; [congruence|]. split; [|auto].
    intros i Hi. rewrite B in Hi. split; [apply D, Hi|]. intros Hs.
    assert (Hb : r * own NZ size + i - below r <= NZ).
    { rewrite Ea in Hi. enough (r * own NZ size + i - below r <= size * own NZ size) by lia. revert Hi. unfold below, above. destruct (Nat.eqb_spec size 1); [lia|].
      assert (X : (r + 1) * own NZ size <= size * own NZ size) by (apply Nat.mul_le_mono_r; lia).
      assert (Y : r < size - 1 -> (r + 1 + 1) * own NZ size <= size * own NZ size) by (intros; apply Nat.mul_le_mono_r; lia).
      rewrite !Nat.mul_add_distr_r, !Nat.mul_1_l in X, Y.
      destruct (Nat.ltb_spec 0 r), (Nat.ltb_spec r (size - 1)); intros Hi; try specialize (Y ltac:(assumption)); lia. }
    split; [exact Hb|]. rewrite D by exact Hi. unfold linspace. rewrite get_tab by lia. reflexivity.
Qed.
Print Assumptions C46_tiles.

Theorem C46_too_many_ranks : forall (T : Type) (NT : Num T) (ZMIN ZMAX : T) (Nz size r : nat), Nz < size ->
  mpi_tile ZMIN ZMAX Nz size r = Err ValueError.
Proof. intros T NT ZMIN ZMAX Nz size r H. unfold mpi_tile. destruct (Nat.ltb_spec Nz size); [reflexivity|lia]. Qed.
Print Assumptions C46_too_many_ranks.

Definition Qz (r : result (Tile Qc)) : list Q := match r with Ok t => map this (tl_z t) | Err _ => [] end.
(** Eleven layers asked for on three ranks: nine are used. *)
Example C46_case : char0 Qc /\ 0 < 3 <= 11 /\
  map (fun r => Qz (mpi_tile (q 0 1) (q 9 1) 11 3 r)) [0; 1; 2] =
  [[0; 1; 2; 3; 4]; [2; 3; 4; 5; 6; 7]; [5; 6; 7; 8; 9]]%Q.
Proof. split; [exact char0_Qc|]. split; [lia|]. vm_compute. reflexivity. Qed.

(** With one rank the domain gains a layer beyond ZMAX. *)
Theorem C46_one_rank_grows : forall (T : Type) (NT : Num T) (LT : NumLaws T), char0 T -> forall (ZMIN ZMAX : T) (Nz : nat), 0 < Nz ->
  exists t, mpi_tile ZMIN ZMAX Nz 1 0 = Ok t /\ tl_NZ t = Nz /\ tl_Nz t = Nz + 1 /\
    get (tl_z t) Nz = ZMAX /\ get (tl_z t) (Nz + 1) = nadd ZMAX (ndiv (nsub ZMAX ZMIN) (nofnat Nz)).
Proof.
  intros T NT LT C0 ZMIN ZMAX Nz H. destruct (C46_tiles T NT LT C0 ZMIN ZMAX Nz 1 ltac:(lia)) as (NZ & nz & E1 & E2 & Hz & _ & Ht).
  rewrite Nat.mod_1_r, Nat.sub_0_r in E1. assert (NZ = Nz) by lia. assert (nz = Nz) by lia. subst NZ nz.
  destruct (Ht 0 ltac:(lia)) as (t & Et & A & B & C & D & _). exists t. cbn in B. rewrite Nat.add_0_r in B.
  split; [exact Et|]. split; [exact A|]. split; [exact B|].
  destruct (D Nz ltac:(lia)) as [D1 _]. destruct (D (Nz + 1) ltac:(lia)) as [D2 _]. cbn [Nat.mul plus below Nat.ltb Nat.leb] in D1, D2.
  rewrite Nat.sub_0_r in D1, D2. rewrite D1, D2. pose proof (C0 Nz H) as NN. rewrite nofnat_add, nofnat_1. split; [apply last_node, NN|apply extra_node, NN].
Qed.
Print Assumptions C46_one_rank_grows.

(** ** C47.  [Local Ok :: communicate]: each rank reaches the call when it likes, then exchanges.
    [N] bounds every run; a run that is not finished can always go on, even if MPI never buffers. *)
Theorem C47_halo : forall (T : Type) (NT : Num T) (OT : NumOrd T) (size Nx Ny : nat) (nz : nat -> nat) (fld : nat) (init : nat -> Solver T),
  (forall r, r < size -> 0 < nz r) ->
  let dim r := nz r + below r + above size r in
  let before r := fsel fld (init r) in
  (forall r, r < size -> sized (before r) Nx Ny (dim r)) ->
  exists N, forall eager n w,
    wsteps halo_send halo_recv eager size n (start init (fun r => Local (@Ok _) :: communicate size r fld)) w ->
    n <= N /\ (finished size w \/ exists w', wstep halo_send halo_recv false size w w') /\
    (finished size w -> forall r, r < size -> exists F, rst (wrank w r) = with_fsel fld (init r) F /\ sized F Nx Ny (dim r) /\
       forall c i j k, c < 3 -> i < Nx -> j < Ny -> k < dim r ->
         (0 < r -> k = 0 -> entry F c i j k = entry (before (r - 1)) c i j (dim (r - 1) - 2)) /\
         (r < size - 1 -> k = dim r - 1 -> entry F c i j k = entry (before (r + 1)) c i j 1) /\
         (below r <= k < below r + nz r -> entry F c i j k = entry (before r) c i j k)).
Proof.
  intros T NT OT size Nx Ny nz fld init Hz dim before HS.
  destruct (exchange_total size Nx Ny nz fld init Hz HS) as [N HN]. exists N. intros eager n w Hw.
  destruct (HN eager n w Hw) as (A & B & C). split; [exact A|]. split; [exact B|]. intros Hf r Hr.
  destruct (C Hf r Hr) as (F & EF & SF & P). exists F. split; [exact EF|]. split; [exact SF|]. intros c i j k Hc Hi Hj Hk.
  rewrite P by assumption. unfold exchanged. fold (dim r). fold (dim (r - 1)). specialize (Hz r Hr).
  unfold dim in Hk. unfold dim. unfold below, above in *.
  split; [|split].
  - intros H0 ->. destruct (Nat.ltb_spec 0 r); [|lia]. reflexivity.
  - intros H1 ->. destruct (Nat.ltb_spec 0 r), (Nat.ltb_spec r (size - 1)); try lia; cbn [andb];
      try (match goal with |- context [?e =? 0] => destruct (Nat.eqb_spec e 0) end); try lia; rewrite ?Nat.eqb_refl; reflexivity.
  - intros [H0 H1]. destruct (Nat.ltb_spec 0 r), (Nat.ltb_spec r (size - 1)); cbn [andb];
      try (destruct (Nat.eqb_spec k 0); [lia|]); cbn [andb]; try reflexivity;
      match goal with |- context [k =? ?e] => destruct (Nat.eqb_spec k e) end; try lia; reflexivity.
Qed.
Print Assumptions C47_halo.

(** Three ranks holding one, one and two layers of a 2 x 1 grid, different values everywhere. *)
Definition halo_init (r : nat) : Solver Qc :=
  {| sNx := 2; sNy := 1; sNz := 2; sE := {| fNx := 2; fNy := 1; fNz := nth r [2; 3; 3] 0;
       farr := tab (2 * 1 * nth r [2; 3; 3] 0 * 3) (fun n => q (Z.of_nat (100 * r + n)) 1) |};
     sH := field_zeros 2 1 2; sJ := field_zeros 2 1 2; sieps := field_zeros 2 1 2; simu := field_zeros 2 1 2; ssigma := field_zeros 2 1 2;
     siDeps := []; siDmu := []; sdt := q 1 1; scond := false; sabc := false; spml := false; sbl := bcs "pec"; sbh := bcs "pec";
     sstep0 := true; smH := mzero; smE := mzero; sops := None |}.
Example C47_case : (forall r, r < 3 -> 0 < nth r [1; 1; 2] 0) /\
  (forall r, r < 3 -> sized (fsel 0 (halo_init r)) 2 1 (nth r [1; 1; 2] 0 + below r + above 3 r)) /\
  exists N, forall eager n w, wsteps halo_send halo_recv eager 3 n (start halo_init (fun r => Local (@Ok _) :: communicate 3 r 0)) w ->
    n <= N /\ (finished 3 w -> entry (sE (rst (wrank w 1))) 2 1 0 0 = entry (sE (halo_init 0)) 2 1 0 0 /\
      entry (sE (rst (wrank w 1))) 2 1 0 2 = entry (sE (halo_init 2)) 2 1 0 1 /\
      entry (sE (rst (wrank w 1))) 2 1 0 1 = entry (sE (halo_init 1)) 2 1 0 1).
Proof.
  assert (A : forall r, r < 3 -> 0 < nth r [1; 1; 2] 0) by (intros [|[|[|r]]] H; cbn; lia).
  assert (B : forall r, r < 3 -> sized (fsel 0 (halo_init r)) 2 1 (nth r [1; 1; 2] 0 + below r + above 3 r)).
  { intros [|[|[|r]]] H; [..|lia]; (split; [|repeat split]); unfold wf; cbn [fsel sE halo_init farr fNx fNy fNz nth]; rewrite tab_length; reflexivity. }
  split; [exact A|]. split; [exact B|].
  destruct (C47_halo Qc _ _ 3 2 1 (fun r => nth r [1; 1; 2] 0) 0 halo_init A B) as [N HN]. exists N. intros eager n w Hw.
  destruct (HN eager n w Hw) as (L & _ & C). split; [exact L|]. intros Hf.
  destruct (C Hf 1 ltac:(lia)) as (F & EF & _ & P). rewrite EF. cbn [with_fsel with_fields sE].
  split; [|split].
  - destruct (P 2 1 0 0) as (X & _ & _); [cbn; lia..|]. rewrite X by lia. reflexivity.
  - destruct (P 2 1 0 2) as (_ & X & _); [cbn; lia..|]. rewrite X by (cbn; lia). reflexivity.
  - destruct (P 2 1 0 1) as (_ & _ & X); [cbn; lia..|]. rewrite X by (cbn; lia). reflexivity.
Qed.

(** ** C49.  [Fs]: the fields of the ranks, whose owned layers are those of the global field [G].
    A request is None, a Python int (any), or slice(a, b) within the grid; z may be any key. *)
Theorem C49_gather : forall (T : Type) (NT : Num T) (sqrt : T -> T) (Nx Ny size nz : nat) (Fs : list (Field T)) (G : Field T),
  0 < nz -> 0 < size -> List.length Fs = size ->
  (forall r, r < size -> sized (nth r Fs (field_zeros 0 0 0)) Nx Ny (nz + below r + (if size =? 1 then 1 else above size r))) ->
  sized G Nx Ny (size * nz) ->
  (forall r k c i j, r < size -> k < nz -> c < 3 -> i < Nx -> j < Ny ->
     entry (nth r Fs (field_zeros 0 0 0)) c i j (k + below r) = entry G c i j (r * nz + k)) ->
  (forall x y z comp, request Nx x -> request Ny y ->
     mpi_gather sqrt Nx Ny (size * nz) size 0 Fs x y z comp =
     (do v <- getitem sqrt G (KTup (request_key Nx x) (request_key Ny y) (request_key (size * nz) z)
                                (match comp with Some c => c | None => CStr "z" end)); Ok (Some v))) /\
  (forall me x y z comp v, 0 < me -> mpi_gather sqrt Nx Ny (size * nz) size me Fs x y z comp = Ok v -> v = None) /\
  exists A, mpi_gather_asField Nx Ny (size * nz) size 0 Fs = Ok A /\ sized A Nx Ny (size * nz) /\
    forall c i j k, c < 3 -> i < Nx -> j < Ny -> k < size * nz -> entry A c i j k = entry G c i j k.
Proof.
  intros T NT sqrt Nx Ny size nz Fs G Hz Hs HL HF HG HO.
  assert (HF' : forall r, r < size -> sized (nth r Fs (field_zeros 0 0 0)) Nx Ny (lay (size * nz) size r)).
  { intros r Hr. replace (lay (size * nz) size r) with (nz + below r + (if size =? 1 then 1 else above size r)); [apply HF, Hr|].
    unfold lay, own, glo, ghi, below, above. rewrite (own_NZ size nz Hz Hs). destruct (Nat.eqb_spec size 1); [rewrite orb_true_r|rewrite orb_false_r]; reflexivity. }
  split; [|split].
  - intros x y z comp Hx Hy. exact (gather_zero Nx Ny size nz Hz Hs Fs G HL HF' HG HO sqrt x y z comp Hx Hy).
  - intros me x y z comp v Hm. unfold mpi_gather. destruct me as [|me]; [lia|]. cbn [Nat.eqb negb].
    destruct (getitem _ _ _); cbn [bind]; [|discriminate]. injection 1 as <-. reflexivity.
  - exact (gather_field_zero Nx Ny size nz Hz Hs Fs G HL HF' HO).
Qed.
Print Assumptions C49_gather.

(** Two ranks of two layers each; the ghosts hold rubbish (-1). *)
Definition gatherG : Field Qc := {| fNx := 2; fNy := 1; fNz := 4; farr := tab 24 (fun n => q (Z.of_nat n) 1) |}.
Definition gatherF (r : nat) : Field Qc :=
  {| fNx := 2; fNy := 1; fNz := 3; farr := tab 18 (fun n =>
       let k := n / 2 mod 3 in let c := n / 6 in let i := n mod 2 in
       if (if r =? 0 then k =? 2 else k =? 0) then q (-1) 1 else entry gatherG c i 0 (2 * r + k - below r)) |}.
Lemma gather_ok : (forall r, r < 2 -> sized (nth r [gatherF 0; gatherF 1] (field_zeros 0 0 0)) 2 1 (2 + below r + (if 2 =? 1 then 1 else above 2 r))) /\
  sized gatherG 2 1 (2 * 2) /\
  (forall r k c i j, r < 2 -> k < 2 -> c < 3 -> i < 2 -> j < 1 ->
     entry (nth r [gatherF 0; gatherF 1] (field_zeros 0 0 0)) c i j (k + below r) = entry gatherG c i j (r * 2 + k)).
Proof.
  split; [|split].
  - intros [|[|r]] H; [..|lia]; (split; [|repeat split]); unfold wf; cbn [nth gatherF farr]; rewrite tab_length; reflexivity.
  - split; [|repeat split]. unfold wf. cbn [gatherG farr]. rewrite tab_length. reflexivity.
  - intros [|[|r]] [|[|k]] [|[|[|c]]] [|[|i]] [|j] ? ? ? ? ?; try lia; reflexivity.
Qed.
Example C49_case : exists v, mpi_gather (fun x => x) 2 1 (2 * 2) 2 0 [gatherF 0; gatherF 1] (Some (PyInt 1%Z)) None (Some (PySlice None None (Some (-1)%Z))) (Some (CStr "y"))
    = Ok (Some v) /\ shape v = [1; 4] /\ map this (dat v) = [15; 13; 11; 9]%Q.
Proof.
  destruct gather_ok as (A & B & C).
  destruct (C49_gather Qc _ (fun x => x) 2 1 2 2 [gatherF 0; gatherF 1] gatherG ltac:(lia) ltac:(lia) eq_refl A B C) as (H & _ & _).
  rewrite H by (cbn; exact I). eexists. split; [reflexivity|]. split; vm_compute; reflexivity.
Qed.

(** Documented to return None away from rank 0; it returns a zero field there. *)
Theorem C49_asField_elsewhere_refuted : exists (Fs : list (Field Qc)) A, mpi_gather_asField 2 1 4 2 1 Fs = Ok A /\
  A = field_zeros 2 1 4 /\ Fs = [gatherF 0; gatherF 1].
Proof. exists [gatherF 0; gatherF 1], (field_zeros 2 1 4). repeat split. Qed.
Print Assumptions C49_asField_elsewhere_refuted.

(** ** C70.  The indices of wakesolve come from argmin, NumPy integers: gathering the test line fails
    on rank 0, whatever the fields. *)
Theorem C70_longitudinal_fails : forall (T : Type) (NT : Num T) (sqrt : T -> T) (Nx Ny size nz : nat) (Fs : list (Field T)) (ixt iyt : nat) (z : option pyidx),
  0 < size -> List.length Fs = size -> ixt < Nx -> iyt < Ny ->
  (forall r, r < size -> sized (nth r Fs (field_zeros 0 0 0)) Nx Ny (nz + below r + (if size =? 1 then 1 else above size r))) ->
  mpi_gather sqrt Nx Ny (size * nz) size 0 Fs (Some (NpInt (Z.of_nat ixt))) (Some (NpInt (Z.of_nat iyt))) z (Some (CStr "z")) = Err AttributeError.
Proof.
  intros T NT sqrt Nx Ny size nz Fs ixt iyt z Hs HL Hx Hy HF. unfold mpi_gather. cbn [ikey_of is_pyint andb negb Nat.eqb extent].
  assert (X : forall F n, sized F Nx Ny n -> exists v, getitem sqrt F (KTup (KI (Z.of_nat ixt)) (KI (Z.of_nat iyt)) kfull (CStr "z")) = Ok v).
  { intros F n (W & EX & EY & EZ). rewrite getitem_selm. unfold mat_getitem. destruct (selm_dims sqrt (CStr "z") F) as (-> & -> & ->).
    rewrite EX, EY, !resolve_nat, resolve_full by assumption. eexists. reflexivity. }
  destruct (X _ _ (HF 0 Hs)) as [v0 ->]. cbn [bind].
  assert (Y : forall l acc, (forall F, In F l -> In F Fs) -> exists b, seq_upd (fun l F => do b <- (do v <- getitem sqrt F (KTup (KI (Z.of_nat ixt)) (KI (Z.of_nat iyt)) kfull (CStr "z")); Ok (dat v)); Ok (l ++ [b])) acc l = Ok b).
  { induction l as [|F l IH]; intros acc Hl; [eexists; reflexivity|]. cbn [seq_upd].
    destruct (In_nth _ _ (field_zeros 0 0 0) (Hl F (or_introl eq_refl))) as (r & Hr & Er). rewrite HL in Hr. pose proof (HF r Hr) as S. rewrite Er in S.
    destruct (X _ _ S) as [v ->]. cbn [bind]. apply IH. intros; apply Hl; right; assumption. }
  destruct (Y Fs [] (fun _ H => H)) as [b ->]. reflexivity.
Qed.
Print Assumptions C70_longitudinal_fails.
Theorem C70_longitudinal_refuted : exists (Nx Ny size nz ixt iyt : nat) (Fs : list (Field Qc)),
  List.length Fs = size /\ ixt < Nx /\ iyt < Ny /\ 2 <= size /\
  (forall r, r < size -> sized (nth r Fs (field_zeros 0 0 0)) Nx Ny (nz + below r + (if size =? 1 then 1 else above size r))) /\
  mpi_gather (fun x => x) Nx Ny (size * nz) size 0 Fs (Some (NpInt (Z.of_nat ixt))) (Some (NpInt (Z.of_nat iyt))) None (Some (CStr "z")) = Err AttributeError.
Proof.
  exists 2, 1, 2, 2, 1, 0, [gatherF 0; gatherF 1]. repeat (split; [first [reflexivity | lia | exact (proj1 gather_ok)]|]).
  exact (C70_longitudinal_fails Qc _ (fun x => x) 2 1 2 2 [gatherF 0; gatherF 1] 1 0 None ltac:(lia) eq_refl ltac:(lia) ltac:(lia) (proj1 gather_ok)).
Qed.
Print Assumptions C70_longitudinal_refuted.

(** ** C50.  Middle rank of three, periodic transverse walls asked for. *)
Theorem C50_walls_refuted : exists (g : Grid Qc) ar s g', grid_obj envQ g /\ ar_mpi ar = Some (1, 3) /\
  bcx (ar_bl ar) = "periodic"%string /\ bcx (ar_bh ar) = "periodic"%string /\
  construct envQ g ar = Ok (s, g') /\ bcx (sbl s) = "pec"%string /\ bcx (sbh s) = "pec"%string.
Proof.
  set (ar := {| ar_bl := bcs "periodic"; ar_bh := bcs "periodic"; ar_bg := vac; ar_solids := []; ar_npml := 1; ar_cfln := q 1 2;
               ar_dt := Some (q 1 4); ar_mpi := Some (1, 3) |}).
  destruct (simulated2 envQ gridQ ar (fun s _ => String.eqb (bcx (sbl s)) "pec" && String.eqb (bcx (sbh s)) "pec") [] gridQ_obj)
    as (s & g' & Hc & Hm & Hk & _); [vm_compute; reflexivity|].
  apply andb_prop in Hk. destruct Hk as [K1 K2]. apply String.eqb_eq in K1, K2.
  exists gridQ, ar, s, g'. split; [exact gridQ_obj|]. repeat split; assumption.
Qed.
Print Assumptions C50_walls_refuted.

(** Missing from the full claim: transverse walls that are not electric.  The rank is built as a serial
    solver with the user's walls and "mpi" on its inner faces; only the recorded names differ. *)
Theorem C50_electric_walls_partial : forall (T : Type) (NT : Num T) (OT : NumOrd T) (env : Env T) g ar r size,
  ar_mpi ar = Some (r, size) ->
  electric (bcx (ar_bl ar)) -> electric (bcy (ar_bl ar)) -> electric (bcx (ar_bh ar)) -> electric (bcy (ar_bh ar)) ->
  construct env g ar =
    (do p <- construct env g (with_walls ar (inner_low r (ar_bl ar)) (inner_high size r (ar_bh ar)));
     Ok (rename (fst (walls ar)) (snd (walls ar)) (fst p), snd p)).
Proof. intros T NT OT. exact electric_walls. Qed.
Print Assumptions C50_electric_walls_partial.

Example C50_case : exists s g', electric "Electric" /\ electric "PEC" /\
  construct envQ gridQ {| ar_bl := {| bcx := "Electric"; bcy := "PEC"; bcz := "periodic" |}; ar_bh := {| bcx := "Electric"; bcy := "PEC"; bcz := "magnetic" |};
     ar_bg := vac; ar_solids := []; ar_npml := 1; ar_cfln := q 1 2; ar_dt := Some (q 1 4); ar_mpi := Some (2, 3) |} = Ok (s, g') /\
  bcz (sbl s) = "mpi"%string /\ bcz (sbh s) = "magnetic"%string.
Proof.
  set (ar := {| ar_bl := _ |}).
  destruct (simulated2 envQ gridQ ar (fun s _ => String.eqb (bcz (sbl s)) "mpi" && String.eqb (bcz (sbh s)) "magnetic") [] gridQ_obj)
    as (s & g' & Hc & Hm & Hk & _); [vm_compute; reflexivity|].
  apply andb_prop in Hk. destruct Hk as [K1 K2]. apply String.eqb_eq in K1, K2.
  exists s, g'. split; [left; reflexivity|]. split; [right; reflexivity|]. repeat split; assumption.
Qed.

(** ** C51.  One solid of conductivity 8 in the lowest layer, one of conductivity 2 in the highest. *)
Definition tileQ (r : nat) : Grid Qc :=
  match mpi_grid (q 0 1) (q 2 1) (q 0 1) (q 2 1) (q 0 1) (q 4 1) 2 2 4 2 r with Ok (_, g) => g | Err _ => gridQ end.
(** The cells of local layer [k] of a 2 x 2 x 3 grid, in the order of the pyvista grid. *)
Definition layer_mask (k : nat) : list bool := tab 12 (fun n => n mod 3 =? k).
Definition metal (k : nat) (sg : Qc) : solid Qc := {| so_key := "m"; so_mask := layer_mask k; so_mat := MList (Fin (q 1 1)) (Fin (q 1 1)) (Some sg) |}.
Definition args51 (so : list (solid Qc)) (r : nat) : Args Qc :=
  {| ar_bl := bcs "pec"; ar_bh := bcs "pec"; ar_bg := vac; ar_solids := so; ar_npml := 1; ar_cfln := q 1 2; ar_dt := Some (q 1 4); ar_mpi := Some (r, 2) |}.
Definition dtQ (r : result (Solver Qc * Grid Qc)) : result Q := match r with Ok (s, _) => Ok (this (sdt s)) | Err e => Err e end.
Theorem C51_same_dt_refuted :
  dtQ (construct envQ (tileQ 0) (args51 [metal 0 (q 8 1); metal 9 (q 2 1)] 0)) = Ok (1 # 8)%Q /\
  dtQ (construct envQ (tileQ 1) (args51 [metal 9 (q 8 1); metal 2 (q 2 1)] 1)) = Ok (1 # 4)%Q.
Proof. split; vm_compute; reflexivity. Qed.
Print Assumptions C51_same_dt_refuted.
(** A conductor that only meets rank 0: the other rank cannot be built. *)
Theorem C51_no_conductor_here_refuted :
  dtQ (construct envQ (tileQ 0) (args51 [metal 0 (q 8 1)] 0)) = Ok (1 # 8)%Q /\
  dtQ (construct envQ (tileQ 1) (args51 [metal 9 (q 8 1)] 1)) = Err ValueError.
Proof. split; vm_compute; reflexivity. Qed.
Print Assumptions C51_no_conductor_here_refuted.

(** Missing from the full claim: conductive runs.  Otherwise every rank has the time step of the serial
    solver on the global grid. *)
Theorem C51_same_dt_partial : forall (T : Type) (NT : Num T) (LT : NumLaws T) (OT : NumOrd T), char0 T ->
  forall (env : Env T) (xmin xmax ymin ymax zmin zmax : T) (Nx Ny Nz size r : nat) t g gs ar ars s g' ss gs',
  size <= Nz -> r < size ->
  mpi_grid xmin xmax ymin ymax zmin zmax Nx Ny Nz size r = Ok (t, g) ->
  compute_grid (linspace xmin xmax Nx) (linspace ymin ymax Ny) (linspace zmin zmax (Nz - Nz mod size)) = Ok gs ->
  ar_dt ar = ar_dt ars -> ar_cfln ar = ar_cfln ars ->
  construct env g ar = Ok (s, g') -> construct env gs ars = Ok (ss, gs') ->
  scond s = false -> scond ss = false -> sdt s = sdt ss.
Proof.
  intros T NT LT OT C0 env xmin xmax ymin ymax zmin zmax Nx Ny Nz size r t g gs ar ars s g' ss gs' Hs Hr Hg Hgs E1 E2 Hc Hcs Hn Hns.
  pose proof (construct_dt _ _ _ _ _ Hc Hn) as D. pose proof (construct_dt _ _ _ _ _ Hcs Hns) as Ds. rewrite E1, E2 in D.
  unfold mpi_grid in Hg. binv Hg t' Ht. binv Hg g0 Hg0. injection Hg as -> ->.
  apply compute_grid_axes in Hg0. destruct Hg0 as (Ex & Ey & Ez). apply compute_grid_axes in Hgs. destruct Hgs as (Exs & Eys & Ezs).
  rewrite Ex, Ey, Ez in D. rewrite Exs, Eys, Ezs in Ds.
  rewrite (dt_tile env (ar_cfln ars) _ _ zmin zmax Nz size r t C0 Hs Hr Ht) in D. congruence.
Qed.
Print Assumptions C51_same_dt_partial.
Example C51_case : exists t g gs, mpi_grid (q 0 1) (q 2 1) (q 0 1) (q 2 1) (q 0 1) (q 4 1) 2 2 4 2 1 = Ok (t, g) /\
  compute_grid (linspace (q 0 1) (q 2 1) 2) (linspace (q 0 1) (q 2 1) 2) (linspace (q 0 1) (q 4 1) 4) = Ok gs /\
  (match construct envQ g (args51 [] 1) with Ok (s, _) => (scond s, this (sdt s)) | _ => (true, 0%Q) end) = (false, 1 # 4)%Q /\
  (match construct envQ gs (args51 [] 1) with Ok (s, _) => (scond s, this (sdt s)) | _ => (true, 0%Q) end) = (false, 1 # 4)%Q.
Proof.
  destruct (mpi_grid (q 0 1) (q 2 1) (q 0 1) (q 2 1) (q 0 1) (q 4 1) 2 2 4 2 1) as [[t g]|] eqn:E; [|vm_compute in E; discriminate].
  destruct (compute_grid (linspace (q 0 1) (q 2 1) 2) (linspace (q 0 1) (q 2 1) 2) (linspace (q 0 1) (q 4 1) 4)) as [gs|] eqn:E2; [|vm_compute in E2; discriminate].
  exists t, g, gs. split; [reflexivity|]. split; [reflexivity|]. split.
  - assert (X : g = tileQ 1) by (unfold tileQ; rewrite E; reflexivity). rewrite X. vm_compute. reflexivity.
  - assert (X : gs = match compute_grid (linspace (q 0 1) (q 2 1) 2) (linspace (q 0 1) (q 2 1) 2) (linspace (q 0 1) (q 4 1) 4) with Ok g => g | Err _ => gridQ end) by (rewrite E2; reflexivity).
    rewrite X. vm_compute. reflexivity.
Qed.
