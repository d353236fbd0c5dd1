(** Lemmas: a constructed solver acts on flat arrays through the curl stencil. *)
From Coq Require Import List Arith ZArith Bool String Lia Ring Field.
From Verif Require Import Num Vec Index Matrix FieldModel FieldSpec FieldProofs FieldProofs2
  GridModel GridProofs SolverModel SolverPlanes SolverBuild SolverMaterials.
Import ListNotations.

(** Flat index of component [d] of cell (i,j,k), and its inverse. *)
Definition ix (Nx Ny Nz d i j k : nat) : nat := d * (Nx * Ny * Nz) + cell Nx Ny i j k.
Definition ixd (Nx Ny Nz r : nat) : nat := r / (Nx * Ny * Nz).
Definition ixi (Nx Ny Nz r : nat) : nat := (r mod (Nx * Ny * Nz)) mod Nx.
Definition ixj (Nx Ny Nz r : nat) : nat := (r mod (Nx * Ny * Nz) / Nx) mod Ny.
Definition ixk (Nx Ny Nz r : nat) : nat := r mod (Nx * Ny * Nz) / (Nx * Ny).

Section Ix.
  Context (Nx Ny Nz : nat).
  Lemma ix_lt d i j k : d < 3 -> i < Nx -> j < Ny -> k < Nz ->
    ix Nx Ny Nz d i j k < 3 * (Nx * Ny * Nz).
  Proof. intros. pose proof (cell_lt Nx Ny Nz i j k). unfold ix. nia. Qed.
  Lemma ix_dec d i j k : i < Nx -> j < Ny -> k < Nz ->
    ixd Nx Ny Nz (ix Nx Ny Nz d i j k) = d /\ ixi Nx Ny Nz (ix Nx Ny Nz d i j k) = i /\
    ixj Nx Ny Nz (ix Nx Ny Nz d i j k) = j /\ ixk Nx Ny Nz (ix Nx Ny Nz d i j k) = k.
  Proof.
    intros Hi Hj Hk. pose proof (cell_lt Nx Ny Nz i j k Hi Hj Hk) as Hm.
    unfold ixd, ixi, ixj, ixk, ix. rewrite comp_div, comp_mod by exact Hm.
    rewrite cell_i, cell_j, cell_k by assumption. auto.
  Qed.
  Lemma ix_surj r : r < 3 * (Nx * Ny * Nz) ->
    exists d i j k, d < 3 /\ i < Nx /\ j < Ny /\ k < Nz /\ r = ix Nx Ny Nz d i j k.
  Proof.
    intros H. destruct (comp_decode _ _ H) as [Hd [Hm E]].
    destruct (cell_decode _ _ _ _ Hm) as [Hi [Hj [Hk Ec]]].
    eexists _, _, _, _. repeat (split; [eassumption|]). unfold ix. rewrite Ec. exact E.
  Qed.
  Lemma ix_inj d i j k d' i' j' k' : i < Nx -> j < Ny -> k < Nz -> i' < Nx -> j' < Ny -> k' < Nz ->
    ix Nx Ny Nz d i j k = ix Nx Ny Nz d' i' j' k' -> d = d' /\ i = i' /\ j = j' /\ k = k'.
  Proof.
    intros Hi Hj Hk Hi' Hj' Hk' E.
    destruct (ix_dec d i j k Hi Hj Hk) as [A [B [C D]]].
    destruct (ix_dec d' i' j' k' Hi' Hj' Hk') as [A' [B' [C' D']]].
    rewrite E in *. repeat split; congruence.
  Qed.
End Ix.

Lemma entry_ix {T} {NT : Num T} (F : Field T) Nx Ny Nz d i j k : sized F Nx Ny Nz ->
  entry F d i j k = get (farr F) (ix Nx Ny Nz d i j k).
Proof. intros [_ [<- [<- <-]]]. rewrite entry_at. reflexivity. Qed.

(** Ghost layers zeroed at the first step. *)
Definition ghH (Nx Ny Nz d i j k : nat) : bool :=
  existsb (fun a => negb (d =? a) && (coord a i j k =? dim a Nx Ny Nz - 1)) axes.
Definition ghE (Nx Ny Nz d i j k : nat) : bool := coord d i j k =? dim d Nx Ny Nz - 1.
Definition on_ix {A} (f : nat -> nat -> nat -> nat -> A) (Nx Ny Nz r : nat) : A :=
  f (ixd Nx Ny Nz r) (ixi Nx Ny Nz r) (ixj Nx Ny Nz r) (ixk Nx Ny Nz r).

Lemma on_ix_ix {A} (f : nat -> nat -> nat -> nat -> A) Nx Ny Nz d i j k :
  i < Nx -> j < Ny -> k < Nz -> on_ix f Nx Ny Nz (ix Nx Ny Nz d i j k) = f d i j k.
Proof. intros. unfold on_ix. destruct (ix_dec Nx Ny Nz d i j k) as [-> [-> [-> ->]]]; try assumption. reflexivity. Qed.

Section Stencil.
  Context {T : Type} {NT : Num T} {LT : NumLaws T} {OT : NumOrd T}.
  Add Field field_T_sten : (@num_field T NT LT).
  Local Open Scope num_scope.

  Definition Sh (N off : nat) (x : nat -> T) (m : nat) : T := ext N x (m + off) - x m.
  Definition ShT (off : nat) (x : nat -> T) (m : nat) : T :=
    (if (off <=? m)%nat then x (m - off)%nat else 0) - x m.
  Definition comp (N : nat) (x : nat -> T) (c : nat) : nat -> T := fun m => x (c * N + m)%nat.

  Definition curl_at (Nx Ny N : nat) (x : nat -> T) (d m : nat) : T :=
    match d with
    | 0%nat => Sh N Nx (comp N x 2) m - Sh N (Nx * Ny) (comp N x 1) m
    | 1%nat => Sh N (Nx * Ny) (comp N x 0) m - Sh N 1 (comp N x 2) m
    | _ => Sh N 1 (comp N x 1) m - Sh N Nx (comp N x 0) m
    end.
  Definition curlT_at (Nx Ny N : nat) (x : nat -> T) (d m : nat) : T :=
    match d with
    | 0%nat => ShT (Nx * Ny) (comp N x 1) m - ShT Nx (comp N x 2) m
    | 1%nat => ShT 1 (comp N x 2) m - ShT (Nx * Ny) (comp N x 0) m
    | _ => ShT Nx (comp N x 0) m - ShT 1 (comp N x 1) m
    end.

  Lemma mv_curl Nx Ny N x d m : (0 < Nx)%nat -> (0 < Ny)%nat -> (d < 3)%nat -> (m < N)%nat ->
    mv (3 * N) (curl Nx Ny N) x (d * N + m) = curl_at Nx Ny N x d m.
  Proof.
    intros HX HY Hd Hm. unfold curl. rewrite mv_mblock by exact Hm.
    assert (E0 : forall f, mv N f (fun c => x c) m = mv N f (comp N x 0) m) by reflexivity.
    assert (E1 : forall f, mv N f (fun c => x (N + c)%nat) m = mv N f (comp N x 1) m).
    { intros f. unfold comp. rewrite Nat.mul_1_l. reflexivity. }
    change (fun c => x (2 * N + c)%nat) with (comp N x 2).
    rewrite E0, E1.
    assert (0 < Nx * Ny)%nat by nia.
    destruct d as [|[|[|d]]]; [..|lia]; unfold curl_at, Sh;
      rewrite ?mv_mopp, ?mv_mzero, ?mv_mshift by (assumption || lia); ring.
  Qed.

  Lemma mv_mopp_t n (A : mat T) x r : mv n (mtrans (mopp A)) x r = - mv n (mtrans A) x r.
  Proof. exact (mv_mopp n (mtrans A) x r). Qed.
  Lemma mv_mzero_t n x r : mv n (mtrans (@mzero T NT)) x r = 0.
  Proof. exact (mv_mzero n x r). Qed.

  Lemma mv_curlT Nx Ny N x d m : (0 < Nx)%nat -> (0 < Ny)%nat -> (d < 3)%nat -> (m < N)%nat ->
    mv (3 * N) (mtrans (curl Nx Ny N)) x (d * N + m) = curlT_at Nx Ny N x d m.
  Proof.
    intros HX HY Hd Hm. unfold curl.
    match goal with |- mv _ (mtrans (mblock N ?B)) _ _ = _ =>
      change (mtrans (mblock N B)) with (mblock N (fun i j => mtrans (B j i))) end.
    rewrite mv_mblock by exact Hm.
    assert (E0 : forall f, mv N f (fun c => x c) m = mv N f (comp N x 0) m) by reflexivity.
    assert (E1 : forall f, mv N f (fun c => x (N + c)%nat) m = mv N f (comp N x 1) m).
    { intros f. unfold comp. rewrite Nat.mul_1_l. reflexivity. }
    change (fun c => x (2 * N + c)%nat) with (comp N x 2).
    rewrite E0, E1.
    assert (0 < Nx * Ny)%nat by nia.
    destruct d as [|[|[|d]]]; [..|lia]; unfold curlT_at, ShT;
      rewrite ?mv_mopp_t, ?mv_mzero_t, ?mv_mshift_t by (assumption || lia); ring.
  Qed.

  Lemma curl_at_ext Nx Ny N x y d m : (m < N)%nat ->
    (forall n, (n < 3 * N)%nat -> x n = y n) -> curl_at Nx Ny N x d m = curl_at Nx Ny N y d m.
  Proof.
    intros Hm H.
    assert (A : forall off c, (c < 3)%nat -> Sh N off (comp N x c) m = Sh N off (comp N y c) m).
    { intros off c Hc. unfold Sh, ext, comp. destruct (Nat.ltb_spec (m + off) N); rewrite ?H by nia; reflexivity. }
    destruct d as [|[|d]]; unfold curl_at; rewrite !A by lia; reflexivity.
  Qed.
  Lemma curlT_at_ext Nx Ny N x y d m : (m < N)%nat ->
    (forall n, (n < 3 * N)%nat -> x n = y n) -> curlT_at Nx Ny N x d m = curlT_at Nx Ny N y d m.
  Proof.
    intros Hm H.
    assert (A : forall off c, (c < 3)%nat -> ShT off (comp N x c) m = ShT off (comp N y c) m).
    { intros off c Hc. unfold ShT, comp. destruct (Nat.leb_spec off m); rewrite ?H by nia; reflexivity. }
    destruct d as [|[|d]]; unfold curlT_at; rewrite !A by lia; reflexivity.
  Qed.

  (** ** Coefficients of a solver *)
  Record Kern : Type := {
    kNx : nat; kNy : nat; kNz : nat;
    kdt : T; kcond : bool;
    kL : nat -> T; kiA : nat -> T; kimu : nat -> T;
    ktL : nat -> T; kitA : nat -> T; kieps : nat -> T;
    ksig : nat -> T; krow : nat -> T; kcol : nat -> T
  }.
  Definition kN (K : Kern) : nat := (kNx K * kNy K * kNz K)%nat.

  (** Abstract state: fields as functions of the flat index, and the first-step flag. *)
  Record St : Type := { te : nat -> T; th : nat -> T; tj : nat -> T; tfresh : bool }.
  Definition abs (s : Solver T) : St :=
    {| te := get (farr (sE s)); th := get (farr (sH s)); tj := get (farr (sJ s));
       tfresh := sstep0 s |}.
  Definition st_eq (K : Kern) (a b : St) : Prop :=
    (forall n, (n < 3 * kN K)%nat -> te a n = te b n /\ th a n = th b n /\ tj a n = tj b n) /\
    tfresh a = tfresh b.

  Definition effE (K : Kern) (a : St) (n : nat) : T :=
    if (tfresh a && on_ix (ghE (kNx K) (kNy K) (kNz K)) (kNx K) (kNy K) (kNz K) n)%bool
    then 0 else te a n.
  Definition effH (K : Kern) (a : St) (n : nat) : T :=
    if (tfresh a && on_ix (ghH (kNx K) (kNy K) (kNz K)) (kNx K) (kNy K) (kNz K) n)%bool
    then 0 else th a n.

  Definition kcurl (K : Kern) (e : nat -> T) (r : nat) : T :=
    curl_at (kNx K) (kNy K) (kN K) (fun n => kcol K n * kL K n * e n) (r / kN K) (r mod kN K).
  Definition kcurlT (K : Kern) (h : nat -> T) (r : nat) : T :=
    curlT_at (kNx K) (kNy K) (kN K) (fun n => krow K n * ktL K n * h n) (r / kN K) (r mod kN K).
  Definition kH (K : Kern) (e h : nat -> T) (r : nat) : T :=
    h r - kdt K * (kiA K r * kimu K r * krow K r * kcurl K e r).
  Definition kE (K : Kern) (e h j : nat -> T) (r : nat) : T :=
    e r + kdt K * (kieps K r * kitA K r * kcol K r * kcurlT K h r - kieps K r * j r).
  Definition kJ (K : Kern) (e j : nat -> T) (r : nat) : T :=
    if kcond K then ksig K r * e r else j r.

  Definition kstep (K : Kern) (a : St) : St :=
    let h' := kH K (effE K a) (effH K a) in
    let e' := kE K (effE K a) h' (tj a) in
    {| te := e'; th := h'; tj := kJ K e' (tj a); tfresh := false |}.

  Definition fill (K : Kern) (a : list T) (n : nat) : T :=
    if (List.length a =? 3 * kN K)%nat then get a n else get a 0%nat.
  Definition kop (K : Kern) (a : St) (o : op T) : St :=
    match o with
    | OStep => kstep K a
    | OWriteE l => {| te := fill K l; th := th a; tj := tj a; tfresh := tfresh a |}
    | OWriteH l => {| te := te a; th := fill K l; tj := tj a; tfresh := tfresh a |}
    | OWriteJ l => {| te := te a; th := th a; tj := fill K l; tfresh := tfresh a |}
    | OReset => {| te := fun _ => 0; th := fun _ => 0; tj := fun _ => 0; tfresh := tfresh a |}
    | OLoad f => {| te := fill K (stE f); th := fill K (stH f); tj := fill K (stJ f);
                    tfresh := tfresh a |}
    end.
  Definition krun (K : Kern) (a : St) (h : list (op T)) : St := fold_left (kop K) h a.

  Definition arr_ok (K : Kern) (l : list T) : Prop :=
    List.length l = (3 * kN K)%nat \/ List.length l = 1%nat.
  Definition op_ok (K : Kern) (o : op T) : Prop :=
    match o with
    | OStep | OReset => True
    | OWriteE l | OWriteH l | OWriteJ l => arr_ok K l
    | OLoad f => arr_ok K (stE f) /\ arr_ok K (stH f) /\ arr_ok K (stJ f)
    end.

  (** ** The solver realises the coefficients *)
  Record good (K : Kern) (s : Solver T) : Prop := {
    gd_x : sNx s = kNx K; gd_y : sNy s = kNy K; gd_z : sNz s = kNz K;
    gd_px : (0 < kNx K)%nat; gd_py : (0 < kNy K)%nat; gd_pz : (0 < kNz K)%nat;
    gd_E : sized (sE s) (kNx K) (kNy K) (kNz K);
    gd_H : sized (sH s) (kNx K) (kNy K) (kNz K);
    gd_J : sized (sJ s) (kNx K) (kNy K) (kNz K);
    gd_ie : sized (sieps s) (kNx K) (kNy K) (kNz K);
    gd_sg : sized (ssigma s) (kNx K) (kNy K) (kNz K);
    gd_dt : sdt s = kdt K; gd_cond : scond s = kcond K;
    gd_iev : forall r, (r < 3 * kN K)%nat -> get (farr (sieps s)) r = kieps K r;
    gd_sgv : forall r, (r < 3 * kN K)%nat -> get (farr (ssigma s)) r = ksig K r;
    gd_mH : forall x r, (r < 3 * kN K)%nat ->
      mv (3 * kN K) (smH s) x r = kiA K r * kimu K r * krow K r * kcurl K x r;
    gd_mE : forall x r, (r < 3 * kN K)%nat ->
      mv (3 * kN K) (smE s) x r = kieps K r * kitA K r * kcol K r * kcurlT K x r;
    gd_ready : sstep0 s = true -> sops s <> None
  }.

  Lemma sized_len (F : Field T) Nx Ny Nz : sized F Nx Ny Nz ->
    List.length (farr F) = (3 * (Nx * Ny * Nz))%nat.
  Proof. intros [W [X [Y Z]]]. unfold wf in W. congruence. Qed.

  Lemma fromarray_ok K (F : Field T) l : sized F (kNx K) (kNy K) (kNz K) -> arr_ok K l ->
    exists G, fromarray F l = Ok G /\ sized G (kNx K) (kNy K) (kNz K) /\
      forall n, (n < 3 * kN K)%nat -> get (farr G) n = fill K l n.
  Proof.
    intros S Hl. pose proof (sized_len _ _ _ _ S) as HL. fold (kN K) in HL.
    unfold fromarray, fill. rewrite HL. destruct (Nat.eqb_spec (List.length l) (3 * kN K)) as [E|E].
    - exists (with_arr F l). split; [reflexivity|]. split; [apply sized_with_arr; [exact S|congruence]|].
      reflexivity.
    - destruct Hl as [Hl|Hl]; [contradiction|]. rewrite Hl. cbn [Nat.eqb].
      eexists. split; [reflexivity|]. split; [apply sized_with_arr; [exact S|rewrite tab_length; congruence]|].
      intros n Hn. cbn [farr with_arr]. rewrite get_tab by exact Hn. reflexivity.
  Qed.

  Lemma fromarray_inv K (F : Field T) l G : sized F (kNx K) (kNy K) (kNz K) ->
    fromarray F l = Ok G -> arr_ok K l.
  Proof.
    intros S. pose proof (sized_len _ _ _ _ S) as HL. fold (kN K) in HL.
    unfold fromarray, arr_ok. rewrite HL.
    destruct (Nat.eqb_spec (List.length l) (3 * kN K)); [auto|].
    destruct (Nat.eqb_spec (List.length l) 1); [auto|discriminate].
  Qed.

  Lemma ghosts_spec K s : good K s ->
    exists E H, seq_upd set_plane (sH s) ghost_assigns_H = Ok H /\
      seq_upd set_plane (sE s) ghost_assigns_E = Ok E /\
      sized E (kNx K) (kNy K) (kNz K) /\ sized H (kNx K) (kNy K) (kNz K) /\
      forall n, (n < 3 * kN K)%nat ->
        get (farr E) n = (if on_ix (ghE (kNx K) (kNy K) (kNz K)) (kNx K) (kNy K) (kNz K) n
                          then 0 else get (farr (sE s)) n) /\
        get (farr H) n = (if on_ix (ghH (kNx K) (kNy K) (kNz K)) (kNx K) (kNy K) (kNz K) n
                          then 0 else get (farr (sH s)) n).
  Proof.
    intros G. destruct G. 
    destruct (set_planes_spec ghost_assigns_H (sH s) _ _ _ gd_H0) as [H [EH [SH AH]]].
    { cbn. repeat constructor; cbn; try lia; apply in_axis_last; assumption. }
    destruct (set_planes_spec ghost_assigns_E (sE s) _ _ _ gd_E0) as [E [EE [SE AE]]].
    { cbn. repeat constructor; cbn; try lia; apply in_axis_last; assumption. }
    exists E, H. repeat (split; [assumption|]).
    intros n Hn. destruct (ix_surj _ _ _ _ Hn) as [d [i [j [k [Hd [Hi [Hj [Hk ->]]]]]]]].
    rewrite !on_ix_ix by assumption.
    rewrite <- (entry_ix E), <- (entry_ix H), <- (entry_ix (sE s)), <- (entry_ix (sH s)) by assumption.
    rewrite AH, AE by assumption.
    pose proof (pypos_last _ gd_px0) as Px. pose proof (pypos_last _ gd_py0) as Py.
    pose proof (pypos_last _ gd_pz0) as Pz.
    split; destruct d as [|[|[|d]]]; [..|lia| | | |lia];
      cbn [fold_left ghost_assigns_H ghost_assigns_E axes flat_map map app hit coord dim Nat.eqb andb negb existsb orb ghE ghH snd];
      rewrite ?Px, ?Py, ?Pz; unfold ghE, ghH; cbn [coord dim existsb axes Nat.eqb negb andb orb];
      repeat match goal with |- context [(?a =? ?b)%nat] => destruct (a =? b)%nat end; reflexivity.
  Qed.

  Lemma fromarray_full K (F : Field T) l : sized F (kNx K) (kNy K) (kNz K) ->
    List.length l = (3 * kN K)%nat ->
    fromarray F l = Ok (with_arr F l) /\ sized (with_arr F l) (kNx K) (kNy K) (kNz K).
  Proof.
    intros S Hl. pose proof (sized_len _ _ _ _ S) as HL. fold (kN K) in HL.
    unfold fromarray. rewrite HL, Hl, Nat.eqb_refl. split; [reflexivity|].
    apply sized_with_arr; [exact S|congruence].
  Qed.

  Lemma kcurl_ext K x y r : (r < 3 * kN K)%nat -> (forall n, (n < 3 * kN K)%nat -> x n = y n) ->
    kcurl K x r = kcurl K y r.
  Proof.
    intros Hr H. apply curl_at_ext; [apply Nat.mod_upper_bound; lia|].
    intros n Hn. rewrite H by exact Hn. reflexivity.
  Qed.
  Lemma kcurlT_ext K x y r : (r < 3 * kN K)%nat -> (forall n, (n < 3 * kN K)%nat -> x n = y n) ->
    kcurlT K x r = kcurlT K y r.
  Proof.
    intros Hr H. apply curlT_at_ext; [apply Nat.mod_upper_bound; lia|].
    intros n Hn. rewrite H by exact Hn. reflexivity.
  Qed.

  Lemma first_good K s : good K s ->
    exists s1, first_step s = Ok s1 /\ good K s1 /\ sstep0 s1 = false /\ sJ s1 = sJ s /\
      (sstep0 s = false -> s1 = s) /\
      forall n, (n < 3 * kN K)%nat ->
        get (farr (sE s1)) n = effE K (abs s) n /\ get (farr (sH s1)) n = effH K (abs s) n.
  Proof.
    intros G. unfold first_step, effE, effH, abs. cbn [te th tfresh].
    destruct (sstep0 s) eqn:E0.
    - destruct (ghosts_spec K s G) as [E [H [EH [EE [SE [SH A]]]]]].
      unfold set_ghosts. rewrite EH. cbn [bind]. rewrite EE. cbn [bind].
      unfold attrcleanup. cbn [sops with_fields].
      destruct (sops s) as [o|] eqn:Eo; [|exfalso; exact (gd_ready _ _ G E0 Eo)].
      eexists. split; [reflexivity|]. cbn.
      split; [destruct G; constructor; cbn; auto; discriminate|].
      split; [reflexivity|]. split; [reflexivity|]. split; [discriminate|]. exact A.
    - exists s. split; [reflexivity|]. split; [exact G|]. split; [exact E0|]. split; [reflexivity|].
      split; [reflexivity|]. intros n Hn. split; reflexivity.
  Qed.

  Lemma step_good K s : good K s ->
    exists s', one_step s = Ok s' /\ good K s' /\ sstep0 s' = false /\
      forall n, (n < 3 * kN K)%nat ->
        get (farr (sE s')) n = te (kstep K (abs s)) n /\
        get (farr (sH s')) n = th (kstep K (abs s)) n /\
        get (farr (sJ s')) n = tj (kstep K (abs s)) n.
  Proof.
    intros G0. destruct (first_good K s G0) as [s1 [E1 [G [F1 [J1 [_ A1]]]]]].
    unfold one_step. rewrite E1. cbn [bind].
    assert (HN : (3 * sN s1)%nat = (3 * kN K)%nat)
      by (unfold sN, kN; rewrite (gd_x _ _ G), (gd_y _ _ G), (gd_z _ _ G); reflexivity).
    pose proof (sized_len _ _ _ _ (gd_E _ _ G)) as LE. pose proof (sized_len _ _ _ _ (gd_H _ _ G)) as LH.
    pose proof (sized_len _ _ _ _ (gd_J _ _ G)) as LJ. pose proof (sized_len _ _ _ _ (gd_ie _ _ G)) as Li.
    pose proof (sized_len _ _ _ _ (gd_sg _ _ G)) as Lg.
    fold (kN K) in LE, LH, LJ, Li, Lg.
    unfold updH. rewrite HN. unfold toarray.
    destruct (fromarray_full K (sH s1)
      (vsub (farr (sH s1)) (vscale (sdt s1) (mvec (3 * kN K) (smH s1) (farr (sE s1))))) (gd_H _ _ G))
      as [EH SH]; [unfold vsub; rewrite vmap2_length; exact LH|].
    rewrite EH. cbn [bind].
    match type of SH with sized ?x _ _ _ => set (H := x) in * end.
    assert (AH : forall n, (n < 3 * kN K)%nat -> get (farr H) n = th (kstep K (abs s)) n).
    { intros n Hn. unfold H. cbn [farr with_arr kstep th]. unfold vsub. rewrite get_vmap2 by lia.
      rewrite get_vscale by (unfold mvec; rewrite tab_length; exact Hn).
      unfold mvec. rewrite get_tab by exact Hn. rewrite (gd_mH _ _ G) by exact Hn.
      unfold kH. rewrite (gd_dt _ _ G). destruct (A1 n Hn) as [_ ->].
      rewrite (kcurl_ext K (get (farr (sE s1))) (effE K (abs s))); [reflexivity|exact Hn|].
      intros m Hm. apply A1. exact Hm. }
    unfold updE. rewrite HN. unfold toarray.
    destruct (fromarray_full K (sE s1)
      (vadd (farr (sE s1)) (vscale (sdt s1) (vsub (mvec (3 * kN K) (smE s1) (farr H))
              (vmul (farr (sieps s1)) (farr (sJ s1)))))) (gd_E _ _ G))
      as [EE SE]; [unfold vadd; rewrite vmap2_length; exact LE|].
    rewrite EE. cbn [bind].
    match type of SE with sized ?x _ _ _ => set (E := x) in * end.
    assert (AE : forall n, (n < 3 * kN K)%nat -> get (farr E) n = te (kstep K (abs s)) n).
    { intros n Hn. unfold E. cbn [farr with_arr kstep te]. unfold vadd. rewrite get_vmap2 by lia.
      rewrite get_vscale by (unfold vsub, mvec; rewrite vmap2_length, tab_length; exact Hn).
      unfold vsub. rewrite get_vmap2 by (unfold mvec; rewrite tab_length; exact Hn).
      unfold vmul. rewrite get_vmap2 by lia.
      unfold mvec. rewrite get_tab by exact Hn. rewrite (gd_mE _ _ G), (gd_iev _ _ G) by exact Hn.
      unfold kE. rewrite (gd_dt _ _ G). destruct (A1 n Hn) as [-> _].
      rewrite (kcurlT_ext K (get (farr H)) (th (kstep K (abs s)))); [|exact Hn|exact AH].
      rewrite J1. reflexivity. }
    unfold updJ. unfold toarray.
    assert (EJ : exists J, (if scond s1 then fromarray (sJ s1) (vmul (farr (ssigma s1)) (farr E)) else Ok (sJ s1)) = Ok J
              /\ sized J (kNx K) (kNy K) (kNz K) /\
              forall n, (n < 3 * kN K)%nat -> get (farr J) n = tj (kstep K (abs s)) n).
    { cbn [kstep tj]. unfold kJ. rewrite (gd_cond _ _ G). destruct (kcond K).
      - destruct (fromarray_full K (sJ s1) (vmul (farr (ssigma s1)) (farr E)) (gd_J _ _ G)) as [E3 S3].
        + unfold vmul. rewrite vmap2_length. exact Lg.
        + eexists. split; [exact E3|]. split; [exact S3|]. intros n Hn. cbn [farr with_arr].
          unfold vmul. rewrite get_vmap2 by lia. rewrite (gd_sgv _ _ G), AE by exact Hn. reflexivity.
      - exists (sJ s1). split; [reflexivity|]. split; [apply (gd_J _ _ G)|].
        intros n Hn. rewrite J1. reflexivity. }
    destruct EJ as [J [EJ [SJ AJ]]]. rewrite EJ. cbn [bind].
    eexists. split; [reflexivity|]. cbn [with_fields sE sH sJ sstep0].
    split; [destruct G; constructor; cbn; auto|]. split; [exact F1|].
    intros n Hn. split; [apply AE; exact Hn|]. split; [apply AH; exact Hn|apply AJ; exact Hn].
  Qed.

  Lemma zero_field_spec (F : Field T) Nx Ny Nz : sized F Nx Ny Nz ->
    exists G, zero_field F = Ok G /\ sized G Nx Ny Nz /\
      forall n, (n < 3 * (Nx * Ny * Nz))%nat -> get (farr G) n = 0.
  Proof.
    intros S.
    assert (One : forall F c, sized F Nx Ny Nz -> (c < 3)%nat ->
      exists G, setitem F (KTup kfull kfull kfull (cname c)) (VNum 0) = Ok G /\ sized G Nx Ny Nz /\
        forall c' i j k, (c' < 3)%nat -> (i < Nx)%nat -> (j < Ny)%nat -> (k < Nz)%nat ->
          entry G c' i j k = if (c' =? c)%nat then 0 else entry F c' i j k).
    { clear F S. intros F c [W [X [Y Z]]] Hc. rewrite <- X, <- Y, <- Z.
      destruct (setitem_spec F kfull kfull kfull (cname c) c (VNum 0)
                  (seq 0 (fNx F)) (seq 0 (fNy F)) (seq 0 (fNz F)) W (comp_cname c Hc)
                  (resolve_full _) (resolve_full _) (resolve_full _) eq_refl)
        as [G [E [W' [X' [Y' [Z' A]]]]]].
      exists G. split; [exact E|]. split; [split; auto|].
      intros c' i j k Hc' Hi Hj Hk. rewrite !entry_at, A by assumption.
      rewrite !pos_of_full by assumption. destruct (c' =? c)%nat; reflexivity. }
    unfold zero_field. cbn [axes seq_upd].
    destruct (One F 0%nat S) as [G0 [E0 [S0 A0]]]; [lia|]. rewrite E0. cbn [bind].
    destruct (One G0 1%nat S0) as [G1 [E1 [S1 A1]]]; [lia|]. rewrite E1. cbn [bind].
    destruct (One G1 2%nat S1) as [G2 [E2 [S2 A2]]]; [lia|]. rewrite E2. cbn [bind].
    exists G2. split; [reflexivity|]. split; [exact S2|]. intros n Hn.
    destruct (ix_surj _ _ _ _ Hn) as [d [i [j [k [Hd [Hi [Hj [Hk ->]]]]]]]].
    rewrite <- entry_ix by exact S2. rewrite A2, A1, A0 by assumption.
    destruct d as [|[|[|d]]]; [reflexivity..|lia].
  Qed.

  Lemma good_fields K s E H J : good K s -> sized E (kNx K) (kNy K) (kNz K) ->
    sized H (kNx K) (kNy K) (kNz K) -> sized J (kNx K) (kNy K) (kNz K) -> good K (with_fields s E H J).
  Proof. intros G SE SH SJ. destruct G; constructor; cbn; auto. Qed.

  Lemma do_op_good K s o : good K s -> op_ok K o ->
    exists s', do_op s o = Ok s' /\ good K s' /\ st_eq K (abs s') (kop K (abs s) o).
  Proof.
    intros G Ho. destruct o as [|l|l|l| |f]; cbn [do_op kop op_ok] in *.
    - destruct (step_good K s G) as [s' [E [G' [F A]]]]. exists s'. split; [exact E|]. split; [exact G'|].
      split; [exact A|exact F].
    - destruct (fromarray_ok K _ _ (gd_E _ _ G) Ho) as [F [E [S A]]]. rewrite E. cbn [bind].
      eexists. split; [reflexivity|]. split; [apply good_fields; auto; apply G|].
      split; [|reflexivity]. intros n Hn. cbn. rewrite A by exact Hn. auto.
    - destruct (fromarray_ok K _ _ (gd_H _ _ G) Ho) as [F [E [S A]]]. rewrite E. cbn [bind].
      eexists. split; [reflexivity|]. split; [apply good_fields; auto; apply G|].
      split; [|reflexivity]. intros n Hn. cbn. rewrite A by exact Hn. auto.
    - destruct (fromarray_ok K _ _ (gd_J _ _ G) Ho) as [F [E [S A]]]. rewrite E. cbn [bind].
      eexists. split; [reflexivity|]. split; [apply good_fields; auto; apply G|].
      split; [|reflexivity]. intros n Hn. cbn. rewrite A by exact Hn. auto.
    - unfold reset_fields.
      destruct (zero_field_spec _ _ _ _ (gd_E _ _ G)) as [E' [E1 [S1 A1]]].
      destruct (zero_field_spec _ _ _ _ (gd_H _ _ G)) as [H' [E2 [S2 A2]]].
      destruct (zero_field_spec _ _ _ _ (gd_J _ _ G)) as [J' [E3 [S3 A3]]].
      rewrite E1; cbn [bind]. rewrite E2; cbn [bind]. rewrite E3; cbn [bind].
      eexists. split; [reflexivity|]. split; [apply good_fields; auto|].
      split; [|reflexivity]. intros n Hn. cbn. rewrite A1, A2, A3 by exact Hn. auto.
    - destruct Ho as [H1 [H2 H3]]. unfold load_state.
      destruct (fromarray_ok K _ _ (gd_E _ _ G) H1) as [E' [E1 [S1 A1]]].
      destruct (fromarray_ok K _ _ (gd_H _ _ G) H2) as [H' [E2 [S2 A2]]].
      destruct (fromarray_ok K _ _ (gd_J _ _ G) H3) as [J' [E3 [S3 A3]]].
      rewrite E1; cbn [bind]. rewrite E2; cbn [bind]. rewrite E3; cbn [bind].
      eexists. split; [reflexivity|]. split; [apply good_fields; auto|].
      split; [|reflexivity]. intros n Hn. cbn. rewrite A1, A2, A3 by exact Hn. auto.
  Qed.

  Lemma do_op_inv K s o s' : good K s -> do_op s o = Ok s' -> op_ok K o.
  Proof.
    intros G E. destruct o as [|l|l|l| |f]; cbn [do_op op_ok] in *; auto; binv E F HF.
    - eapply fromarray_inv; [apply (gd_E _ _ G)|exact HF].
    - eapply fromarray_inv; [apply (gd_H _ _ G)|exact HF].
    - eapply fromarray_inv; [apply (gd_J _ _ G)|exact HF].
    - binv E H' E2. binv E J' E3. split; [|split].
      + eapply fromarray_inv; [apply (gd_E _ _ G)|exact HF].
      + eapply fromarray_inv; [apply (gd_H _ _ G)|exact E2].
      + eapply fromarray_inv; [apply (gd_J _ _ G)|exact E3].
  Qed.

  Lemma st_eq_refl K a : st_eq K a a.
  Proof. split; auto. Qed.
  Lemma st_eq_sym K a b : st_eq K a b -> st_eq K b a.
  Proof. intros [H1 H2]. split; [|auto]. intros n Hn. destruct (H1 n Hn) as [? [? ?]]. auto. Qed.
  Lemma st_eq_trans K a b c : st_eq K a b -> st_eq K b c -> st_eq K a c.
  Proof.
    intros [H1 H2] [H3 H4]. split; [|congruence]. intros n Hn.
    destruct (H1 n Hn) as [? [? ?]]. destruct (H3 n Hn) as [? [? ?]]. repeat split; congruence.
  Qed.

  Lemma kH_ext K e e' h h' : (forall n, (n < 3 * kN K)%nat -> e n = e' n) ->
    (forall n, (n < 3 * kN K)%nat -> h n = h' n) ->
    forall n, (n < 3 * kN K)%nat -> kH K e h n = kH K e' h' n.
  Proof.
    intros He Hh n Hn. unfold kH. rewrite (kcurl_ext K e e' n Hn He), Hh by exact Hn. reflexivity.
  Qed.
  Lemma kE_ext K e e' h h' j j' : (forall n, (n < 3 * kN K)%nat -> e n = e' n) ->
    (forall n, (n < 3 * kN K)%nat -> h n = h' n) -> (forall n, (n < 3 * kN K)%nat -> j n = j' n) ->
    forall n, (n < 3 * kN K)%nat -> kE K e h j n = kE K e' h' j' n.
  Proof.
    intros He Hh Hj n Hn. unfold kE. rewrite (kcurlT_ext K h h' n Hn Hh), He, Hj by exact Hn. reflexivity.
  Qed.

  Lemma kstep_ext K a b : st_eq K a b -> st_eq K (kstep K a) (kstep K b).
  Proof.
    intros [H F].
    assert (He : forall n, (n < 3 * kN K)%nat -> effE K a n = effE K b n)
      by (intros n Hn; unfold effE; rewrite F; destruct (H n Hn) as [-> _]; reflexivity).
    assert (Hh : forall n, (n < 3 * kN K)%nat -> effH K a n = effH K b n)
      by (intros n Hn; unfold effH; rewrite F; destruct (H n Hn) as [_ [-> _]]; reflexivity).
    assert (Hj : forall n, (n < 3 * kN K)%nat -> tj a n = tj b n) by (intros n Hn; apply H; exact Hn).
    pose proof (kH_ext K _ _ _ _ He Hh) as AH.
    pose proof (kE_ext K _ _ _ _ _ _ He AH Hj) as AE.
    split; [|reflexivity]. intros n Hn. cbn [kstep te th tj].
    split; [apply AE; exact Hn|]. split; [apply AH; exact Hn|].
    unfold kJ. rewrite AE, Hj by exact Hn. reflexivity.
  Qed.
  Lemma kop_ext K a b o : st_eq K a b -> st_eq K (kop K a o) (kop K b o).
  Proof.
    intros H. destruct o; cbn [kop]; [apply kstep_ext; exact H|..];
      destruct H as [H F]; split; cbn; auto; intros n Hn; destruct (H n Hn) as [? [? ?]]; auto.
  Qed.
  Lemma krun_ext K h : forall a b, st_eq K a b -> st_eq K (krun K a h) (krun K b h).
  Proof.
    induction h as [|o h IH]; intros a b H; cbn; [exact H|]. apply IH, kop_ext, H.
  Qed.

  Lemma run_good K h : forall s, good K s -> Forall (op_ok K) h ->
    exists s', run s h = Ok s' /\ good K s' /\ st_eq K (abs s') (krun K (abs s) h).
  Proof.
    induction h as [|o h IH]; intros s G Hh.
    - exists s. split; [reflexivity|]. split; [exact G|]. apply st_eq_refl.
    - inversion Hh as [|? ? Ho Hh']; subst.
      destruct (do_op_good K s o G Ho) as [s1 [E1 [G1 A1]]].
      destruct (IH s1 G1 Hh') as [s2 [E2 [G2 A2]]].
      exists s2. split; [unfold run; cbn [seq_upd]; rewrite E1; cbn [bind]; exact E2|].
      split; [exact G2|]. cbn [krun fold_left]. eapply st_eq_trans; [exact A2|].
      apply krun_ext. exact A1.
  Qed.

  Lemma run_inv K h : forall s s', good K s -> run s h = Ok s' ->
    Forall (op_ok K) h /\ good K s' /\ st_eq K (abs s') (krun K (abs s) h).
  Proof.
    assert (A : forall s s', good K s -> run s h = Ok s' -> Forall (op_ok K) h).
    { induction h as [|o h IH]; intros s s' G E; [constructor|].
      unfold run in E. cbn [seq_upd] in E. binv E s1 E1.
      pose proof (do_op_inv K s o s1 G E1) as Ho. constructor; [exact Ho|].
      destruct (do_op_good K s o G Ho) as [s1' [E1' [G1 _]]]. rewrite E1 in E1'. injection E1' as <-.
      exact (IH s1 s' G1 E). }
    intros s s' G E. pose proof (A s s' G E) as Hh. split; [exact Hh|].
    destruct (run_good K h s G Hh) as [s2 [E2 [G2 A2]]]. rewrite E in E2. injection E2 as <-. auto.
  Qed.

  Lemma steps_good K s n : good K s ->
    exists s', steps s n = Ok s' /\ good K s' /\ st_eq K (abs s') (Nat.iter n (kstep K) (abs s)).
  Proof.
    intros G. destruct (run_good K (repeat OStep n) s G) as [s' [E [G' A]]].
    { apply Forall_forall. intros o Ho. apply repeat_spec in Ho. subst. exact I. }
    exists s'. split; [exact E|]. split; [exact G'|].
    replace (Nat.iter n (kstep K) (abs s)) with (krun K (abs s) (repeat OStep n)); [exact A|].
    clear. unfold krun. generalize (abs s) as a. induction n as [|n IH]; intros a; [reflexivity|].
    cbn [repeat fold_left kop]. rewrite IH. clear. induction n; cbn in *; [reflexivity|]. f_equal. exact IHn.
  Qed.

  Lemma abs_fields K s s' : good K s -> good K s' -> st_eq K (abs s) (abs s') ->
    sE s = sE s' /\ sH s = sH s' /\ sJ s = sJ s'.
  Proof.
    intros G G' [H _].
    assert (A : forall F F' : Field T, sized F (kNx K) (kNy K) (kNz K) -> sized F' (kNx K) (kNy K) (kNz K) ->
      (forall n, (n < 3 * kN K)%nat -> get (farr F) n = get (farr F') n) -> F = F').
    { intros F F' S S' HF. pose proof (sized_len _ _ _ _ S) as L. pose proof (sized_len _ _ _ _ S') as L'.
      destruct S as [_ [X [Y Z]]], S' as [_ [X' [Y' Z']]].
      assert (farr F = farr F') by (apply vec_eq; [congruence|]; intros n Hn; apply HF; fold (kN K) in L; lia).
      destruct F, F'; cbn in *; congruence. }
    split; [|split].
    - apply A; [apply G|apply G'|]. intros n Hn. apply H. exact Hn.
    - apply A; [apply G|apply G'|]. intros n Hn. apply H. exact Hn.
    - apply A; [apply G|apply G'|]. intros n Hn. apply H. exact Hn.
  Qed.
End Stencil.
Arguments Kern T : clear implicits.
Arguments St T : clear implicits.
