(** Property C48: ends of z that the ranks do not reproduce. *)
From Coq Require Import List Arith ZArith Bool String Lia QArith Qcanon.
From Verif Require Import Num Vec Index Matrix FieldModel FieldSpec FieldProofs FieldProofs2 GridModel GridProofs SolverModel SolverPlanes SolverBuild SolverMaterials SolverKern SolverCons SolverSpec SolverOps SolverKit
  MpiModel MpiSolverModel MpiHalo MpiRun MpiDist MpiProps2.
Import ListNotations.
Open Scope nat_scope.

(** 3 x 3 x 4 cells on two ranks of two layers, walls electric in x and y; z ends [lo] and [hi]. *)
Definition ends48 (lo hi : string) (mp : option (nat * nat)) : Args Qc :=
  {| ar_bl := {| bcx := "pec"; bcy := "pec"; bcz := lo |}; ar_bh := {| bcx := "pec"; bcy := "pec"; bcz := hi |}; ar_bg := vac; ar_solids := [];
     ar_npml := 1; ar_cfln := q 1 2; ar_dt := Some (q 1 4); ar_mpi := mp |}.
(** One component of one cell set to one. *)
Definition spot (c0 i0 j0 k0 : nat) : list Qc :=
  tab 108 (on_ix (fun c i j k => if (c =? c0) && (i =? i0) && (j =? j0) && (k =? k0) then q 1 1 else q 0 1) 3 3 4).
Definition ranks_check (lo hi : string) (src : nat -> nat -> list (op Qc)) (f r c i j k : nat) (v : Qc) : bool :=
  match construct envQ (g48 0) (ends48 lo hi (Some (0, 2))), construct envQ (g48 1) (ends48 lo hi (Some (1, 2))) with
  | Ok (s0, g0), Ok (s1, g1) =>
      let K r := if r =? 0 then kern_of (g48 0) g0 s0 else kern_of (g48 1) g1 s1 in
      forallb (fun r => (kNx (K r) =? 3) && (kNy (K r) =? 3) && (kNz (K r) =? 3) && forallb (op_okb (K r)) (src r 0)) [0; 1] &&
      Qc_eq_bool (sdt s0) (q 1 4) && Qc_eq_bool (sdt s1) (q 1 4) &&
      Qc_eq_bool (tsel f (dist 2 3 3 (fun _ => 3) K src (fun r => if r =? 0 then s0 else s1) 5 r) (ix 3 3 3 c i j k)) v
  | _, _ => false
  end.
Lemma ranks_checked lo hi src f r c i j k v : r < 2 -> c < 3 -> i < 3 -> j < 3 -> k < 3 -> ranks_check lo hi src f r c i j k v = true ->
  exists g' init m w, (forall r, r < 2 -> construct envQ (g48 r) (ends48 lo hi (Some (r, 2))) = Ok (init r, g' r) /\ sdt (init r) = q 1 4) /\
    wsteps halo_send halo_recv false 2 m (start init (fun r => mpi_program 2 r 1 (src r))) w /\ finished 2 w /\ entry (fsel f (rst (wrank w r))) c i j k = v.
Proof.
  intros Hr Hc Hi Hj Hk H. unfold ranks_check in H.
  destruct (construct envQ (g48 0) (ends48 lo hi (Some (0, 2)))) as [[s0 g0]|] eqn:C0; [|discriminate].
  destruct (construct envQ (g48 1) (ends48 lo hi (Some (1, 2)))) as [[s1 g1]|] eqn:C1; [|discriminate].
  set (K := fun r => if r =? 0 then kern_of (g48 0) g0 s0 else kern_of (g48 1) g1 s1) in *. cbv zeta in H.
  rewrite !andb_true_iff in H. destruct H as (((A & D0) & D1) & V). apply Qc_eq_bool_correct in D0, D1, V.
  set (init := fun r => if r =? 0 then s0 else s1) in *.
  assert (B : forall r, r < 2 -> construct envQ (g48 r) (ends48 lo hi (Some (r, 2))) = Ok (init r, if r =? 0 then g0 else g1) /\ sdt (init r) = q 1 4) by (intros [|[|r']] L; [split; assumption..|lia]).
  assert (G : forall r, r < 2 -> good (K r) (init r)).
  { assert (Q : forall r, r < 2 -> exists t, mg48 r = Ok (t, g48 r)) by (intros; apply g48_ok; assumption).
    assert (Gr : forall r, r < 2 -> grid_ok (g48 r)).
    { intros r' L. destruct (Q r' L) as [t E]. unfold mg48, mpi_grid in E. binv E t0 E1. binv E gg E2. injection E as _ E3. rewrite <- E3. exact (compute_grid_ok _ _ _ _ E2). }
    intros [|[|r']] L; [exact (construct_good _ _ _ _ _ (Gr 0 L) C0)|exact (construct_good _ _ _ _ _ (Gr 1 L) C1)|lia]. }
  rewrite forallb_forall in A.
  assert (KD : forall r, r < 2 -> (kNx (K r) = 3 /\ kNy (K r) = 3 /\ kNz (K r) = 3) /\ Forall (op_ok (K r)) (src r 0)).
  { intros r' L. assert (I : In r' [0; 1]) by (destruct r' as [|[|r']]; cbn; [auto|auto|lia]). specialize (A r' I). rewrite !andb_true_iff in A. destruct A as (((A1 & A2) & A3) & A4).
    apply Nat.eqb_eq in A1, A2, A3. split; [auto|]. apply Forall_forall. intros o Ho. rewrite forallb_forall in A4. apply op_okb_ok, A4, Ho. }
  destruct (dist_ends 2 3 3 (fun _ => 3) K) with (n := 1) (src := src) (init := init) as (m & w & Hw & Hf & Kn).
  - lia.
  - lia.
  - intros [|[|r']] L; cbn; lia.
  - intros r' L. apply (KD r' L).
  - intros r' m L Lm. replace m with 0 by lia. apply (KD r' L).
  - exact G.
  - exists (fun r => if r =? 0 then g0 else g1), init, m, w. split; [exact B|]. split; [exact Hw|]. split; [exact Hf|].
    destruct (Kn r Hr) as (Gw & E & _). destruct (KD r Hr) as ((X1 & X2 & X3) & _).
    rewrite (entry_ix _ 3 3 3) by (pose proof (good_sized (K r) f _ Gw) as SZ; rewrite X1, X2, X3 in SZ; exact SZ).
    assert (L : ix 3 3 3 c i j k < 3 * kN (K r)) by (unfold kN; rewrite X1, X2, X3; apply ix_lt; assumption).
    destruct (E _ L) as (E1 & E2 & E3). rewrite <- V. destruct f as [|[|f]]; assumption.
Qed.
Lemma serial_case lo hi os f c i j k v : simulate2 envQ gs48 (ends48 lo hi None) (fun s _ => Qc_eq_bool (sdt s) (q 1 4)) [(os, [(f, (c, i, j, k), v)])] = true ->
  exists gs' ss sN, construct envQ gs48 (ends48 lo hi None) = Ok (ss, gs') /\ sdt ss = q 1 4 /\ run ss os = Ok sN /\ entry (sel f sN) c i j k = v.
Proof.
  intros H. destruct (simulated2 _ _ _ _ _ (go_axes envQ _ _ _ _ gs48_ok) H) as (ss & gs' & Hc & _ & Hd & F). inversion F as [|? ? (sN & RN & ON) _]; subst. inversion ON as [|? ? VN _]; subst.
  apply Qc_eq_bool_correct in Hd. exists gs', ss, sN. auto.
Qed.
(** A serial run and a distributed run of the same case with z ends [lo], [hi]: same writes, one step, and entry [c, i, j, k] of E ([f = 0]) or H on rank 1. *)
Definition ends_case (lo hi : string) (wr : list Qc -> op Qc) (l : list Qc) (f c i j k : nat) (vs vr : Qc) : Prop :=
  exists gs' ss sN tile g' init m w,
    construct envQ gs48 (ends48 lo hi None) = Ok (ss, gs') /\
    (forall r, r < 2 -> mg48 r = Ok (tile r, g48 r) /\ construct envQ (g48 r) (ends48 lo hi (Some (r, 2))) = Ok (init r, g' r) /\ sdt (init r) = sdt ss) /\
    (forall r, r < 2 -> layers_of 3 3 4 r 3 (cut 3 3 4 r 3 l) l) /\
    run ss [wr l; OStep] = Ok sN /\
    wsteps halo_send halo_recv false 2 m (start init (fun r => mpi_program 2 r 1 (fun _ => [wr (cut 3 3 4 r 3 l)]))) w /\ finished 2 w /\
    k < 2 /\ entry (sel f sN) c i j (2 + k) = vs /\ entry (sel f (rst (wrank w 1))) c i j (1 + k) = vr.
Lemma ends_run lo hi wr l f c i j k vs vr : List.length l = 108 -> c < 3 -> i < 3 -> j < 3 -> k < 2 ->
  simulate2 envQ gs48 (ends48 lo hi None) (fun s _ => Qc_eq_bool (sdt s) (q 1 4)) [([wr l; OStep], [(f, (c, i, j, 2 + k), vs)])] = true ->
  ranks_check lo hi (fun r _ => [wr (cut 3 3 4 r 3 l)]) f 1 c i j (1 + k) vr = true -> ends_case lo hi wr l f c i j k vs vr.
Proof.
  intros Hl Hc Hi Hj Hk HS HR. destruct (serial_case _ _ _ _ _ _ _ _ _ HS) as (gs' & ss & sN & A1 & A2 & A3 & A4).
  destruct (ranks_checked lo hi _ f 1 c i j (1 + k) vr ltac:(lia) Hc Hi Hj ltac:(lia) HR) as (g' & init & m & w & B1 & B2 & B3 & B4).
  destruct (two (fun r t => mg48 r = Ok (t, g48 r)) (g48_ok 0 ltac:(lia)) (g48_ok 1 ltac:(lia))) as [tile Ht].
  exists gs', ss, sN, tile, g', init, m, w. split; [exact A1|]. split.
  { intros r Hr. destruct (B1 r Hr) as [B5 B6]. split; [apply Ht, Hr|]. split; [exact B5|congruence]. }
  split; [intros r _; apply cut_layers; exact Hl|]. split; [exact A3|]. split; [exact B2|]. split; [exact B3|]. split; [exact Hk|]. split; [exact A4|exact B4].
Qed.

(** Periodic ends of z: a rank has at most one of the two, and none is periodic.  H_y = 1 in one cell below the upper end; after one step the serial
    E_x at the end is 1/4, that of the rank owning it zero. *)
Theorem C48_periodic_refuted : exists vs vr, vs <> vr /\ ends_case "periodic" "periodic" (@OWriteH Qc) (spot 1 1 1 2) 0 0 1 1 1 vs vr.
Proof. exists (q 1 4), (q 0 1). split; [discriminate|]. apply ends_run; [apply tab_length|lia|lia|lia|lia|vm_compute; reflexivity|vm_compute; reflexivity]. Qed.
Print Assumptions C48_periodic_refuted.
(** A magnetic lower end of z: the serial solver, and rank 0, stop the tangential H on the electric walls too (C29); rank 1 does not see the magnetic end
    and moves it.  E_z = 1 in one cell of rank 1; after one step H_y on the wall x = 0 is zero in the serial run and 1/4 on the rank. *)
Theorem C48_magnetic_refuted : exists vs vr, vs <> vr /\ ends_case "magnetic" "pec" (@OWriteE Qc) (spot 2 1 1 2) 1 1 0 1 0 vs vr.
Proof. exists (q 0 1), (q 1 4). split; [discriminate|]. apply ends_run; [apply tab_length|lia|lia|lia|lia|vm_compute; reflexivity|vm_compute; reflexivity]. Qed.
Print Assumptions C48_magnetic_refuted.
