(** Lemmas: boundary names and time step of the ranks. *)
From Coq Require Import List Arith ZArith Bool String Lia.
From Verif Require Import Num Vec Index Matrix FieldModel FieldSpec FieldProofs FieldProofs2
  GridModel GridProofs SolverModel SolverPlanes SolverBuild MpiModel MpiSolverModel MpiTiles.
Import ListNotations.

(** Everything the solver asks about a boundary name. *)
Definition cls (s : string) : bool * bool * bool * bool * bool * bool :=
  (named s "periodic", is_pec s, is_pmc_any s, is_pmc_face s, named s "abc", named s "pml").
Definition same_cls (b b' : bc3) : Prop := forall a, cls (bc_at b a) = cls (bc_at b' a).
(** "electric" or "pec", any case. *)
Definition electric (s : string) : Prop := named s "electric" = true \/ named s "pec" = true.

Lemma electric_cls s : electric s -> cls s = cls "pec".
Proof.
  intros H. assert (L : lower s = "electric"%string \/ lower s = "pec"%string).
  { destruct H as [H|H]; apply String.eqb_eq in H; auto. }
  assert (P : s <> "pmc"%string) by (intros ->; destruct L; discriminate).
  unfold cls, is_pec, is_pmc_any, is_pmc_face, named. apply String.eqb_neq in P. rewrite P.
  destruct L as [-> | ->]; reflexivity.
Qed.
Lemma same_cls_x b b' : same_cls b b' -> cls (bcx b) = cls (bcx b').
Proof. intros H. apply (H 0). Qed.
Lemma same_cls_y b b' : same_cls b b' -> cls (bcy b) = cls (bcy b').
Proof. intros H. apply (H 1). Qed.
Lemma same_cls_z b b' : same_cls b b' -> cls (bcz b) = cls (bcz b').
Proof. intros H. apply (H 2). Qed.

Section Names.
  Context {T : Type} {NT : Num T} {OT : NumOrd T}.

  Lemma apply_bc_names (g : Grid T) bl bh bl' bh' : same_cls bl bl' -> same_cls bh bh' -> apply_bc g bl bh = apply_bc g bl' bh'.
  Proof.
    intros Hl Hh. unfold apply_bc, any_bc, bc_mask, mask_assigns, axes. cbn [existsb axes flat_map Nat.eqb app bc_at].
    pose proof (same_cls_x _ _ Hl) as A. pose proof (same_cls_y _ _ Hl) as B. pose proof (same_cls_z _ _ Hl) as C.
    pose proof (same_cls_x _ _ Hh) as A'. pose proof (same_cls_y _ _ Hh) as B'. pose proof (same_cls_z _ _ Hh) as C'.
    unfold cls in *. cbn [seq_upd]. cbv beta. cbn [bc_at].
    injection A as A1 A2 A3 A4 A5 A6. injection B as B1 B2 B3 B4 B5 B6. injection C as C1 C2 C3 C4 C5 C6.
    injection A' as A1' A2' A3' A4' A5' A6'. injection B' as B1' B2' B3' B4' B5' B6'. injection C' as C1' C2' C3' C4' C5' C6'.
    rewrite A1, A2, A3, A4, A5, A6, B1, B2, B3, B4, B5, B6, C1, C2, C3, C4, C5, C6,
      ?A1', ?A2', A3', A4', A5', A6', B1', B2', B3', B4', B5', B6', C1', C2', C3', C4', C5', C6'. reflexivity.
  Qed.
  Lemma fill_pml_names (env : Env T) n bl bh bl' bh' ie sg : same_cls bl bl' -> same_cls bh bh' ->
    fill_pml env n bl bh ie sg = fill_pml env n bl' bh' ie sg.
  Proof.
    intros Hl Hh. unfold fill_pml, pml_low, pml_high, axes. cbn [seq_upd].
    assert (X : forall a, named (bc_at bl a) "pml" = named (bc_at bl' a) "pml") by (intros a; specialize (Hl a); unfold cls in Hl; congruence).
    assert (Y : forall a, named (bc_at bh a) "pml" = named (bc_at bh' a) "pml") by (intros a; specialize (Hh a); unfold cls in Hh; congruence).
    rewrite !X, !Y. reflexivity.
  Qed.

  (** The same solver with other recorded names. *)
  Definition rename (bl bh : bc3) (s : Solver T) : Solver T :=
    {| sNx := sNx s; sNy := sNy s; sNz := sNz s; sE := sE s; sH := sH s; sJ := sJ s;
       sieps := sieps s; simu := simu s; ssigma := ssigma s; siDeps := siDeps s; siDmu := siDmu s;
       sdt := sdt s; scond := scond s; sabc := sabc s; spml := spml s; sbl := bl; sbh := bh;
       sstep0 := sstep0 s; smH := smH s; smE := smE s; sops := sops s |}.
  (** Arguments with other walls and no MPI. *)
  Definition with_walls (ar : Args T) (bl bh : bc3) : Args T :=
    {| ar_bl := bl; ar_bh := bh; ar_bg := ar_bg ar; ar_solids := ar_solids ar; ar_npml := ar_npml ar;
       ar_cfln := ar_cfln ar; ar_dt := ar_dt ar; ar_mpi := None |}.
  Definition walls (ar : Args T) : bc3 * bc3 := mpi_bc (ar_mpi ar) (ar_bl ar) (ar_bh ar).

  Lemma construct_names (env : Env T) g ar bl bh : same_cls (fst (walls ar)) bl -> same_cls (snd (walls ar)) bh ->
    construct env g ar = (do p <- construct env g (with_walls ar bl bh); Ok (rename (fst (walls ar)) (snd (walls ar)) (fst p), snd p)).
  Proof.
    intros Hl Hh. unfold construct. unfold walls in *. destruct (mpi_bc (ar_mpi ar) (ar_bl ar) (ar_bh ar)) as [b1 b2]. cbn [fst snd] in *.
    cbn [with_walls ar_mpi mpi_bc ar_bl ar_bh ar_bg ar_solids ar_npml ar_cfln ar_dt]. rewrite (apply_bc_names g b1 b2 bl bh Hl Hh).
    destruct (apply_bc g bl bh) as [bo|]; cbn [bind]; [|reflexivity].
    destruct (build_materials _ _ _ _ _ _ _) as [M|]; cbn [bind]; [|reflexivity].
    rewrite (fill_pml_names env (ar_npml ar) b1 b2 bl bh (mt_ieps M) (mt_sigma M) Hl Hh).
    destruct (if bo_pml bo then _ else _) as [ms|]; cbn [bind]; [|reflexivity].
    destruct (match ar_dt ar with Some _ => _ | None => _ end) as [dt0|]; cbn [bind]; [|reflexivity].
    destruct (relax_dt _ _ _ _) as [dt|]; cbn [bind]; reflexivity.
  Qed.

  (** The user's walls with the inner faces of the rank marked "mpi". *)
  Definition inner_low (r : nat) (b : bc3) : bc3 := if 0 <? r then {| bcx := bcx b; bcy := bcy b; bcz := "mpi" |} else b.
  Definition inner_high (size r : nat) (b : bc3) : bc3 := if r <? size - 1 then {| bcx := bcx b; bcy := bcy b; bcz := "mpi" |} else b.

  Lemma electric_walls (env : Env T) g ar r size : ar_mpi ar = Some (r, size) ->
    electric (bcx (ar_bl ar)) -> electric (bcy (ar_bl ar)) -> electric (bcx (ar_bh ar)) -> electric (bcy (ar_bh ar)) ->
    construct env g ar =
      (do p <- construct env g (with_walls ar (inner_low r (ar_bl ar)) (inner_high size r (ar_bh ar)));
       Ok (rename (fst (walls ar)) (snd (walls ar)) (fst p), snd p)).
  Proof.
    intros E E1 E2 E3 E4. apply construct_names; unfold walls, mpi_bc; rewrite E; cbn [fst snd].
    - unfold inner_low. destruct (0 <? r); [|intros a; reflexivity].
      intros [|[|a]]; cbn [bc_at bcx bcy bcz]; [symmetry; apply electric_cls; assumption..|reflexivity].
    - unfold inner_high. destruct (r <? size - 1); [|intros a; reflexivity].
      intros [|[|a]]; cbn [bc_at bcx bcy bcz]; [symmetry; apply electric_cls; assumption..|reflexivity].
  Qed.
End Names.

Section Step.
  Context {T : Type} {NT : Num T} {LT : NumLaws T} {OT : NumOrd T}.
  Add Field field_T_bc : (@num_field T NT LT).
  Local Open Scope num_scope.

  Lemma np_min_const (v : list T) x : v <> [] -> (forall y, In y v -> y = x) -> np_min v = Ok x.
  Proof.
    destruct v as [|y v]; [congruence|]. intros _ H. cbn [np_min]. f_equal.
    assert (Ey : y = x) by (apply H; left; reflexivity). subst y.
    assert (Hv : forall y, In y v -> y = x) by (intros; apply H; right; assumption). clear H.
    induction v as [|z v IH]; cbn [fold_left]; [reflexivity|]. rewrite (Hv z) by (left; reflexivity). unfold nmin at 2.
    replace (if nltb x x then x else x) with x by (destruct (nltb x x); reflexivity).
    apply IH. intros; apply Hv; right; assumption.
  Qed.

  Lemma diff_uniform (l : list T) a d n : List.length l = (n + 1)%nat -> (0 < n)%nat ->
    (forall i, (i <= n)%nat -> get l i = a + nofnat i * d) -> np_min (diff l) = Ok d.
  Proof.
    intros Hl Hn H. apply np_min_const.
    - unfold diff. rewrite Hl. replace (n + 1 - 1)%nat with (S (n - 1)) by lia. rewrite tab_S.
      intros E. apply app_eq_nil in E. destruct E; discriminate.
    - intros y Hy. unfold diff in Hy. rewrite Hl in Hy. destruct (In_nth _ _ 0 Hy) as (i & Hi & <-). rewrite tab_length in Hi.
      rewrite nth_tab by exact Hi. rewrite !H by lia. rewrite nofnat_add, nofnat_1. ring.
  Qed.

  Lemma compute_grid_axes (x y z : list T) g : compute_grid x y z = Ok g -> gx g = x /\ gy g = y /\ gz g = z.
  Proof.
    unfold compute_grid. intros H. destruct (_ && _)%bool in H; [|discriminate]. do 4 (let v := fresh in let E := fresh in binv H v E).
    injection H as <-. auto.
  Qed.

  (** np_min of any array of differences only depends on the array. *)
  Lemma dt_tile (env : Env T) cfln dx dy ZMIN ZMAX Nz size r t : char0 T -> (size <= Nz)%nat -> (r < size)%nat ->
    mpi_tile ZMIN ZMAX Nz size r = Ok t ->
    cfl_dt env cfln dx dy (diff (tl_z t)) = cfl_dt env cfln dx dy (diff (linspace ZMIN ZMAX (Nz - Nz mod size))).
  Proof.
    intros C0 Hs Hr Et. destruct (tile_spec ZMIN ZMAX Nz size r C0 Hs Hr) as (t' & Et' & _ & _ & L & A & _).
    rewrite Et in Et'. injection Et' as <-.
    destruct (NZ_facts Nz size ltac:(lia) Hs) as (F1 & F2 & F3 & F4 & F5). set (NZ := (Nz - Nz mod size)%nat) in *.
    assert (Q : np_min (diff (tl_z t)) = Ok ((ZMAX - ZMIN) / nofnat NZ)).
    { apply (diff_uniform _ (get (tl_z t) 0%nat) _ (lay NZ size r)); [exact L|unfold lay; lia|]. intros i Hi. rewrite !A by lia.
      unfold glob. rewrite Nat.add_0_r.
      assert (X : (glo r <= r * own NZ size)%nat) by (unfold glo; destruct (Nat.ltb_spec 0 r); nia).
      replace (r * own NZ size + i - glo r)%nat with ((r * own NZ size - glo r) + i)%nat by lia. rewrite nofnat_add. ring. }
    assert (Q2 : np_min (diff (linspace ZMIN ZMAX NZ)) = Ok ((ZMAX - ZMIN) / nofnat NZ)).
    { apply (diff_uniform _ ZMIN _ NZ); [unfold linspace; apply tab_length|lia|]. intros i Hi. unfold linspace. rewrite get_tab by lia. reflexivity. }
    unfold cfl_dt. rewrite Q, Q2. reflexivity.
  Qed.

  Lemma construct_dt (env : Env T) g ar s g' : construct env g ar = Ok (s, g') -> scond s = false ->
    match ar_dt ar with Some dt => Ok dt | None => cfl_dt env (ar_cfln ar) (diff (gx g)) (diff (gy g)) (diff (gz g)) end = Ok (sdt s).
  Proof.
    unfold construct. destruct (mpi_bc _ _ _) as [b1 b2]. intros H Hc.
    binv H bo Hbo. binv H M HM. binv H ms Hms. binv H dt0 Hd0. binv H dt Hd.
    assert (Ec : scond s = mt_cond M) by (apply (f_equal (fun r => match r with Ok (s, _) => scond s | Err _ => false end)) in H; symmetry; exact H).
    assert (Ed : dt = sdt s).
    { apply (f_equal (fun r => match r with Ok (s, _) => sdt s | Err _ => dt end)) in H. exact H. }
    rewrite Ec in Hc. unfold relax_dt in Hd. rewrite Hc in Hd. injection Hd as Hd. rewrite <- Ed, <- Hd. first [exact Hd0|reflexivity].
  Qed.
End Step.
