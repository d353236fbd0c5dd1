(** Distributed runs of any solvers, on the functions of the entries: what a run that finishes holds. *)
From Coq Require Import List Arith ZArith Bool String Lia.
From Verif Require Import Num Vec Index Matrix FieldModel FieldSpec FieldProofs FieldProofs2 GridModel GridProofs SolverModel SolverPlanes SolverBuild SolverMaterials
  SolverKern SolverCons SolverSpec SolverOps SolverKit MpiModel MpiComm MpiSolverModel MpiTiles MpiHalo MpiRun.
Import ListNotations.
Open Scope nat_scope.

Section Dist.
  Context {T : Type} {NT : Num T} {LT : NumLaws T} {OT : NumOrd T}.
  Context (size Nx Ny : nat) (dimz : nat -> nat) (K : nat -> Kern T) (HX : 0 < Nx) (HY : 0 < Ny).
  Context (Hdim : forall r, r < size -> 1 + (if 0 <? r then 1 else 0) + (if r <? size - 1 then 1 else 0) <= dimz r).
  Context (HK : forall r, r < size -> kNx (K r) = Nx /\ kNy (K r) = Ny /\ kNz (K r) = dimz r).
  Context (n : nat) (src : nat -> nat -> list (op T)) (init : nat -> Solver T).
  Context (HS : forall r m, r < size -> m < n -> Forall (op_ok (K r)) (src r m)).
  Context (HG : forall r, r < size -> good (K r) (init r)).

  (** One exchange of a field, by entries. *)
  Definition exch (X : nat -> nat -> T) (r m : nat) : T :=
    on_ix (fun c i j k =>
      if (0 <? r) && (k =? 0) then X (r - 1) (ix Nx Ny (dimz (r - 1)) c i j (dimz (r - 1) - 2))
      else if (r <? size - 1) && (k =? dimz r - 1) then X (r + 1) (ix Nx Ny (dimz (r + 1)) c i j 1)
      else X r (ix Nx Ny (dimz r) c i j k)) Nx Ny (dimz r) m.
  Definition phase (p : nat) (D : nat -> @St T) (r : nat) : @St T :=
    match p mod 5 with
    | 0 => krun (K r) (D r) (src r (p / 5))
    | 1 => {| te := effE (K r) (D r); th := exch (fun r => kH (K r) (effE (K r) (D r)) (effH (K r) (D r))) r; tj := tj (D r); tfresh := false |}
    | 2 => {| te := te (D r); th := th (D r); tj := exch (fun r => tj (D r)) r; tfresh := tfresh (D r) |}
    | 3 => {| te := exch (fun r => kE (K r) (te (D r)) (th (D r)) (tj (D r))) r; th := th (D r); tj := tj (D r); tfresh := tfresh (D r) |}
    | _ => {| te := te (D r); th := th (D r); tj := kJ (K r) (te (D r)) (tj (D r)); tfresh := tfresh (D r) |}
    end.
  Fixpoint dist (p : nat) : nat -> @St T := match p with 0 => fun r => abs (init r) | S p => phase p (dist p) end.

  Notation Gf := (MpiRun.Gf size src init). Notation mid := (MpiRun.mid size src init). Notation floc := (MpiRun.floc src).
  Lemma dist_phases r : mpi_program size r n (src r) = code_ph size (5 * n) floc fcom r 0.
  Proof.
    unfold mpi_program, code_ph. rewrite Nat.sub_0_r. clear HS. induction n as [|m IH]; [reflexivity|].
    rewrite seq_S, flat_map_app. rewrite IH. replace (5 * S m)%nat with (5 * m + 5)%nat by lia.
    rewrite seq_app, flat_map_app. f_equal. rewrite Nat.add_0_l.
    assert (Q : forall q, (q < 5)%nat -> phase_code size floc fcom r (5 * m + q) =
      Local (match q with 0%nat => runs (src r m) | 1%nat => mpi_H | 2%nat => @Ok _ | 3%nat => mpi_E | _ => mpi_J end) ::
      match match q with 1%nat => Some 1%nat | 2%nat => Some 2%nat | 3%nat => Some 0%nat | _ => None end with
        Some f => communicate size r f | None => [] end).
    { intros q Hq. destruct (p5 m q Hq) as [E1 E2]. unfold phase_code, MpiRun.floc, fcom. rewrite E1, E2. reflexivity. }
    assert (L : seq (5 * m) 5 = [(5 * m + 0)%nat; (5 * m + 1)%nat; (5 * m + 2)%nat; (5 * m + 3)%nat; (5 * m + 4)%nat]).
    { change (seq (5 * m) 5) with [(5 * m)%nat; S (5 * m); S (S (5 * m)); S (S (S (5 * m))); S (S (S (S (5 * m))))].
      repeat (apply f_equal2; [lia|]). reflexivity. }
    rewrite ?Nat.add_0_l, L. cbn [flat_map].  rewrite !Q by lia. unfold mpi_one_step. rewrite ?app_nil_r. cbn [app]. rewrite <- ?app_assoc. reflexivity.
  Qed.
  (** The state of each rank after a phase is known up to the entries of its arrays. *)
  Definition knows (S : nat -> Solver T) (D : nat -> @St T) : Prop := forall r, r < size -> good (K r) (S r) /\ st_eq (K r) (abs (S r)) (D r).

  Lemma kN_dim r : r < size -> kN (K r) = Nx * Ny * dimz r.
  Proof. intros Hr. destruct (HK r Hr) as (A & B & C). unfold kN. rewrite A, B, C. reflexivity. Qed.
  Lemma mid_sized p D : knows (mid p) D -> forall f r, r < size -> sized (fsel f (mid p r)) Nx Ny (dimz r).
  Proof. intros HO f r Hr. destruct (HO r Hr) as (G & _). destruct (HK r Hr) as (X1 & X2 & X3). rewrite <- X1, <- X2, <- X3. apply good_sized, G. Qed.
  Definition tsel (f : nat) (a : @St T) : nat -> T := match f with 0 => te a | 1 => th a | _ => tj a end.
  Definition tput (f : nat) (a : @St T) (x : nat -> T) : @St T :=
    match f with
    | 0 => {| te := x; th := th a; tj := tj a; tfresh := tfresh a |}
    | 1 => {| te := te a; th := x; tj := tj a; tfresh := tfresh a |}
    | _ => {| te := te a; th := th a; tj := x; tfresh := tfresh a |}
    end.
  Lemma com_knows p f D : fcom p = Some f -> f < 3 -> knows (mid p) D -> knows (Gf (S p)) (fun r => tput f (D r) (exch (fun r => tsel f (D r)) r)).
  Proof.
    intros Ef Hf HO r Hr.
    assert (Ff : ffld fcom p = f) by (unfold ffld; rewrite Ef; reflexivity).
    destruct (after_spec size Nx Ny dimz Hdim fcom mid p r (nops size fcom r p) Hr (le_n _) (mid_sized p D HO (ffld fcom p))) as (F & EF & SF & A).
    rewrite Ff in EF. change (Gf (S p) r) with (after halo_send halo_recv fcom mid r p (nops size fcom r p)). rewrite EF.
    destruct (HO r Hr) as (G & E & Fr). destruct (HK r Hr) as (X1 & X2 & X3).
    assert (SF' : sized F (kNx (K r)) (kNy (K r)) (kNz (K r))) by (rewrite X1, X2, X3; exact SF).
    split; [apply good_fsel; assumption|].
    assert (V : forall m, m < 3 * kN (K r) -> get (farr F) m = exch (fun r => tsel f (D r)) r m).
    { intros m Hm. rewrite (kN_dim r Hr) in Hm. destruct (ix_surj _ _ _ _ Hm) as (c & i & j & k & Hc & Hi & Hj & Hk & ->).
      rewrite <- (entry_ix F Nx Ny (dimz r)) by exact SF. rewrite A by assumption. rewrite part_full; [|exact Hdim|unfold is_com; rewrite Ef; reflexivity|exact Hc].
      rewrite Ff. unfold exch, exchanged. rewrite on_ix_ix by assumption.
      assert (Y : forall r' k', r' < size -> k' < dimz r' -> entry (fsel f (mid p r')) c i j k' = tsel f (D r') (ix Nx Ny (dimz r') c i j k')).
      { intros r' k' Hr' Hk'. rewrite (entry_ix _ Nx Ny (dimz r')) by (exact (mid_sized p D HO f r' Hr')).
        destruct (HO r' Hr') as (_ & E' & _). assert (L : ix Nx Ny (dimz r') c i j k' < 3 * kN (K r')) by (rewrite kN_dim by exact Hr'; apply ix_lt; assumption).
        destruct (E' _ L) as (A1 & A2 & A3). destruct f as [|[|f]]; assumption. }
      destruct (Nat.ltb_spec 0 r) as [R0|R0]; cbn [andb].
      - destruct (Nat.eqb_spec k 0) as [->|K0].
        + assert (Hr1 : r - 1 < size) by lia. pose proof (Hdim (r - 1) Hr1) as D1. destruct (Nat.ltb_spec (r - 1) (size - 1)); [|lia]. apply Y; lia.
        + destruct (Nat.ltb_spec r (size - 1)) as [R1|R1]; cbn [andb]; [|apply Y; assumption]. destruct (Nat.eqb_spec k (dimz r - 1)); [|apply Y; assumption].
          assert (Hr1 : r + 1 < size) by lia. pose proof (Hdim (r + 1) Hr1) as D1. destruct (Nat.ltb_spec 0 (r + 1)); [|lia]. apply Y; lia.
      - destruct (Nat.ltb_spec r (size - 1)) as [R1|R1]; cbn [andb]; [|apply Y; assumption]. destruct (Nat.eqb_spec k (dimz r - 1)); [|apply Y; assumption].
        assert (Hr1 : r + 1 < size) by lia. pose proof (Hdim (r + 1) Hr1) as D1. destruct (Nat.ltb_spec 0 (r + 1)); [|lia]. apply Y; lia. }
    destruct f as [|[|[|f]]]; [..|lia]; (split; [|exact Fr]); intros m Hm; destruct (E m Hm) as (E1 & E2 & E3); cbn [abs with_fsel with_fields sE sH sJ te th tj tput tsel fsel] in *; auto.
  Qed.
  Lemma mid_of p r s : floc p r (Gf p r) = Ok s -> mid p r = s.
  Proof. intros E. unfold MpiRun.mid, step1. rewrite E. reflexivity. Qed.
  Lemma idle_knows p D : fcom p = None -> knows (mid p) D -> knows (Gf (S p)) D.
  Proof. intros E H r Hr. change (Gf (S p) r) with (after halo_send halo_recv fcom mid r p (nops size fcom r p)). unfold after, nops, is_com. rewrite E. apply H, Hr. Qed.

  Lemma phase_knows p : p < 5 * n -> knows (Gf p) (dist p) ->
    (forall r, r < size -> floc p r (Gf p r) = Ok (mid p r)) /\ (exists D, knows (mid p) D) /\ knows (Gf (S p)) (dist (S p)).
  Proof.
    intros Hp HO. assert (Hq : p mod 5 < 5) by (apply Nat.mod_upper_bound; lia).
    assert (Hm : p / 5 < n) by (apply Nat.div_lt_upper_bound; lia).
    cbn [dist].
    assert (St1 : forall D, (forall r, r < size -> exists s, floc p r (Gf p r) = Ok s /\ good (K r) s /\ st_eq (K r) (abs s) (D r)) ->
      (forall r, r < size -> floc p r (Gf p r) = Ok (mid p r)) /\ knows (mid p) D).
    { intros D H. split; intros r Hr; destruct (H r Hr) as (s & E & G & Q); rewrite (mid_of p r s E); auto. }
    assert (X : p mod 5 = 0 \/ p mod 5 = 1 \/ p mod 5 = 2 \/ p mod 5 = 3 \/ p mod 5 = 4) by lia.
    destruct X as [X|[X|[X|[X|X]]]].
    - destruct (St1 (phase p (dist p))) as [A B].
      + intros r Hr. destruct (HO r Hr) as (G & Q). destruct (run_good (K r) (src r (p / 5)) (Gf p r) G (HS r _ Hr Hm)) as (s & E & G' & Q').
        exists s. unfold MpiRun.floc, phase. rewrite X. split; [exact E|]. split; [exact G'|]. eapply st_eq_trans; [exact Q'|]. apply krun_ext, Q.
      + split; [exact A|]. split; [exists (phase p (dist p)); exact B|]. apply idle_knows; [unfold fcom; rewrite X; reflexivity|exact B].
    - set (D1 := fun r => {| te := effE (K r) (dist p r); th := kH (K r) (effE (K r) (dist p r)) (effH (K r) (dist p r)); tj := tj (dist p r); tfresh := false |}).
      destruct (St1 D1) as [A B].
      + intros r Hr. destruct (HO r Hr) as (G & Q & F). destruct (mpiH_good (K r) (Gf p r) G) as (s & E & G' & F' & J' & V).
        exists s. unfold MpiRun.floc. rewrite X. split; [exact E|]. split; [exact G'|].
        assert (Ee : forall m, m < 3 * kN (K r) -> effE (K r) (abs (Gf p r)) m = effE (K r) (dist p r) m).
        { intros m Hm'. unfold effE. rewrite F. destruct (Q m Hm') as (-> & _). reflexivity. }
        assert (Eh : forall m, m < 3 * kN (K r) -> effH (K r) (abs (Gf p r)) m = effH (K r) (dist p r) m).
        { intros m Hm'. unfold effH. rewrite F. destruct (Q m Hm') as (_ & -> & _). reflexivity. }
        split; [|exact F']. intros m Hm'. destruct (V m Hm') as [V1 V2]. cbn [abs te th tj D1]. rewrite V1, V2, J'. split; [apply Ee, Hm'|]. split; [apply kH_ext; assumption|apply (Q m Hm')].
      + split; [exact A|]. split; [exists D1; exact B|]. pose proof (com_knows p 1 D1 ltac:(unfold fcom; rewrite X; reflexivity) ltac:(lia) B) as C.
        intros r Hr. unfold phase. rewrite X. exact (C r Hr).
    - destruct (St1 (dist p)) as [A B].
      + intros r Hr. exists (Gf p r). unfold MpiRun.floc. rewrite X. split; [reflexivity|]. apply HO, Hr.
      + split; [exact A|]. split; [exists (dist p); exact B|]. pose proof (com_knows p 2 (dist p) ltac:(unfold fcom; rewrite X; reflexivity) ltac:(lia) B) as C.
        intros r Hr. unfold phase. rewrite X. exact (C r Hr).
    - set (D1 := fun r => {| te := kE (K r) (te (dist p r)) (th (dist p r)) (tj (dist p r)); th := th (dist p r); tj := tj (dist p r); tfresh := tfresh (dist p r) |}).
      destruct (St1 D1) as [A B].
      + intros r Hr. destruct (HO r Hr) as (G & Q & F). destruct (mpiE_good (K r) (Gf p r) G) as (s & E & G' & F' & J' & H' & V).
        exists s. unfold MpiRun.floc. rewrite X. split; [exact E|]. split; [exact G'|]. split; [|cbn [abs tfresh D1] in *; congruence].
        intros m Hm'. cbn [abs te th tj D1]. rewrite J', H', (V m Hm'). destruct (Q m Hm') as (_ & Q2 & Q3).
        split; [|split; [exact Q2|exact Q3]]. apply kE_ext; try exact Hm'; intros m' L; apply (Q m' L).
      + split; [exact A|]. split; [exists D1; exact B|]. pose proof (com_knows p 0 D1 ltac:(unfold fcom; rewrite X; reflexivity) ltac:(lia) B) as C.
        intros r Hr. unfold phase. rewrite X. exact (C r Hr).
    - destruct (St1 (phase p (dist p))) as [A B].
      + intros r Hr. destruct (HO r Hr) as (G & Q & F). destruct (mpiJ_good (K r) (Gf p r) G) as (s & E & G' & F' & E' & H' & V).
        exists s. unfold MpiRun.floc, phase. rewrite X. split; [exact E|]. split; [exact G'|]. split; [|cbn [abs tfresh] in *; congruence].
        intros m Hm'. cbn [abs te th tj]. rewrite E', H', (V m Hm'). destruct (Q m Hm') as (Q1 & Q2 & Q3).
        split; [exact Q1|]. split; [exact Q2|]. unfold kJ. cbn [abs te tj] in *. rewrite Q1, Q3. reflexivity.
      + split; [exact A|]. split; [exists (phase p (dist p)); exact B|]. apply idle_knows; [unfold fcom; rewrite X; reflexivity|exact B].
  Qed.
  Lemma dist_knows p : p <= 5 * n -> knows (Gf p) (dist p).
  Proof.
    induction p as [|p IH]; intros Hp.
    - intros r Hr. split; [apply HG, Hr|]. apply st_eq_refl.
    - apply (phase_knows p); [lia|apply IH; lia].
  Qed.

  (** Every run of the machine ends, and ends with the entries of [dist]. *)
  Theorem dist_run : exists N, forall eg m w, wsteps halo_send halo_recv eg size m (start init (fun r => mpi_program size r n (src r))) w ->
    m <= N /\ (finished size w \/ exists w', wstep halo_send halo_recv false size w w') /\
    (finished size w -> knows (fun r => rst (wrank w r)) (dist (5 * n))).
  Proof.
    assert (A1 : forall p, p < 5 * n -> (forall r, r < size -> floc p r (Gf p r) = Ok (mid p r)) /\ exists D, knows (mid p) D).
    { intros p Hp. destruct (phase_knows p Hp (dist_knows p ltac:(lia))) as (X & Y & _). auto. }
    destruct (run_total halo_send halo_recv size (5 * n) floc fcom Gf mid) with (init := init) (code := fun r => mpi_program size r n (src r)) as [N H].
    - intros p' r' m' q' Hp Hr Hm Hq. destruct (A1 _ Hp) as (_ & D0 & B). eapply (after_indep size Nx Ny dimz); [exact Hdim|exact Hr|exact Hm|exact Hq|apply (mid_sized _ D0 B)].
    - intros p0 r0 Hp Hr. apply (A1 p0 Hp), Hr.
    - reflexivity.
    - reflexivity.
    - intros r' Hr. apply dist_phases.
    - exists N. intros eg m w Hw. destruct (H eg m w Hw) as (B1 & B2 & B3). split; [exact B1|]. split; [exact B2|].
      intros Hf r Hr. rewrite (B3 Hf r Hr). apply (dist_knows (5 * n)); [lia|exact Hr].
  Qed.
  (** A run that finishes. *)
  Theorem dist_ends : exists m w, wsteps halo_send halo_recv false size m (start init (fun r => mpi_program size r n (src r))) w /\ finished size w /\
    knows (fun r => rst (wrank w r)) (dist (5 * n)).
  Proof.
    destruct dist_run as [N H].
    assert (Q : forall d m w, N - m <= d -> wsteps halo_send halo_recv false size m (start init (fun r => mpi_program size r n (src r))) w ->
      exists m' w', wsteps halo_send halo_recv false size m' (start init (fun r => mpi_program size r n (src r))) w' /\ finished size w').
    { assert (App : forall m w0 w w', wsteps halo_send halo_recv false size m w0 w -> wstep halo_send halo_recv false size w w' -> wsteps halo_send halo_recv false size (S m) w0 w').
      { intros m w0 w w' H1 H2. induction H1; [econstructor; [exact H2|constructor]|econstructor; [eassumption|apply IHwsteps, H2]]. }
      induction d as [|d IH]; intros m w Hd Hw; destruct (H false m w Hw) as (B1 & [B2|[w' B2]] & _); try (exists m, w; auto; fail).
      - destruct (H false (S m) w' (App _ _ _ _ Hw B2)) as (B3 & _). lia.
      - apply (IH (S m) w'); [lia|exact (App _ _ _ _ Hw B2)]. }
    destruct (Q N 0 _ ltac:(lia) (ws_done _ _ _ _ _)) as (m & w & Hw & Hf). exists m, w. split; [exact Hw|]. split; [exact Hf|]. apply (H false m w Hw), Hf.
  Qed.
End Dist.
