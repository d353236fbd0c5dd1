(** Lemmas: a distributed run follows the serial run, for every schedule of the ranks. *)
From Coq Require Import List Arith ZArith Bool String Lia Ring Field.
From Verif Require Import Num Vec Index Matrix FieldModel FieldSpec FieldProofs FieldProofs2
  GridModel GridProofs SolverModel SolverPlanes SolverBuild SolverMaterials SolverKern MpiModel MpiComm MpiSolverModel MpiHalo MpiSim.
Import ListNotations.

Lemma p5 m q : (q < 5) -> ((5 * m + q) / 5 = m /\ (5 * m + q) mod 5 = q).
Proof.
    intros Hq. split; [symmetry; apply (Nat.div_unique _ _ m q); lia|symmetry; apply (Nat.mod_unique _ _ m q); lia].
Qed.

Section Parts.
  Context {T : Type} {NT : Num T} {LT : NumLaws T} {OT : NumOrd T}.
  Add Field field_T_parts : (@num_field T NT LT).
  Local Open Scope num_scope.

  Lemma good_N K (s : Solver T) : good K s -> (3 * sN s)%nat = (3 * kN K)%nat.
  Proof. intros G. unfold sN, kN. rewrite (gd_x _ _ G), (gd_y _ _ G), (gd_z _ _ G). reflexivity. Qed.

  Lemma mpiH_good K s : good K s ->
    exists s', mpi_H s = Ok s' /\ good K s' /\ sstep0 s' = false /\ sJ s' = sJ s /\
      forall n, (n < 3 * kN K)%nat -> get (farr (sE s')) n = effE K (abs s) n /\
        get (farr (sH s')) n = kH K (effE K (abs s)) (effH K (abs s)) n.
  Proof.
    intros G0. destruct (first_good K s G0) as [s1 [E1 [G [F1 [J1 [_ A1]]]]]].
    unfold mpi_H. rewrite E1. cbn [bind]. pose proof (good_N K s1 G) as HN.
    pose proof (sized_len _ _ _ _ (gd_H _ _ G)) as LH. fold (kN K) in LH.
    unfold updH. rewrite HN. unfold toarray.
    destruct (fromarray_full K (sH s1)
      (vsub (farr (sH s1)) (vscale (sdt s1) (mvec (3 * kN K) (smH s1) (farr (sE s1))))) (gd_H _ _ G))
      as [EH SH]; [unfold vsub; rewrite vmap2_length; exact LH|].
    rewrite EH. cbn [bind]. eexists. split; [reflexivity|]. cbn [with_fields sE sH sJ sstep0].
    split; [apply good_fields; [exact G|apply G|exact SH|apply G]|]. split; [exact F1|]. split; [exact J1|].
    intros n Hn. split; [apply A1; exact Hn|]. cbn [farr with_arr]. unfold vsub. rewrite get_vmap2 by lia.
    rewrite get_vscale by (unfold mvec; rewrite tab_length; exact Hn).
    unfold mvec. rewrite get_tab by exact Hn. rewrite (gd_mH _ _ G) by exact Hn.
    unfold kH. rewrite (gd_dt _ _ G). destruct (A1 n Hn) as [_ ->].
    rewrite (kcurl_ext K (get (farr (sE s1))) (effE K (abs s))); [reflexivity|exact Hn|].
    intros m Hm. apply A1. exact Hm.
  Qed.

  Lemma mpiE_good K s : good K s ->
    exists s', mpi_E s = Ok s' /\ good K s' /\ sstep0 s' = sstep0 s /\ sJ s' = sJ s /\ sH s' = sH s /\
      forall n, (n < 3 * kN K)%nat ->
        get (farr (sE s')) n = kE K (get (farr (sE s))) (get (farr (sH s))) (get (farr (sJ s))) n.
  Proof.
    intros G. unfold mpi_E. pose proof (good_N K s G) as HN.
    pose proof (sized_len _ _ _ _ (gd_E _ _ G)) as LE. pose proof (sized_len _ _ _ _ (gd_J _ _ G)) as LJ.
    pose proof (sized_len _ _ _ _ (gd_ie _ _ G)) as Li. fold (kN K) in LE, LJ, Li.
    unfold updE. rewrite HN. unfold toarray.
    destruct (fromarray_full K (sE s)
      (vadd (farr (sE s)) (vscale (sdt s) (vsub (mvec (3 * kN K) (smE s) (farr (sH s)))
              (vmul (farr (sieps s)) (farr (sJ s)))))) (gd_E _ _ G))
      as [EE SE]; [unfold vadd; rewrite vmap2_length; exact LE|].
    rewrite EE. cbn [bind]. eexists. split; [reflexivity|]. cbn [with_fields sE sH sJ sstep0].
    split; [apply good_fields; [exact G|exact SE|apply G|apply G]|]. do 3 (split; [reflexivity|]).
    intros n Hn. cbn [farr with_arr]. unfold vadd. rewrite get_vmap2 by lia.
    rewrite get_vscale by (unfold vsub, mvec; rewrite vmap2_length, tab_length; exact Hn).
    unfold vsub. rewrite get_vmap2 by (unfold mvec; rewrite tab_length; exact Hn).
    unfold vmul. rewrite get_vmap2 by lia.
    unfold mvec. rewrite get_tab by exact Hn. rewrite (gd_mE _ _ G), (gd_iev _ _ G) by exact Hn.
    unfold kE. rewrite (gd_dt _ _ G). reflexivity.
  Qed.

  Lemma mpiJ_good K s : good K s ->
    exists s', mpi_J s = Ok s' /\ good K s' /\ sstep0 s' = sstep0 s /\ sE s' = sE s /\ sH s' = sH s /\
      forall n, (n < 3 * kN K)%nat -> get (farr (sJ s')) n = kJ K (get (farr (sE s))) (get (farr (sJ s))) n.
  Proof.
    intros G. unfold mpi_J, updJ, toarray.
    pose proof (sized_len _ _ _ _ (gd_sg _ _ G)) as Lg. fold (kN K) in Lg.
    unfold kJ. rewrite (gd_cond _ _ G). destruct (kcond K).
    - destruct (fromarray_full K (sJ s) (vmul (farr (ssigma s)) (farr (sE s))) (gd_J _ _ G)) as [E3 S3].
      + unfold vmul. rewrite vmap2_length. exact Lg.
      + rewrite E3. cbn [bind]. eexists. split; [reflexivity|]. cbn [with_fields sE sH sJ sstep0].
        split; [apply good_fields; [exact G|apply G|apply G|exact S3]|]. do 3 (split; [reflexivity|]).
        intros n Hn. cbn [farr with_arr]. unfold vmul. rewrite get_vmap2 by lia. rewrite (gd_sgv _ _ G) by exact Hn. reflexivity.
    - cbn [bind]. eexists. split; [reflexivity|]. cbn [with_fields sE sH sJ sstep0].
      split; [apply good_fields; [exact G|apply G|apply G|apply G]|]. auto.
  Qed.

  Lemma good_fsel K f (s : Solver T) F : good K s -> sized F (kNx K) (kNy K) (kNz K) -> good K (with_fsel f s F).
  Proof. intros G SF. destruct f as [|[|f]]; cbn [with_fsel]; apply good_fields; first [exact G|exact SF|apply G]. Qed.
  Lemma good_sized K f (s : Solver T) : good K s -> sized (fsel f s) (kNx K) (kNy K) (kNz K).
  Proof. intros G. destruct f as [|[|f]]; apply G. Qed.
End Parts.

Section Run.
  Context {T : Type} {NT : Num T} {LT : NumLaws T} {OT : NumOrd T}.
  Add Field field_T_run : (@num_field T NT LT).
  Local Open Scope num_scope.
  Context (size nz Nx Ny : nat) (Hsz : (2 <= size)%nat) (Hnz : (0 < nz)%nat) (HX : (0 < Nx)%nat) (HY : (0 < Ny)%nat).
  Context (Kg : @Kern T) (K : nat -> @Kern T).
  Context (HT : forall r, (r < size)%nat -> tile_of size nz Nx Ny r Kg (K r)).
  Notation dimr := (MpiSim.dimr size nz).
  Notation off := (MpiSim.off nz).
  Notation NZ := (MpiSim.gNZ size nz).
  Notation rel := (@MpiSim.rel T size nz Nx Ny).
  Notation relO := (@MpiSim.relO T size nz Nx Ny).
  Notation wall0 := (MpiSim.wall_zero size nz Nx Ny Kg).

  (** The part of a write that falls on rank [r]. *)
  Definition restr (r : nat) (l lg : list T) : Prop :=
    List.length l = (3 * (Nx * Ny * dimr r))%nat /\ List.length lg = (3 * (Nx * Ny * NZ))%nat /\ rel 0 (dimr r) r (get l) (get lg).
  Inductive tile_op (r : nat) : op T -> op T -> Prop :=
  | to_E l lg : restr r l lg -> tile_op r (OWriteE l) (OWriteE lg)
  | to_H l lg : restr r l lg -> tile_op r (OWriteH l) (OWriteH lg)
  | to_J l lg : restr r l lg -> tile_op r (OWriteJ l) (OWriteJ lg)
  | to_R : tile_op r OReset OReset
  | to_L f fg : restr r (stE f) (stE fg) -> restr r (stH f) (stH fg) -> restr r (stJ f) (stJ fg) -> tile_op r (OLoad f) (OLoad fg).
  Definition dry_op (o : op T) : Prop :=
    match o with
    | OWriteE l | OWriteJ l => wall0 (get l)
    | OLoad f => wall0 (get (stE f)) /\ wall0 (get (stJ f))
    | _ => True
    end.

  Definition follows (r : nat) (s : Solver T) (A : @St T) : Prop :=
    good (K r) s /\ sstep0 s = tfresh A /\ rel 0 (dimr r) r (get (farr (sE s))) (te A) /\
    relO r (get (farr (sH s))) (th A) /\ relO r (get (farr (sJ s))) (tj A).

  Lemma rel_own r f F : rel 0 (dimr r) r f F -> relO r f F.
  Proof. intros H c i j k Hc Hi Hj Hl Hu. apply H; try assumption; unfold MpiSim.dimr; lia. Qed.
  Lemma rel_ext lo hi r f f' F F' : (r < size)%nat -> (hi <= dimr r)%nat -> rel lo hi r f F ->
    (forall n, (n < 3 * (Nx * Ny * dimr r))%nat -> f' n = f n) -> (forall n, (n < 3 * (Nx * Ny * NZ))%nat -> F' n = F n) -> rel lo hi r f' F'.
  Proof.
    intros Hr Hhi H E1 E2 c i j k Hc Hi Hj Hl Hu. rewrite E1 by (apply ix_lt; lia).
    rewrite E2 by (apply ix_lt; try assumption; apply (off_in size nz Nx Ny Hsz Hnz HX HY); lia). apply H; assumption.
  Qed.
  Lemma tile_kN r : (r < size)%nat -> kN (K r) = (Nx * Ny * dimr r)%nat.
  Proof. intros Hr. exact (kNr size nz Nx Ny r Kg (K r) (HT r Hr)). Qed.
  Lemma glob_kN : kN Kg = (Nx * Ny * NZ)%nat.
  Proof. exact (kNg size nz Nx Ny 0 Kg (K 0%nat) (HT 0%nat ltac:(lia))). Qed.

  Lemma restr_fill r l lg : (r < size)%nat -> restr r l lg ->
    arr_ok (K r) l /\ arr_ok Kg lg /\ rel 0 (dimr r) r (fill (K r) l) (fill Kg lg) /\ (forall n, fill Kg lg n = get lg n).
  Proof.
    intros Hr (L1 & L2 & R). unfold arr_ok, fill. rewrite (tile_kN r Hr), glob_kN, L1, L2, !Nat.eqb_refl. auto.
  Qed.

  Lemma op_follows r s A o og : (r < size)%nat -> follows r s A -> tile_op r o og ->
    exists s', do_op s o = Ok s' /\ follows r s' (kop Kg A og).
  Proof.
    intros Hr (G & F & HE & HH & HJ) Ho.
    assert (Hok : op_ok (K r) o).
    { destruct Ho as [l lg R|l lg R|l lg R| |f fg R1 R2 R3]; cbn [op_ok]; auto; try (apply (restr_fill r l lg Hr R)).
      split; [|split]; [apply (restr_fill r _ _ Hr R1)|apply (restr_fill r _ _ Hr R2)|apply (restr_fill r _ _ Hr R3)]. }
    destruct (do_op_good (K r) s o G Hok) as (s' & E & G' & A' & F'). exists s'. split; [exact E|]. split; [exact G'|].
    assert (N : forall n, (n < 3 * (Nx * Ny * dimr r))%nat -> (n < 3 * kN (K r))%nat) by (intros n Hn; rewrite (tile_kN r Hr); exact Hn).
    assert (D : (below r + nz <= dimr r)%nat) by (unfold MpiSim.dimr; lia).
    cbn [abs tfresh te th tj] in F', A'.
    assert (A1 : forall n, (n < 3 * (Nx * Ny * dimr r))%nat -> get (farr (sE s')) n = te (kop (K r) (abs s) o) n) by (intros n Hn; apply A', N, Hn).
    assert (A2 : forall n, (n < 3 * (Nx * Ny * dimr r))%nat -> get (farr (sH s')) n = th (kop (K r) (abs s) o) n) by (intros n Hn; apply A', N, Hn).
    assert (A3 : forall n, (n < 3 * (Nx * Ny * dimr r))%nat -> get (farr (sJ s')) n = tj (kop (K r) (abs s) o) n) by (intros n Hn; apply A', N, Hn).
    split.
    { rewrite F'. destruct Ho; cbn [kop tfresh abs]; exact F. }
    assert (X : rel 0 (dimr r) r (te (kop (K r) (abs s) o)) (te (kop Kg A og)) /\ relO r (th (kop (K r) (abs s) o)) (th (kop Kg A og)) /\
                relO r (tj (kop (K r) (abs s) o)) (tj (kop Kg A og))).
    { destruct Ho as [l lg R|l lg R|l lg R| |f fg R1 R2 R3]; cbn [kop te th tj abs].
      - destruct (restr_fill r l lg Hr R) as (_ & _ & R' & _). auto.
      - destruct (restr_fill r l lg Hr R) as (_ & _ & R' & _). split; [exact HE|]. split; [apply rel_own, R'|exact HJ].
      - destruct (restr_fill r l lg Hr R) as (_ & _ & R' & _). split; [exact HE|]. split; [exact HH|apply rel_own, R'].
      - repeat split; intros c i j k _ _ _ _ _; reflexivity.
      - destruct (restr_fill r _ _ Hr R1) as (_ & _ & R1' & _). destruct (restr_fill r _ _ Hr R2) as (_ & _ & R2' & _).
        destruct (restr_fill r _ _ Hr R3) as (_ & _ & R3' & _). split; [exact R1'|]. split; apply rel_own; assumption. }
    destruct X as (X1 & X2 & X3).
    split; [eapply rel_ext; [exact Hr|apply le_n|exact X1|exact A1|reflexivity]|].
    split; [eapply rel_ext; [exact Hr|exact D|exact X2|exact A2|reflexivity]|].
    eapply rel_ext; [exact Hr|exact D|exact X3|exact A3|reflexivity].
  Qed.

  Lemma run_follows r os ogs : (r < size)%nat -> Forall2 (tile_op r) os ogs -> forall s A, follows r s A ->
    exists s', run s os = Ok s' /\ follows r s' (krun Kg A ogs).
  Proof.
    intros Hr. induction 1 as [|o og os ogs Ho Hos IH]; intros s A HF.
    - exists s. split; [reflexivity|exact HF].
    - destruct (op_follows r s A o og Hr HF Ho) as (s1 & E1 & F1). destruct (IH s1 _ F1) as (s2 & E2 & F2).
      exists s2. split; [unfold run; cbn [seq_upd]; rewrite E1; cbn [bind]; exact E2|]. cbn [krun fold_left]. exact F2.
  Qed.

  Lemma dry_run r os ogs : (r < size)%nat -> Forall2 (tile_op r) os ogs -> Forall dry_op ogs -> forall A, wall0 (te A) -> wall0 (tj A) ->
    wall0 (te (krun Kg A ogs)) /\ wall0 (tj (krun Kg A ogs)).
  Proof.
    intros Hr. induction 1 as [|o og os ogs Ho Hos IH]; intros HD A HE HJ; [auto|].
    inversion HD as [|? ? D1 D2]; subst. cbn [krun fold_left]. apply (IH D2).
    - destruct Ho as [l lg R|l lg R|l lg R| |f fg R1 R2 R3]; cbn [kop te dry_op] in *; auto.
      + destruct (restr_fill r l lg Hr R) as (_ & _ & _ & Q). intros n Hn Z. rewrite Q. apply D1; assumption.
      + intros n Hn Z. reflexivity.
      + destruct (restr_fill r _ _ Hr R1) as (_ & _ & _ & Q). intros n Hn Z. rewrite Q. apply D1; assumption.
    - destruct Ho as [l lg R|l lg R|l lg R| |f fg R1 R2 R3]; cbn [kop tj dry_op] in *; auto.
      + destruct (restr_fill r l lg Hr R) as (_ & _ & _ & Q). intros n Hn Z. rewrite Q. apply D1; assumption.
      + intros n Hn Z. reflexivity.
      + destruct (restr_fill r _ _ Hr R3) as (_ & _ & _ & Q). intros n Hn Z. rewrite Q. apply D1; assumption.
  Qed.

  (** ** The phases *)
  Context (n : nat) (src : nat -> nat -> list (op T)) (srcg : nat -> list (op T)) (init : nat -> Solver T) (A0 : @St T).
  Context (HS : forall r m, (r < size)%nat -> (m < n)%nat -> Forall2 (tile_op r) (src r m) (srcg m)).
  Context (HD : forall m, (m < n)%nat -> Forall dry_op (srcg m)).
  Context (H0 : forall r, (r < size)%nat -> follows r (init r) A0) (W0 : wall0 (te A0)) (W0' : wall0 (tj A0)).

  Definition runs (l : list (op T)) (s : Solver T) : result (Solver T) := run s l.
  Definition floc (p r : nat) : Solver T -> result (Solver T) :=
    match (p mod 5)%nat with
    | 0%nat => runs (src r (p / 5))
    | 1%nat => mpi_H
    | 2%nat => @Ok _
    | 3%nat => mpi_E
    | _ => mpi_J
    end.
  Definition fcom (p : nat) : option nat :=
    match (p mod 5)%nat with 1%nat => Some 1%nat | 2%nat => Some 2%nat | 3%nat => Some 0%nat | _ => None end.
  Definition step1 (p r : nat) (s : Solver T) : Solver T := match floc p r s with Ok s' => s' | Err _ => s end.
  Fixpoint Gf (p : nat) : nat -> Solver T :=
    match p with
    | 0%nat => init
    | S p => fun r => after halo_send halo_recv fcom (fun _ r => step1 p r (Gf p r)) r p (nops size fcom r p)
    end.
  Definition mid (p r : nat) : Solver T := step1 p r (Gf p r).
  Lemma Gf_S p r : Gf (S p) r = after halo_send halo_recv fcom mid r p (nops size fcom r p).
  Proof. reflexivity. Qed.

  Lemma program_phases r : mpi_program size r n (src r) = code_ph size (5 * n) floc fcom r 0.
  Proof.
    unfold mpi_program, code_ph. rewrite Nat.sub_0_r. clear HS HD. induction n as [|m IH]; [reflexivity|].
    rewrite seq_S, flat_map_app. rewrite IH. replace (5 * S m)%nat with (5 * m + 5)%nat by lia.
    rewrite seq_app, flat_map_app. f_equal. rewrite Nat.add_0_l.
    assert (Q : forall q, (q < 5)%nat -> phase_code size floc fcom r (5 * m + q) =
      Local (match q with 0%nat => runs (src r m) | 1%nat => mpi_H | 2%nat => @Ok _ | 3%nat => mpi_E | _ => mpi_J end) ::
      match match q with 1%nat => Some 1%nat | 2%nat => Some 2%nat | 3%nat => Some 0%nat | _ => None end with
        Some f => communicate size r f | None => [] end).
    { intros q Hq. destruct (p5 m q Hq) as [E1 E2]. unfold phase_code, floc, fcom. rewrite E1, E2. reflexivity. }
    assert (L : seq (5 * m) 5 = [(5 * m + 0)%nat; (5 * m + 1)%nat; (5 * m + 2)%nat; (5 * m + 3)%nat; (5 * m + 4)%nat]).
    { change (seq (5 * m) 5) with [(5 * m)%nat; S (5 * m); S (S (5 * m)); S (S (S (5 * m))); S (S (S (S (5 * m))))].
      repeat (apply f_equal2; [lia|]). reflexivity. }
    rewrite ?Nat.add_0_l, L. cbn [flat_map].  rewrite !Q by lia. unfold mpi_one_step. rewrite ?app_nil_r. cbn [app]. rewrite <- ?app_assoc. reflexivity.
  Qed.

  Fixpoint Ag (m : nat) : @St T := match m with 0%nat => A0 | S m => kstep Kg (krun Kg (Ag m) (srcg m)) end.

  Lemma hdim r : (r < size)%nat -> (1 + (if 0 <? r then 1 else 0) + (if r <? size - 1 then 1 else 0) <= dimr r)%nat.
  Proof. intros _. unfold MpiSim.dimr, below, above. lia. Qed.

  (** An exchange completes a field known on the owned layers. *)
  Lemma exchange_rel (F : nat -> Field T) (X : nat -> T) r : (r < size)%nat -> 
    (forall r, (r < size)%nat -> sized (F r) Nx Ny (dimr r) /\ relO r (get (farr (F r))) X) ->
    forall F', sized F' Nx Ny (dimr r) ->
      (forall c i j k, (c < 3)%nat -> (i < Nx)%nat -> (j < Ny)%nat -> (k < dimr r)%nat -> entry F' c i j k = exchanged size dimr F r c i j k) ->
      rel 0 (dimr r) r (get (farr F')) X.
  Proof.
    intros Hr HF F' SF' E c i j k Hc Hi Hj _ Hk. rewrite <- (entry_ix F' Nx Ny (dimr r)) by exact SF'. rewrite E by assumption.
    unfold exchanged. pose proof (off_below size nz Nx Ny Hsz Hnz HX HY) as OB.
    destruct (Nat.ltb_spec 0 r) as [R0|R0]; cbn [andb].
    - destruct (Nat.eqb_spec k 0) as [->|K0].
      + destruct (HF (r - 1)%nat ltac:(lia)) as [S1 R1]. rewrite (entry_ix _ Nx Ny (dimr (r - 1))) by exact S1.
        assert (D1 : dimr (r - 1) = (nz + below (r - 1) + 1)%nat) by (unfold MpiSim.dimr, above; destruct (Nat.ltb_spec (r - 1) (size - 1)); [reflexivity|lia]).
        rewrite R1 by (try assumption; lia). do 2 f_equal. pose proof (OB (r - 1)%nat). pose proof (OB r). rewrite D1. unfold MpiSim.off.
        assert (below r = 1%nat) by (unfold below; destruct (Nat.ltb_spec 0 r); [reflexivity|lia]).
        assert (r * nz = (r - 1) * nz + nz)%nat by nia. lia.
      + destruct (Nat.ltb_spec r (size - 1)) as [R1|R1]; cbn [andb].
        * destruct (Nat.eqb_spec k (dimr r - 1)) as [->|K1].
          -- destruct (HF (r + 1)%nat ltac:(lia)) as [S1 R2]. rewrite (entry_ix _ Nx Ny (dimr (r + 1))) by exact S1.
             assert (B1 : below (r + 1) = 1%nat) by (unfold below; destruct (Nat.ltb_spec 0 (r + 1)); [reflexivity|lia]).
             assert (D1 : dimr r = (nz + below r + 1)%nat) by (unfold MpiSim.dimr, above; destruct (Nat.ltb_spec r (size - 1)); [reflexivity|lia]).
             rewrite R2 by (try assumption; lia). do 2 f_equal. pose proof (OB (r + 1)%nat). pose proof (OB r). rewrite D1. unfold MpiSim.off. rewrite B1. nia.
          -- destruct (HF r Hr) as [S1 R2]. rewrite (entry_ix _ Nx Ny (dimr r)) by exact S1.
             assert (D1 : dimr r = (nz + below r + 1)%nat) by (unfold MpiSim.dimr, above; destruct (Nat.ltb_spec r (size - 1)); [reflexivity|lia]).
             assert (B1 : below r = 1%nat) by (unfold below; destruct (Nat.ltb_spec 0 r); [reflexivity|lia]).
             apply R2; try assumption; lia.
        * destruct (HF r Hr) as [S1 R2]. rewrite (entry_ix _ Nx Ny (dimr r)) by exact S1.
          assert (D1 : dimr r = (nz + below r)%nat) by (unfold MpiSim.dimr, above; destruct (Nat.ltb_spec r (size - 1)); [lia|lia]).
          assert (B1 : below r = 1%nat) by (unfold below; destruct (Nat.ltb_spec 0 r); [reflexivity|lia]).
          apply R2; try assumption; lia.
    - assert (B1 : below r = 0%nat) by (unfold below; destruct (Nat.ltb_spec 0 r); [lia|reflexivity]).
      destruct (Nat.ltb_spec r (size - 1)) as [R1|R1]; [|lia]. cbn [andb].
      assert (D1 : dimr r = (nz + below r + 1)%nat) by (unfold MpiSim.dimr, above; destruct (Nat.ltb_spec r (size - 1)); [reflexivity|lia]).
      destruct (Nat.eqb_spec k (dimr r - 1)) as [->|K1].
      + destruct (HF (r + 1)%nat ltac:(lia)) as [S1 R2]. rewrite (entry_ix _ Nx Ny (dimr (r + 1))) by exact S1.
        assert (B2 : below (r + 1) = 1%nat) by (unfold below; destruct (Nat.ltb_spec 0 (r + 1)); [reflexivity|lia]).
        rewrite R2 by (try assumption; lia). do 2 f_equal. pose proof (OB (r + 1)%nat). pose proof (OB r). rewrite D1. unfold MpiSim.off. rewrite B2. nia.
      + destruct (HF r Hr) as [S1 R2]. rewrite (entry_ix _ Nx Ny (dimr r)) by exact S1. apply R2; try assumption; lia.
  Qed.

  (** Owned layers known, for all ranks. *)
  Definition owned (S : nat -> Solver T) (fr : bool) (e h j : nat -> T) : Prop :=
    forall r, (r < size)%nat -> good (K r) (S r) /\ sstep0 (S r) = fr /\
      relO r (get (farr (sE (S r)))) e /\ relO r (get (farr (sH (S r)))) h /\ relO r (get (farr (sJ (S r)))) j.
  Lemma tile_dims r : (r < size)%nat -> kNx (K r) = Nx /\ kNy (K r) = Ny /\ kNz (K r) = dimr r.
  Proof. intros Hr. destruct (HT r Hr); auto. Qed.

  Lemma com_phase p f fr e h j : fcom p = Some f -> (f < 3)%nat -> owned (mid p) fr e h j ->
    owned (Gf (S p)) fr e h j /\
    (forall r, (r < size)%nat -> rel 0 (dimr r) r (get (farr (fsel f (Gf (S p) r)))) (match f with 0%nat => e | 1%nat => h | _ => j end)) /\
    (forall r g, (r < size)%nat -> (g < 3)%nat -> g <> f -> fsel g (Gf (S p) r) = fsel g (mid p r)).
  Proof.
    intros Ef Hf HO.
    assert (SZ : forall r, (r < size)%nat -> sized (fsel (ffld fcom p) (mid p r)) Nx Ny (dimr r)).
    { intros r Hr. destruct (HO r Hr) as (G & _). destruct (tile_dims r Hr) as (X1 & X2 & X3). rewrite <- X1, <- X2, <- X3. apply good_sized, G. }
    assert (Ff : ffld fcom p = f) by (unfold ffld; rewrite Ef; reflexivity).
    assert (Q : forall r, (r < size)%nat -> exists F, Gf (S p) r = with_fsel f (mid p r) F /\ sized F Nx Ny (dimr r) /\
       rel 0 (dimr r) r (get (farr F)) (match f with 0%nat => e | 1%nat => h | _ => j end)).
    { intros r Hr. destruct (after_spec size Nx Ny dimr hdim fcom mid p r (nops size fcom r p) Hr (le_n _) SZ) as (F & EF & SF & A).
      exists F. rewrite Gf_S, EF, Ff. split; [reflexivity|]. split; [exact SF|].
      apply (exchange_rel (fun r => fsel f (mid p r)) _ r Hr); [|exact SF|].
      - intros r' Hr'. split; [rewrite <- Ff; apply SZ, Hr'|]. destruct (HO r' Hr') as (_ & _ & Q1 & Q2 & Q3). destruct f as [|[|f]]; assumption.
      - intros c i jj k Hc Hi Hj Hk. rewrite A by assumption. rewrite part_full; [rewrite Ff; reflexivity|exact hdim|unfold is_com; rewrite Ef; reflexivity|exact Hc]. }
    split; [|split].
    - intros r Hr. destruct (Q r Hr) as (F & -> & SF & R). destruct (HO r Hr) as (G & Q0 & Q1 & Q2 & Q3).
      destruct (tile_dims r Hr) as (X1 & X2 & X3). rewrite <- X1, <- X2, <- X3 in SF.
      split; [apply good_fsel; assumption|]. destruct f as [|[|[|f]]]; [..|lia]; cbn [with_fsel with_fields sE sH sJ sstep0];
        (split; [exact Q0|]); repeat split; try assumption; apply rel_own, R.
    - intros r Hr. destruct (Q r Hr) as (F & -> & SF & R). rewrite fsel_with. exact R.
    - intros r g Hr Hg Hn. destruct (Q r Hr) as (F & -> & SF & R). apply fsel_other; lia.
  Qed.
  Lemma no_phase p r : fcom p = None -> Gf (S p) r = mid p r.
  Proof. intros E. rewrite Gf_S. unfold after, nops, is_com. rewrite E. reflexivity. Qed.

  Definition okmid (p : nat) : Prop := forall r, (r < size)%nat -> floc p r (Gf p r) = Ok (mid p r) /\ good (K r) (mid p r).
  Lemma mid_eq p r s : floc p r (Gf p r) = Ok s -> mid p r = s.
  Proof. intros E. unfold mid, step1. rewrite E. reflexivity. Qed.

  Lemma step_phases m : (m < n)%nat ->
    (forall r, (r < size)%nat -> follows r (Gf (5 * m) r) (Ag m)) -> wall0 (te (Ag m)) -> wall0 (tj (Ag m)) ->
    (forall q, (q < 5)%nat -> okmid (5 * m + q)) /\
    (forall r, (r < size)%nat -> follows r (Gf (5 * S m) r) (Ag (S m))) /\ wall0 (te (Ag (S m))) /\ wall0 (tj (Ag (S m))).
  Proof.
    intros Hm HF WE WJ.
    assert (R0 : (0 < size)%nat) by lia.
    destruct (dry_run 0 (src 0 m) (srcg m) R0 (HS 0 m R0 Hm) (HD m Hm) (Ag m) WE WJ) as [WE1 WJ1].
    set (B := krun Kg (Ag m) (srcg m)) in *.
    assert (E5 : forall q, (5 * m + S q = S (5 * m + q))%nat) by lia.
    (* phase 0 *)
    assert (P0 : forall r, (r < size)%nat -> floc (5 * m + 0) r (Gf (5 * m + 0) r) = Ok (mid (5 * m + 0) r) /\ follows r (mid (5 * m + 0) r) B).
    { intros r Hr. destruct (p5 m 0 ltac:(lia)) as [Q1 Q2].
      destruct (run_follows r (src r m) (srcg m) Hr (HS r m Hr Hm) (Gf (5 * m) r) (Ag m) (HF r Hr)) as (s1 & E1 & F1).
      assert (X : floc (5 * m + 0) r (Gf (5 * m + 0) r) = Ok s1) by (unfold floc; rewrite Q1, Q2, Nat.add_0_r; exact E1).
      rewrite (mid_eq _ _ _ X). split; [exact X|exact F1]. }
    assert (G1 : forall r, Gf (5 * m + 1) r = mid (5 * m + 0) r).
    { intros r. rewrite (E5 0%nat). apply no_phase. unfold fcom. destruct (p5 m 0 ltac:(lia)) as [_ ->]. reflexivity. }
    set (e1 := effE Kg B). set (h1 := kH Kg e1 (effH Kg B)).
    (* phase 1 *)
    assert (P1 : forall r, (r < size)%nat -> floc (5 * m + 1) r (Gf (5 * m + 1) r) = Ok (mid (5 * m + 1) r)) .
    { intros r Hr. destruct (p5 m 1 ltac:(lia)) as [_ Q2]. destruct (P0 r Hr) as [_ (G & _)]. rewrite <- G1 in G.
      destruct (mpiH_good (K r) _ G) as (s2 & E2 & _). assert (X : floc (5 * m + 1) r (Gf (5 * m + 1) r) = Ok s2) by (unfold floc; rewrite Q2; exact E2).
      rewrite (mid_eq _ _ _ X). exact X. }
    assert (O1 : owned (mid (5 * m + 1)) false e1 h1 (tj B)).
    { intros r Hr. destruct (p5 m 1 ltac:(lia)) as [_ Q2]. destruct (P0 r Hr) as [_ (G & F & HE & HH & HJ)]. rewrite <- G1 in *.
      destruct (mpiH_good (K r) _ G) as (s2 & E2 & G2 & F2 & J2 & A2). assert (X : floc (5 * m + 1) r (Gf (5 * m + 1) r) = Ok s2) by (unfold floc; rewrite Q2; exact E2).
      rewrite (mid_eq _ _ _ X). set (s1 := Gf (5 * m + 1) r) in *. split; [exact G2|]. split; [exact F2|].
      assert (D : (below r + nz <= dimr r)%nat) by (unfold MpiSim.dimr; lia).
      assert (N : forall m, (m < 3 * (Nx * Ny * dimr r))%nat -> (m < 3 * kN (K r))%nat) by (intros k Hk; rewrite (tile_kN r Hr); exact Hk).
      split; [|split].
      - eapply rel_ext; [exact Hr|exact D| |intros k Hk; apply (A2 k (N k Hk))|reflexivity].
        apply (effE_own size nz Nx Ny Hsz Hnz HX HY r Hr Kg (K r) (HT r Hr) (abs s1) B); [apply rel_own, HE|exact F].
      - eapply rel_ext; [exact Hr|exact D| |intros k Hk; apply (A2 k (N k Hk))|reflexivity].
        apply (H_sim size nz Nx Ny Hsz Hnz HX HY r Hr Kg (K r) (HT r Hr) (abs s1) B); assumption.
      - rewrite J2. exact HJ. }
    assert (C1 : fcom (5 * m + 1) = Some 1%nat) by (unfold fcom; destruct (p5 m 1 ltac:(lia)) as [_ ->]; reflexivity).
    destruct (com_phase (5 * m + 1) 1 _ _ _ _ C1 ltac:(lia) O1) as (O2 & H2 & _). rewrite <- (E5 1%nat) in O2, H2. cbn [fsel] in H2.
    (* phase 2 *)
    assert (X2 : forall r, floc (5 * m + 2) r (Gf (5 * m + 2) r) = Ok (Gf (5 * m + 2) r)).
    { intros r. unfold floc. destruct (p5 m 2 ltac:(lia)) as [_ ->]. reflexivity. }
    assert (M2 : forall r, mid (5 * m + 2) r = Gf (5 * m + 2) r) by (intros r; apply mid_eq, X2).
    assert (O2' : owned (mid (5 * m + 2)) false e1 h1 (tj B)) by (intros r Hr; rewrite M2; apply O2, Hr).
    assert (C2 : fcom (5 * m + 2) = Some 2%nat) by (unfold fcom; destruct (p5 m 2 ltac:(lia)) as [_ ->]; reflexivity).
    destruct (com_phase (5 * m + 2) 2 _ _ _ _ C2 ltac:(lia) O2') as (O3 & _ & K3). rewrite <- (E5 2%nat) in O3, K3.
    assert (H3 : forall r, (r < size)%nat -> rel 0 (dimr r) r (get (farr (sH (Gf (5 * m + 3) r)))) h1).
    { intros r Hr. specialize (K3 r 1%nat Hr ltac:(lia) ltac:(lia)). cbn [fsel] in K3. rewrite K3, M2. apply H2, Hr. }
    (* phase 3 *)
    set (e2 := kE Kg e1 h1 (tj B)).
    assert (P3 : forall r, (r < size)%nat -> floc (5 * m + 3) r (Gf (5 * m + 3) r) = Ok (mid (5 * m + 3) r)).
    { intros r Hr. destruct (p5 m 3 ltac:(lia)) as [_ Q2]. destruct (O3 r Hr) as (G & _).
      destruct (mpiE_good (K r) _ G) as (s2 & E2 & _). assert (X : floc (5 * m + 3) r (Gf (5 * m + 3) r) = Ok s2) by (unfold floc; rewrite Q2; exact E2).
      rewrite (mid_eq _ _ _ X). exact X. }
    assert (O3' : owned (mid (5 * m + 3)) false e2 h1 (tj B)).
    { intros r Hr. destruct (p5 m 3 ltac:(lia)) as [_ Q2]. destruct (O3 r Hr) as (G & F & HE & HH & HJ).
      destruct (mpiE_good (K r) _ G) as (s2 & E2 & G2 & F2 & J2 & H2' & A2). assert (X : floc (5 * m + 3) r (Gf (5 * m + 3) r) = Ok s2) by (unfold floc; rewrite Q2; exact E2).
      rewrite (mid_eq _ _ _ X). set (s1 := Gf (5 * m + 3) r) in *. split; [exact G2|]. split; [rewrite F2; exact F|].
      assert (D : (below r + nz <= dimr r)%nat) by (unfold MpiSim.dimr; lia).
      assert (N : forall m, (m < 3 * (Nx * Ny * dimr r))%nat -> (m < 3 * kN (K r))%nat) by (intros k Hk; rewrite (tile_kN r Hr); exact Hk).
      split; [|rewrite J2, H2'; split; assumption].
      eapply rel_ext; [exact Hr|exact D| |intros k Hk; apply (A2 k (N k Hk))|reflexivity].
      apply (E_sim size nz Nx Ny Hsz Hnz HX HY r Hr Kg (K r) (HT r Hr)); try assumption.
      intros c i j k Hc Hi Hj Hl Hu. apply (H3 r Hr); try assumption; unfold MpiSim.dimr; lia. }
    assert (C3 : fcom (5 * m + 3) = Some 0%nat) by (unfold fcom; destruct (p5 m 3 ltac:(lia)) as [_ ->]; reflexivity).
    destruct (com_phase (5 * m + 3) 0 _ _ _ _ C3 ltac:(lia) O3') as (O4 & E4 & _). rewrite <- (E5 3%nat) in O4, E4. cbn [fsel] in E4.
    (* phase 4 *)
    assert (P4 : forall r, (r < size)%nat -> floc (5 * m + 4) r (Gf (5 * m + 4) r) = Ok (mid (5 * m + 4) r) /\ follows r (mid (5 * m + 4) r) (Ag (S m))).
    { intros r Hr. destruct (p5 m 4 ltac:(lia)) as [_ Q2]. destruct (O4 r Hr) as (G & F & HE & HH & HJ).
      destruct (mpiJ_good (K r) _ G) as (s2 & E2 & G2 & F2 & J2 & H2' & A2). assert (X : floc (5 * m + 4) r (Gf (5 * m + 4) r) = Ok s2) by (unfold floc; rewrite Q2; exact E2).
      rewrite (mid_eq _ _ _ X). split; [exact X|]. specialize (E4 r Hr). set (s1 := Gf (5 * m + 4) r) in *.
      cbn [Ag]. fold B. split; [exact G2|]. split; [rewrite F2, F; reflexivity|]. cbn [kstep te th tj]. fold e1 h1 e2. rewrite J2, H2'.
      assert (D : (below r + nz <= dimr r)%nat) by (unfold MpiSim.dimr; lia).
      assert (N : forall m, (m < 3 * (Nx * Ny * dimr r))%nat -> (m < 3 * kN (K r))%nat) by (intros k Hk; rewrite (tile_kN r Hr); exact Hk).
      split; [exact E4|]. split; [exact HH|].
      eapply rel_ext; [exact Hr|exact D| |intros k Hk; apply (A2 k (N k Hk))|reflexivity].
      apply (J_sim size nz Nx Ny r Kg (K r) (HT r Hr)); assumption. }
    assert (G5 : forall r, Gf (5 * S m) r = mid (5 * m + 4) r).
    { intros r. replace (5 * S m)%nat with (S (5 * m + 4)) by lia. apply no_phase. unfold fcom. destruct (p5 m 4 ltac:(lia)) as [_ ->]. reflexivity. }
    split; [|split].
    - intros q Hq r Hr. destruct q as [|[|[|[|[|q]]]]]; [..|lia].
      + destruct (P0 r Hr) as [A (G & _)]. auto.
      + split; [apply P1, Hr|apply O1, Hr].
      + split; [rewrite M2; apply X2|apply O2', Hr].
      + split; [apply P3, Hr|apply O3', Hr].
      + destruct (P4 r Hr) as [A (G & _)]. auto.
    - intros r Hr. rewrite G5. apply P4, Hr.
    - cbn [Ag]. apply wall_step; assumption.
  Qed.

  Lemma steps_follow m : (m <= n)%nat ->
    (forall r, (r < size)%nat -> follows r (Gf (5 * m) r) (Ag m)) /\ wall0 (te (Ag m)) /\ wall0 (tj (Ag m)) /\
    (forall p, (p < 5 * m)%nat -> okmid p).
  Proof.
    induction m as [|m IH]; intros Hm.
    - split; [exact H0|]. split; [exact W0|]. split; [exact W0'|]. intros p Hp. lia.
    - destruct (IH ltac:(lia)) as (A & B & C & D). destruct (step_phases m ltac:(lia) A B C) as (P & A' & B' & C').
      split; [exact A'|]. split; [exact B'|]. split; [exact C'|]. intros p Hp.
      destruct (Nat.lt_ge_cases p (5 * m)) as [|L]; [apply D; assumption|].
      replace p with (5 * m + (p - 5 * m))%nat by lia. apply P. lia.
  Qed.

  Theorem distributed_follows :
    exists N, forall eg k w, wsteps halo_send halo_recv eg size k (start init (fun r => mpi_program size r n (src r))) w ->
      (k <= N)%nat /\ (finished size w \/ exists w', wstep halo_send halo_recv false size w w') /\
      (finished size w -> forall r, (r < size)%nat -> follows r (rst (wrank w r)) (Ag n)).
  Proof.
    destruct (steps_follow n (le_n _)) as (A & _ & _ & D).
    destruct (run_total halo_send halo_recv size (5 * n) floc fcom Gf mid) with (init := init) (code := fun r => mpi_program size r n (src r)) as [N HN].
    - intros r p k q Hp Hr Hk Hq. apply (after_indep size Nx Ny dimr hdim fcom mid p r k q Hr Hk Hq).
      intros r' Hr'. destruct (D p Hp r' Hr') as [_ G]. destruct (tile_dims r' Hr') as (X1 & X2 & X3). rewrite <- X1, <- X2, <- X3. apply good_sized, G.
    - intros p r Hp Hr. apply (D p Hp r Hr).
    - intros p r Hp Hr. apply Gf_S.
    - intros r Hr. reflexivity.
    - intros r Hr. apply program_phases.
    - exists N. intros eg k w Hw. destruct (HN eg k w Hw) as (N1 & N2 & N3). split; [exact N1|]. split; [exact N2|].
      intros Hf r Hr. rewrite (N3 Hf r Hr). apply A, Hr.
  Qed.
End Run.
