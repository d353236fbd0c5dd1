(** Lemmas: one time step of a tile follows the time step of the whole grid, cell by cell. *)
From Coq Require Import List Arith ZArith Bool String Lia Ring Field.
From Verif Require Import Num Vec Index Matrix FieldModel FieldSpec FieldProofs FieldProofs2
  GridModel GridProofs SolverModel SolverPlanes SolverBuild SolverMaterials SolverKern MpiModel MpiSolverModel MpiHalo.
Import ListNotations.

Section Sim.
  Context {T : Type} {NT : Num T} {LT : NumLaws T} {OT : NumOrd T}.
  Add Field field_T_sim : (@num_field T NT LT).
  Local Open Scope num_scope.
  Context (size nz Nx Ny : nat) (Hsz : (2 <= size)%nat) (Hnz : (0 < nz)%nat) (HX : (0 < Nx)%nat) (HY : (0 < Ny)%nat).

  (** Layers of rank [r] and the global index of its first layer. *)
  Definition dimr (r : nat) : nat := (nz + below r + above size r)%nat.
  Definition off (r : nat) : nat := (r * nz - below r)%nat.
  Definition gNZ : nat := (size * nz)%nat.

  (** [f] on rank [r] agrees with [F] on the whole grid, on local layers lo <= k < hi. *)
  Definition rel (lo hi r : nat) (f F : nat -> T) : Prop :=
    forall c i j k, (c < 3)%nat -> (i < Nx)%nat -> (j < Ny)%nat -> (lo <= k)%nat -> (k < hi)%nat ->
      f (ix Nx Ny (dimr r) c i j k) = F (ix Nx Ny gNZ c i j (off r + k)).
  Definition relO (r : nat) := rel (below r) (below r + nz) r.

  Record tile_of (r : nat) (Kg Kr : @Kern T) : Prop := {
    t_gx : kNx Kg = Nx; t_gy : kNy Kg = Ny; t_gz : kNz Kg = gNZ;
    t_x : kNx Kr = Nx; t_y : kNy Kr = Ny; t_z : kNz Kr = dimr r;
    t_dt : kdt Kr = kdt Kg; t_cond : kcond Kr = kcond Kg;
    t_L : rel 0 (dimr r) r (kL Kr) (kL Kg);
    t_tL : rel 0 (below r + nz) r (ktL Kr) (ktL Kg);
    t_iA : relO r (kiA Kr) (kiA Kg); t_imu : relO r (kimu Kr) (kimu Kg);
    t_itA : relO r (kitA Kr) (kitA Kg); t_ieps : relO r (kieps Kr) (kieps Kg);
    t_sig : relO r (ksig Kr) (ksig Kg); t_col : relO r (kcol Kr) (kcol Kg);
    t_row : forall n, (n < 3 * kN Kr)%nat -> krow Kr n = 1;
    t_rowg : forall n, (n < 3 * kN Kg)%nat -> krow Kg n = 1;
    t_colg : forall n, (n < 3 * kN Kg)%nat -> kcol Kg n = 0 \/ kcol Kg n = 1;
    t_colg0 : forall i k, (i < Nx)%nat -> (k < gNZ)%nat -> kcol Kg (ix Nx Ny gNZ 2 i 0 k) = 0;
    t_hi : (r < size - 1)%nat -> forall d i j, (d < 2)%nat -> (i < Nx)%nat -> (j < Ny)%nat -> kcol Kr (ix Nx Ny (dimr r) d i j (dimr r - 1)) = 1;
    t_hi0 : forall i k, (i < Nx)%nat -> (k < dimr r)%nat -> kcol Kr (ix Nx Ny (dimr r) 2 i 0 k) = 0
  }.

  Lemma off_below r : (below r <= r * nz)%nat.
  Proof. unfold below. destruct (Nat.ltb_spec 0 r); nia. Qed.
  Lemma off_in r k : (r < size)%nat -> (k < dimr r)%nat -> (off r + k < gNZ)%nat.
  Proof. 
    intros Hr. unfold dimr, off, gNZ. pose proof (off_below r). unfold above. destruct (Nat.ltb_spec r (size - 1)); nia.
  Qed.
  Lemma top_in r : (r < size)%nat -> above size r = 0%nat -> (off r + dimr r = gNZ)%nat.
  Proof.
    intros Hr. unfold dimr, off, gNZ. pose proof (off_below r). unfold above. destruct (Nat.ltb_spec r (size - 1)); [lia|nia].
  Qed.
  Lemma dim_pos r : (0 < dimr r)%nat.
  Proof. unfold dimr. lia. Qed.

  Lemma cell_shift i j k b : (cell Nx Ny i j k + b * (Nx * Ny) = cell Nx Ny i j (b + k))%nat.
  Proof. unfold cell. nia. Qed.
  Lemma cell_layer i j k : (i < Nx)%nat -> (j < Ny)%nat -> (Nx * Ny * k <= cell Nx Ny i j k)%nat /\ (cell Nx Ny i j k < Nx * Ny * (k + 1))%nat.
  Proof. intros. unfold cell. split; nia. Qed.
  Lemma layer_of i j k i' j' k' (a b : nat) : (i < Nx)%nat -> (j < Ny)%nat -> (i' < Nx)%nat -> (j' < Ny)%nat ->
    (cell Nx Ny i' j' k' <= cell Nx Ny i j k + Nx * Ny * a)%nat -> (cell Nx Ny i j k <= cell Nx Ny i' j' k' + Nx * Ny * b)%nat ->
    (k' <= k + a)%nat /\ (k <= k' + b)%nat.
  Proof.
    intros Hi Hj Hi' Hj' A B. pose proof (cell_layer i j k Hi Hj). pose proof (cell_layer i' j' k' Hi' Hj').
    split.
    - destruct (Nat.le_gt_cases k' (k + a)); [assumption|exfalso]. assert (Nx * Ny * (k + a + 1) <= Nx * Ny * k')%nat by (apply Nat.mul_le_mono_l; lia). nia.
    - destruct (Nat.le_gt_cases k (k' + b)); [assumption|exfalso]. assert (Nx * Ny * (k' + b + 1) <= Nx * Ny * k)%nat by (apply Nat.mul_le_mono_l; lia). nia.
  Qed.
  Lemma first_row i j k i' j' k' (a : nat) : (i < Nx)%nat -> (j < Ny)%nat -> (i' < Nx)%nat -> (j' < Ny)%nat -> (a <= Nx)%nat ->
    cell Nx Ny i' j' k' = (cell Nx Ny i j k + a)%nat -> (k < k')%nat -> j' = 0%nat.
  Proof.
    intros Hi Hj Hi' Hj' Ha E Hk. unfold cell in E. destruct j' as [|j']; [reflexivity|exfalso].
    assert (j + Ny * k + 1 <= Ny * k')%nat by nia.
    assert (i' + Nx * (S j' + Ny * k') >= Nx * (1 + (j + Ny * k + 1)))%nat by nia. nia.
  Qed.

  (** Reads of the curl. *)
  Definition reads (c o : nat) : Prop := (o = 0 \/ o = 1 \/ o = Nx \/ o = Nx * Ny /\ c < 2)%nat.
  Lemma curl_shift N N' (x y : nat -> T) d m m' : (m < N)%nat -> (m' < N')%nat ->
    (forall c o, (c < 3)%nat -> reads c o -> ext N (comp N x c) (m + o) = ext N' (comp N' y c) (m' + o)) ->
    curl_at Nx Ny N x d m = curl_at Nx Ny N' y d m'.
  Proof.
    intros Hm Hm' H.
    assert (Z : forall c, (c < 3)%nat -> comp N x c m = comp N' y c m').
    { intros c Hc. specialize (H c 0%nat Hc (or_introl eq_refl)). rewrite !Nat.add_0_r in H. unfold ext in H.
      destruct (Nat.ltb_spec m N); [|lia]. destruct (Nat.ltb_spec m' N'); [|lia]. exact H. }
    destruct d as [|[|d]]; unfold curl_at, Sh; rewrite !H by (lia || (unfold reads; lia)); rewrite !Z by lia; reflexivity.
  Qed.
  Definition back (x : nat -> T) (m o : nat) : T := if (o <=? m)%nat then x (m - o)%nat else 0.
  Lemma curlT_shift N N' (x y : nat -> T) d m m' :
    (forall c o, (c < 3)%nat -> reads c o -> back (comp N x c) m o = back (comp N' y c) m' o) ->
    curlT_at Nx Ny N x d m = curlT_at Nx Ny N' y d m'.
  Proof.
    intros H.
    assert (Z : forall c, (c < 3)%nat -> comp N x c m = comp N' y c m').
    { intros c Hc. specialize (H c 0%nat Hc (or_introl eq_refl)). unfold back in H. cbn [Nat.leb] in H. rewrite !Nat.sub_0_r in H. exact H. }
    unfold back in H.
    destruct d as [|[|d]]; unfold curlT_at, ShT; rewrite !H by (lia || (unfold reads; lia)); rewrite !Z by lia; reflexivity.
  Qed.

  Lemma ix_split N d i j k Nz : N = (Nx * Ny * Nz)%nat -> (i < Nx)%nat -> (j < Ny)%nat -> (k < Nz)%nat ->
    (ix Nx Ny Nz d i j k / N = d)%nat /\ (ix Nx Ny Nz d i j k mod N = cell Nx Ny i j k)%nat.
  Proof.
    intros -> Hi Hj Hk. pose proof (cell_lt Nx Ny Nz i j k Hi Hj Hk). unfold ix. rewrite comp_div, comp_mod by assumption. auto.
  Qed.

  Section Step.
    Context (r : nat) (Hr : (r < size)%nat) (Kg Kr : @Kern T) (HT : tile_of r Kg Kr).

    Lemma kNr : kN Kr = (Nx * Ny * dimr r)%nat.
    Proof. unfold kN. rewrite (t_x _ _ _ HT), (t_y _ _ _ HT), (t_z _ _ _ HT). reflexivity. Qed.
    Lemma kNg : kN Kg = (Nx * Ny * gNZ)%nat.
    Proof. unfold kN. rewrite (t_gx _ _ _ HT), (t_gy _ _ _ HT), (t_gz _ _ _ HT). reflexivity. Qed.

    (** First-step zeroing. *)
    Lemma top_iff k : (below r <= k)%nat -> (k < below r + nz)%nat -> (k =? dimr r - 1)%nat = (off r + k =? gNZ - 1)%nat.
    Proof.
      intros A B. pose proof (off_below r). pose proof (off_in r) as OI. pose proof (top_in r Hr) as TI. pose proof (dim_pos r).
      unfold above in TI. destruct (Nat.ltb_spec r (size - 1)) as [L|L].
      - assert (D : dimr r = (nz + below r + 1)%nat) by (unfold dimr, above; destruct (Nat.ltb_spec r (size - 1)); [reflexivity|lia]).
        assert (off r + k < gNZ - 1)%nat by (unfold off, gNZ; nia).
        destruct (Nat.eqb_spec k (dimr r - 1)), (Nat.eqb_spec (off r + k) (gNZ - 1)); try reflexivity; lia.
      - specialize (TI eq_refl). destruct (Nat.eqb_spec k (dimr r - 1)), (Nat.eqb_spec (off r + k) (gNZ - 1)); try reflexivity; lia.
    Qed.
    Lemma ghE_own d i j k : (d < 3)%nat -> (below r <= k)%nat -> (k < below r + nz)%nat ->
      ghE Nx Ny (dimr r) d i j k = ghE Nx Ny gNZ d i j (off r + k).
    Proof. intros Hd A B. unfold ghE. destruct d as [|[|[|d]]]; [reflexivity..| |lia]. cbn [coord dim]. apply top_iff; assumption. Qed.
    Lemma ghE_flat d i j k K : (d < 2)%nat -> ghE Nx Ny (dimr r) d i j k = ghE Nx Ny gNZ d i j K.
    Proof. intros Hd. unfold ghE. destruct d as [|[|d]]; [reflexivity..|lia]. Qed.
    Lemma ghH_own d i j k : (d < 3)%nat -> (below r <= k)%nat -> (k < below r + nz)%nat ->
      ghH Nx Ny (dimr r) d i j k = ghH Nx Ny gNZ d i j (off r + k).
    Proof.
      intros Hd A B. unfold ghH, axes. cbn [existsb coord dim]. rewrite (top_iff k A B). reflexivity.
    Qed.

    Lemma effE_own (a A : @St T) : relO r (te a) (te A) -> tfresh a = tfresh A -> relO r (effE Kr a) (effE Kg A).
    Proof.
      intros He Hf c i j k Hc Hi Hj Hl Hh. pose proof (off_in r k Hr ltac:(unfold dimr; lia)). unfold effE.
      rewrite (t_x _ _ _ HT), (t_y _ _ _ HT), (t_z _ _ _ HT), (t_gx _ _ _ HT), (t_gy _ _ _ HT), (t_gz _ _ _ HT).
      rewrite !on_ix_ix by (assumption || (unfold dimr; lia)). rewrite (ghE_own c i j k Hc Hl Hh), Hf, He by assumption. reflexivity.
    Qed.
    Lemma effH_own (a A : @St T) : relO r (th a) (th A) -> tfresh a = tfresh A -> relO r (effH Kr a) (effH Kg A).
    Proof.
      intros He Hf c i j k Hc Hi Hj Hl Hh. pose proof (off_in r k Hr ltac:(unfold dimr; lia)). unfold effH.
      rewrite (t_x _ _ _ HT), (t_y _ _ _ HT), (t_z _ _ _ HT), (t_gx _ _ _ HT), (t_gy _ _ _ HT), (t_gz _ _ _ HT).
      rewrite !on_ix_ix by (assumption || (unfold dimr; lia)). rewrite (ghH_own c i j k Hc Hl Hh), Hf, He by assumption. reflexivity.
    Qed.

    (** Fields that vanish where the global column mask does. *)
    Definition wall_zero (f : nat -> T) : Prop := forall n, (n < 3 * (Nx * Ny * gNZ))%nat -> kcol Kg n = 0 -> f n = 0.

    (** What the curl of E reads: owned cells and the first two components above them. *)
    Lemma read_E (a A : @St T) : rel 0 (dimr r) r (te a) (te A) -> tfresh a = tfresh A -> wall_zero (te A) ->
      forall c i j k, (c < 3)%nat -> (i < Nx)%nat -> (j < Ny)%nat -> (below r <= k)%nat -> (k < dimr r)%nat ->
        (k < below r + nz \/ c < 2 \/ j = 0)%nat ->
        kcol Kr (ix Nx Ny (dimr r) c i j k) * kL Kr (ix Nx Ny (dimr r) c i j k) * effE Kr a (ix Nx Ny (dimr r) c i j k) =
        kcol Kg (ix Nx Ny gNZ c i j (off r + k)) * kL Kg (ix Nx Ny gNZ c i j (off r + k)) * effE Kg A (ix Nx Ny gNZ c i j (off r + k)).
    Proof.
      intros He Hf Hw c i j k Hc Hi Hj Hl Hh Hcase. pose proof (off_in r k Hr Hh) as OI.
      rewrite (t_L _ _ _ HT) by (assumption || lia).
      destruct (Nat.lt_ge_cases k (below r + nz)) as [Lk|Lk].
      - rewrite (t_col _ _ _ HT) by assumption.
        assert (HeO : relO r (te a) (te A)) by (intros c' i' j' k' H1 H2 H3 H4 H5; apply He; try assumption; unfold dimr; lia).
        rewrite (effE_own a A HeO Hf) by assumption. reflexivity.
      - assert (Dk : (k = dimr r - 1)%nat /\ (r < size - 1)%nat).
        { unfold dimr, above in *. destruct (Nat.ltb_spec r (size - 1)); lia. }
        destruct Dk as [Dk Lr]. destruct (Nat.lt_ge_cases c 2) as [C2|C2].
        + rewrite Dk at 1. rewrite (t_hi _ _ _ HT Lr) by assumption.
          assert (Eeff : effE Kr a (ix Nx Ny (dimr r) c i j k) = effE Kg A (ix Nx Ny gNZ c i j (off r + k))).
          { unfold effE. rewrite (t_x _ _ _ HT), (t_y _ _ _ HT), (t_z _ _ _ HT), (t_gx _ _ _ HT), (t_gy _ _ _ HT), (t_gz _ _ _ HT).
            rewrite !on_ix_ix by assumption. rewrite (ghE_flat c i j k (off r + k) C2), Hf, He by (assumption || lia). reflexivity. }
          rewrite Eeff. pose proof (ix_lt Nx Ny gNZ c i j (off r + k) Hc Hi Hj OI) as LN.
          destruct (t_colg _ _ _ HT (ix Nx Ny gNZ c i j (off r + k))) as [Z|Z]; [rewrite kNg; exact LN| |rewrite Z; reflexivity].
          assert (E0 : effE Kg A (ix Nx Ny gNZ c i j (off r + k)) = 0).
          { unfold effE. destruct (_ && _)%bool; [reflexivity|]. apply Hw; assumption. }
          rewrite E0. ring.
        + assert (c = 2)%nat by lia. subst c. assert (j = 0)%nat by lia. subst j.
          rewrite (t_hi0 _ _ _ HT) by assumption. rewrite (t_colg0 _ _ _ HT) by assumption. ring.
    Qed.

    Lemma H_sim (a A : @St T) : rel 0 (dimr r) r (te a) (te A) -> relO r (th a) (th A) -> tfresh a = tfresh A -> wall_zero (te A) ->
      relO r (kH Kr (effE Kr a) (effH Kr a)) (kH Kg (effE Kg A) (effH Kg A)).
    Proof.
      intros He Hh Hf Hw c i j k Hc Hi Hj Hl Hu.
      assert (Hk : (k < dimr r)%nat) by (unfold dimr; lia). pose proof (off_in r k Hr Hk) as OI.
      pose proof (ix_lt Nx Ny (dimr r) c i j k Hc Hi Hj Hk) as L1. pose proof (ix_lt Nx Ny gNZ c i j (off r + k) Hc Hi Hj OI) as L2.
      unfold kH. rewrite (effH_own a A Hh Hf) by assumption. rewrite (t_dt _ _ _ HT), (t_iA _ _ _ HT), (t_imu _ _ _ HT) by assumption.
      rewrite (t_row _ _ _ HT) by (rewrite kNr; exact L1). rewrite (t_rowg _ _ _ HT) by (rewrite kNg; exact L2).
      do 2 f_equal. f_equal. unfold kcurl. rewrite (t_x _ _ _ HT), (t_y _ _ _ HT), (t_gx _ _ _ HT), (t_gy _ _ _ HT).
      destruct (ix_split (kN Kr) c i j k (dimr r) kNr Hi Hj Hk) as [-> ->].
      destruct (ix_split (kN Kg) c i j (off r + k) gNZ kNg Hi Hj OI) as [-> ->].
      pose proof (cell_lt Nx Ny (dimr r) i j k Hi Hj Hk) as C1. pose proof (cell_lt Nx Ny gNZ i j (off r + k) Hi Hj OI) as C2.
      apply curl_shift; [rewrite kNr; exact C1|rewrite kNg; exact C2|].
      intros q o Hq Ho. rewrite kNr, kNg. unfold ext, comp.
      assert (Lo : (o <= Nx * Ny)%nat) by (unfold reads in Ho; nia).
      assert (Ecs : (cell Nx Ny i j (off r + k) + o = cell Nx Ny i j k + o + off r * (Nx * Ny))%nat) by (rewrite <- cell_shift; lia).
      rewrite Ecs.
      destruct (Nat.ltb_spec (cell Nx Ny i j k + o) (Nx * Ny * dimr r)) as [Lm|Lm].
      - destruct (cell_decode _ _ _ _ Lm) as (I1 & J1 & K1 & Em). set (m := (cell Nx Ny i j k + o)%nat) in *.
        set (i' := (m mod Nx)%nat) in *. set (j' := ((m / Nx) mod Ny)%nat) in *. set (k' := (m / (Nx * Ny))%nat) in *.
        pose proof (off_in r k' Hr K1) as OI'.
        rewrite <- Em, cell_shift. destruct (Nat.ltb_spec (cell Nx Ny i' j' (off r + k')) (Nx * Ny * gNZ)) as [Lg|Lg];
          [|pose proof (cell_lt Nx Ny gNZ i' j' (off r + k') I1 J1 OI'); lia].
        destruct (layer_of i j k i' j' k' 1 0 Hi Hj I1 J1) as [B1 B2]; [unfold m in Em; nia|unfold m in Em; nia|].
        apply (read_E a A He Hf Hw q i' j' k'); try assumption; try lia.
        destruct (Nat.lt_ge_cases k' (below r + nz)) as [|G]; [left; assumption|right].
        destruct (Nat.lt_ge_cases q 2); [left; assumption|right].
        apply (first_row i j k i' j' k' o Hi Hj I1 J1); [unfold reads in Ho; nia|exact Em|lia].
      - assert (Top : above size r = 0%nat).
        { destruct (above size r) eqn:Ea; [reflexivity|exfalso]. unfold dimr in Lm. rewrite Ea in Lm.
          pose proof (cell_layer i j k Hi Hj) as [_ CL]. assert (Nx * Ny * (k + 1) + Nx * Ny <= Nx * Ny * (nz + below r + S n))%nat; [|lia].
          replace (Nx * Ny * (k + 1) + Nx * Ny)%nat with (Nx * Ny * (k + 2))%nat by lia. apply Nat.mul_le_mono_l. lia. }
        pose proof (top_in r Hr Top) as TI. destruct (Nat.ltb_spec (cell Nx Ny i j k + o + off r * (Nx * Ny)) (Nx * Ny * gNZ)); [|reflexivity].
        exfalso. rewrite <- TI in *. nia.
    Qed.

    Lemma E_sim (e h j E H J : nat -> T) : relO r e E -> rel 0 (below r + nz) r h H -> relO r j J ->
      relO r (kE Kr e h j) (kE Kg E H J).
    Proof.
      intros He Hh HJ c i jj k Hc Hi Hj Hl Hu.
      assert (Hk : (k < dimr r)%nat) by (unfold dimr; lia). pose proof (off_in r k Hr Hk) as OI.
      unfold kE. rewrite He, HJ by assumption. rewrite (t_dt _ _ _ HT), (t_ieps _ _ _ HT), (t_itA _ _ _ HT), (t_col _ _ _ HT) by assumption.
      do 2 f_equal. f_equal. f_equal. unfold kcurlT. rewrite (t_x _ _ _ HT), (t_y _ _ _ HT), (t_gx _ _ _ HT), (t_gy _ _ _ HT).
      destruct (ix_split (kN Kr) c i jj k (dimr r) kNr Hi Hj Hk) as [-> ->].
      destruct (ix_split (kN Kg) c i jj (off r + k) gNZ kNg Hi Hj OI) as [-> ->].
      apply curlT_shift. intros q o Hq Ho. rewrite kNr, kNg. unfold back, comp.
      assert (Lo : (o <= Nx * Ny)%nat) by (unfold reads in Ho; nia).
      rewrite <- cell_shift.
      pose proof (cell_lt Nx Ny (dimr r) i jj k Hi Hj Hk) as C1.
      destruct (Nat.leb_spec o (cell Nx Ny i jj k)) as [Lm|Lm].
      - destruct (Nat.leb_spec o (cell Nx Ny i jj k + off r * (Nx * Ny))) as [Lg|Lg]; [|lia].
        replace (cell Nx Ny i jj k + off r * (Nx * Ny) - o)%nat with (cell Nx Ny i jj k - o + off r * (Nx * Ny))%nat by lia.
        destruct (cell_decode Nx Ny (dimr r) (cell Nx Ny i jj k - o) ltac:(lia)) as (I1 & J1 & K1 & Em). set (m := (cell Nx Ny i jj k - o)%nat) in *.
        set (i' := (m mod Nx)%nat) in *. set (j' := ((m / Nx) mod Ny)%nat) in *. set (k' := (m / (Nx * Ny))%nat) in *.
        pose proof (off_in r k' Hr K1) as OI'.
        destruct (layer_of i jj k i' j' k' 0 1 Hi Hj I1 J1) as [B1 B2]; [unfold m in Em; nia|unfold m in Em; nia|].
        rewrite <- Em, cell_shift.
        pose proof (ix_lt Nx Ny (dimr r) q i' j' k' Hq I1 J1 K1) as L1. pose proof (ix_lt Nx Ny gNZ q i' j' (off r + k') Hq I1 J1 OI') as L2.
        change (q * (Nx * Ny * dimr r) + cell Nx Ny i' j' k')%nat with (ix Nx Ny (dimr r) q i' j' k').
        change (q * (Nx * Ny * gNZ) + cell Nx Ny i' j' (off r + k'))%nat with (ix Nx Ny gNZ q i' j' (off r + k')).
        rewrite (t_row _ _ _ HT) by (rewrite kNr; exact L1). rewrite (t_rowg _ _ _ HT) by (rewrite kNg; exact L2).
        rewrite (t_tL _ _ _ HT), Hh by (assumption || lia). reflexivity.
      - assert (R0 : r = 0%nat).
        { destruct r as [|r']; [reflexivity|exfalso]. unfold below in Hl. cbn in Hl. pose proof (cell_layer i jj k Hi Hj) as [CL _]. nia. }
        subst r. replace (off 0) with 0%nat by (unfold off, below; cbn; lia). rewrite Nat.mul_0_l, Nat.add_0_r.
        destruct (Nat.leb_spec o (cell Nx Ny i jj k)); [lia|reflexivity].
    Qed.

    Lemma J_sim (e j E J : nat -> T) : relO r e E -> relO r j J -> relO r (kJ Kr e j) (kJ Kg E J).
    Proof.
      intros He HJ c i jj k Hc Hi Hj Hl Hu. unfold kJ. rewrite (t_cond _ _ _ HT), (t_sig _ _ _ HT), He, HJ by assumption. reflexivity.
    Qed.

    Lemma wall_step (A : @St T) : wall_zero (te A) -> wall_zero (tj A) -> wall_zero (te (kstep Kg A)) /\ wall_zero (tj (kstep Kg A)).
    Proof.
      intros HE HJ.
      assert (X : wall_zero (te (kstep Kg A))).
      { intros n Hn Z. cbn [kstep te]. unfold kE. rewrite Z, (HJ n Hn Z). unfold effE. rewrite (HE n Hn Z).
        destruct (_ && _)%bool; ring. }
      split; [exact X|]. intros n Hn Z. cbn [kstep tj]. unfold kJ. destruct (kcond Kg); [|apply HJ; assumption].
      specialize (X n Hn Z). cbn [kstep te] in X. rewrite X. ring.
    Qed.
  End Step.
End Sim.
