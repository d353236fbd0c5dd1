(** Lemmas: the tiles of a distributed grid. *)
From Coq Require Import List Arith ZArith Bool String Lia Ring Field QArith Qcanon Reals Lra.
From Verif Require Import Num Vec Index Matrix FieldModel FieldSpec GridModel GridProofs GridProofs2 SolverModel MpiModel MpiSolverModel.
Import ListNotations.
Open Scope nat_scope.

(** Numbers in which counting never returns to zero. *)
Definition char0 (T : Type) {NT : Num T} : Prop := forall n, 0 < n -> nofnat n <> (nzero : T).
Lemma char0_R : char0 R.
Proof. intros n H. rewrite nofnat_INR. apply not_0_INR. lia. Qed.
Lemma char0_Qc : char0 Qc.
Proof.
  assert (P : forall n, (0 <= nofnat n)%Qc).
  { induction n; [apply Qcle_refl|]. change (nofnat (S n)) with (nofnat n + 1)%Qc.
    apply (Qcle_trans _ (0 + 1)%Qc); [discriminate|]. apply Qcplus_le_compat; [exact IHn|apply Qcle_refl]. }
  intros n H E. destruct n; [lia|]. change (nofnat (S n)) with (nofnat n + 1)%Qc in E. specialize (P n).
  assert (X : (0 + 1 <= nofnat n + 1)%Qc) by (apply Qcplus_le_compat; [exact P|apply Qcle_refl]).
  rewrite E in X. apply X. reflexivity.
Qed.

(** Number of layers rank [r] owns, ghosts below it, its layers, and the global index of a layer. *)
Definition own (NZ size : nat) : nat := NZ / size.
Definition glo (r : nat) : nat := if 0 <? r then 1 else 0.
Definition ghi (size r : nat) : nat := if (r <? size - 1) || (size =? 1) then 1 else 0.
Definition lay (NZ size r : nat) : nat := own NZ size + glo r + ghi size r.
Definition glob (NZ size r k : nat) : nat := r * own NZ size + k - glo r.

Section Tiles.
  Context {T : Type} {NT : Num T} {LT : NumLaws T}.
  Add Field field_T_tiles : (@num_field T NT LT).
  Local Open Scope num_scope.

  Lemma nofnat_add a b : nofnat (a + b) = nofnat a + nofnat b :> T.
  Proof. induction a; cbn [plus nofnat]; [ring|]. rewrite IHa. ring. Qed.
  Lemma nofnat_mul a b : nofnat (a * b) = nofnat a * nofnat b :> T.
  Proof. induction a; cbn [Nat.mul nofnat]; [ring|]. rewrite nofnat_add, IHa. ring. Qed.
  Lemma nofnat_1 : nofnat 1 = none_ :> T.
  Proof. cbn [nofnat]. ring. Qed.

  Lemma last_node (a b : T) n : nofnat n <> 0 -> a + nofnat n * ((b - a) / nofnat n) = b.
  Proof. intros. field. assumption. Qed.
  Lemma extra_node (a b : T) n : nofnat n <> 0 -> a + (nofnat n + 1) * ((b - a) / nofnat n) = b + (b - a) / nofnat n.
  Proof. intros. field. assumption. Qed.

  Lemma NZ_facts Nz size : (0 < size)%nat -> (size <= Nz)%nat ->
    let NZ := (Nz - Nz mod size)%nat in NZ = (size * own NZ size)%nat /\ (0 < own NZ size)%nat /\ (size <= NZ)%nat /\ (Nz < NZ + size)%nat /\ (NZ <= Nz)%nat.
  Proof.
    intros H1 H2 NZ. unfold own. pose proof (Nat.div_mod Nz size ltac:(lia)). pose proof (Nat.mod_upper_bound Nz size ltac:(lia)).
    assert (E : NZ = (size * (Nz / size))%nat) by (unfold NZ; lia).
    assert (E2 : (NZ / size = Nz / size)%nat) by (rewrite E, Nat.mul_comm, Nat.div_mul; lia).
    assert (0 < Nz / size)%nat by (apply Nat.div_str_pos; lia).
    rewrite E2. repeat split; try lia; try nia. 
  Qed.

  Lemma tile_spec (ZMIN ZMAX : T) Nz size r : char0 T -> (size <= Nz)%nat -> (r < size)%nat ->
    let NZ := (Nz - Nz mod size)%nat in let nz := own NZ size in
    exists t, mpi_tile ZMIN ZMAX Nz size r = Ok t /\ tl_NZ t = NZ /\
      tl_Nz t = lay NZ size r /\ List.length (tl_z t) = (lay NZ size r + 1)%nat /\
      (forall i, (i <= lay NZ size r)%nat ->
         get (tl_z t) i = ZMIN + nofnat (glob NZ size r i) * ((ZMAX - ZMIN) / nofnat NZ)) /\
      List.length (tl_Z t) = NZ /\
      (forall K, (K < NZ)%nat -> get (tl_Z t) K = (get (linspace ZMIN ZMAX NZ) K + get (linspace ZMIN ZMAX NZ) (K + 1)) / two).
  Proof.
    intros H0 Hs Hr NZ nz. destruct (NZ_facts Nz size ltac:(lia) Hs) as (F1 & F2 & F3 & F4 & F5). fold NZ in F1, F2, F3, F4, F5.
    assert (N0 : nofnat NZ <> 0) by (apply H0; lia).
    assert (N2 : (two : T) <> 0) by (intros E; apply (H0 2%nat); [lia|]; rewrite <- E; cbn [nofnat]; unfold two; ring).
    unfold mpi_tile. destruct (Nat.ltb_spec Nz size); [lia|]. fold NZ.
    set (dz := (ZMAX - ZMIN) / nofnat NZ). fold (own NZ size).
    set (zmin := nofnat r * nofnat (own NZ size) * dz + ZMIN). set (zmax := nofnat (r + 1) * nofnat (own NZ size) * dz + ZMIN).
    assert (Hz : exists z1 z2, (z1 = zmin - nofnat (glo r) * dz /\ z2 = zmax + nofnat (ghi size r) * dz) /\
      (let '(zmin, n1) := if (0 <? r)%nat then (zmin + - none_ * dz, (own NZ size + 1)%nat) else (zmin, own NZ size) in
       let '(zmax, n2) := if (r <? size - 1)%nat then (zmax + none_ * dz, (n1 + 1)%nat) else (zmax, n1) in
       let '(zmax, n3) := if ((r =? 0) && (size =? 1))%nat%bool then (zmax + none_ * dz, (n2 + 1)%nat) else (zmax, n2) in
       Ok {| tl_NZ := NZ; tl_Z := tab NZ (fun i => get (linspace ZMIN ZMAX NZ) i + (ZMAX - ZMIN) / (two * nofnat NZ)); tl_Nz := n3; tl_z := linspace zmin zmax n3 |}) =
      Ok {| tl_NZ := NZ; tl_Z := tab NZ (fun i => get (linspace ZMIN ZMAX NZ) i + (ZMAX - ZMIN) / (two * nofnat NZ)); tl_Nz := lay NZ size r;
            tl_z := linspace z1 z2 (lay NZ size r) |}).
    { eexists _, _. split; [split; reflexivity|]. unfold lay, glo, ghi.
      destruct (Nat.ltb_spec 0 r), (Nat.ltb_spec r (size - 1)), (Nat.eqb_spec r 0), (Nat.eqb_spec size 1); cbn [orb andb]; try lia;
        do 2 f_equal; try lia; f_equal; try lia; cbn [nofnat]; ring. }
    destruct Hz as (z1 & z2 & [E1 E2] & E). change (nopp none_) with (- none_ : T). rewrite E. eexists. split; [reflexivity|].
    cbn [tl_NZ tl_Z tl_Nz tl_z]. split; [reflexivity|]. split; [reflexivity|].
    split; [unfold linspace; rewrite tab_length; reflexivity|].
    assert (Nl : nofnat (lay NZ size r) <> 0) by (apply H0; unfold lay; lia).
    split.
    - intros i Hi. unfold linspace. rewrite get_tab by lia.
      assert (Ed : z2 - z1 = nofnat (lay NZ size r) * dz).
      { rewrite E1, E2. unfold zmin, zmax, lay. rewrite !nofnat_add, nofnat_1. ring. }
      rewrite Ed. replace (nofnat (lay NZ size r) * dz / nofnat (lay NZ size r)) with dz by (field; exact Nl).
      rewrite E1. unfold zmin, glob.
      assert (Eg : nofnat (r * own NZ size + i - glo r)%nat = nofnat r * nofnat (own NZ size) + nofnat i - nofnat (glo r)).
      { unfold glo. destruct (Nat.ltb_spec 0 r).
        - rewrite <- nofnat_mul. assert (1 <= r * own NZ size + i)%nat by nia.
          replace (r * own NZ size)%nat with (r * own NZ size + i - 1 + 1 - i)%nat at 2 by nia.
          assert (Q : nofnat (r * own NZ size + i) = nofnat (r * own NZ size + i - 1) + nofnat 1 :> T).
          { rewrite <- nofnat_add. f_equal. lia. }
          rewrite nofnat_add in Q.
          replace (r * own NZ size + i - 1 + 1 - i)%nat with (r * own NZ size)%nat by nia.
          rewrite Q. ring.
        - cbn [nofnat]. replace (r * own NZ size + i - 0)%nat with (r * own NZ size + i)%nat by lia. rewrite nofnat_add, nofnat_mul. ring. }
      rewrite Eg. ring.
    - split; [apply tab_length|]. intros K HK. rewrite get_tab by exact HK. unfold linspace. rewrite !get_tab by lia.
      rewrite nofnat_add, nofnat_1. unfold two in *. field. split; assumption.
  Qed.
End Tiles.
