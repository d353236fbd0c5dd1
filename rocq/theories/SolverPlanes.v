(** Lemmas: plane reads and writes, boundary masks. *)
From Coq Require Import List Arith ZArith Bool String Lia Ring Field.
From Verif Require Import Num Vec Index Matrix FieldModel FieldSpec FieldProofs FieldProofs2
  GridModel GridProofs SolverModel.
Import ListNotations.

Definition coord (a i j k : nat) : nat := match a with 0 => i | 1 => j | _ => k end.
Definition dim (a Nx Ny Nz : nat) : nat := match a with 0 => Nx | 1 => Ny | _ => Nz end.
(** Position named by Python index [z] on an axis of length [d]. *)
Definition pypos (d : nat) (z : Z) : nat := Z.to_nat (if (z <? 0)%Z then z + Z.of_nat d else z)%Z.
Definition in_axis (d : nat) (z : Z) : Prop := (- Z.of_nat d <= z < Z.of_nat d)%Z.

Lemma pypos_pyindex d z : in_axis d z -> pyindex d z (pypos d z).
Proof. unfold in_axis, pyindex, pypos. intros H. destruct (z <? 0)%Z eqn:E; lia. Qed.

Lemma pos_of_full d i : i < d -> pos_of i (seq 0 d) = Some i.
Proof.
  intros H. rewrite pos_of_seq. replace (andb (0 <=? i) (i <? 0 + d)) with true.
  - rewrite Nat.sub_0_r. reflexivity.
  - symmetry. apply andb_true_intro. split; [apply Nat.leb_le; lia|apply Nat.ltb_lt; lia].
Qed.

Lemma pos_of_one i p : pos_of i [p] = if i =? p then Some 0 else None.
Proof. cbn. rewrite Nat.eqb_sym. destruct (i =? p); reflexivity. Qed.

Lemma comp_cname c : c < 3 -> comp_of (cname c) = Some c.
Proof. intros H. destruct c as [|[|[|c]]]; [reflexivity..|lia]. Qed.

Section Planes.
  Context {T : Type} {NT : Num T}.
  Implicit Types F G : Field T.

  Definition hit (Nx Ny Nz : nat) (p : nat * nat * Z * T) (c i j k : nat) : bool :=
    let '(d, a, z, _) := p in (c =? d) && (coord a i j k =? pypos (dim a Nx Ny Nz) z).
  Definition plane_ok (Nx Ny Nz : nat) (p : nat * nat * Z * T) : Prop :=
    let '(d, a, z, _) := p in d < 3 /\ a < 3 /\ in_axis (dim a Nx Ny Nz) z.

  Lemma set_plane_spec F Nx Ny Nz p :
    sized F Nx Ny Nz -> plane_ok Nx Ny Nz p ->
    exists G, set_plane F p = Ok G /\ sized G Nx Ny Nz /\
      forall c i j k, c < 3 -> i < Nx -> j < Ny -> k < Nz ->
        entry G c i j k = if hit Nx Ny Nz p c i j k then snd p else entry F c i j k.
  Proof.
    intros [Hw [<- [<- <-]]]. destruct p as [[[d a] z] v]. intros [Hd [Ha Hz]].
    set (q := pypos (dim a (fNx F) (fNy F) (fNz F)) z).
    assert (Hr : resolve (dim a (fNx F) (fNy F) (fNz F)) (KI z) = Ok [q])
      by (apply pyindex_resolve, pypos_pyindex; exact Hz).
    unfold set_plane, plane_key, hit. cbn [snd]. fold q.
    destruct a as [|[|[|a]]]; [| | |lia]; cbn [dim coord] in *.
    - destruct (setitem_spec F (KI z) kfull kfull (cname d) d (VNum v) [q] (seq 0 (fNy F)) (seq 0 (fNz F))
        Hw (comp_cname d Hd) Hr (resolve_full _) (resolve_full _) eq_refl)
        as [G [E [W [X [Y [Z A]]]]]].
      exists G. split; [exact E|]. split; [split; auto|].
      intros c i j k Hc Hi Hj Hk. rewrite !entry_at, A by assumption.
      rewrite pos_of_one, !pos_of_full by assumption.
      destruct (i =? q), (c =? d); reflexivity.
    - destruct (setitem_spec F kfull (KI z) kfull (cname d) d (VNum v) (seq 0 (fNx F)) [q] (seq 0 (fNz F))
        Hw (comp_cname d Hd) (resolve_full _) Hr (resolve_full _) eq_refl)
        as [G [E [W [X [Y [Z A]]]]]].
      exists G. split; [exact E|]. split; [split; auto|].
      intros c i j k Hc Hi Hj Hk. rewrite !entry_at, A by assumption.
      rewrite pos_of_one, !pos_of_full by assumption.
      destruct (j =? q), (c =? d); reflexivity.
    - destruct (setitem_spec F kfull kfull (KI z) (cname d) d (VNum v) (seq 0 (fNx F)) (seq 0 (fNy F)) [q]
        Hw (comp_cname d Hd) (resolve_full _) (resolve_full _) Hr eq_refl)
        as [G [E [W [X [Y [Z A]]]]]].
      exists G. split; [exact E|]. split; [split; auto|].
      intros c i j k Hc Hi Hj Hk. rewrite !entry_at, A by assumption.
      rewrite pos_of_one, !pos_of_full by assumption.
      destruct (k =? q), (c =? d); reflexivity.
  Qed.

  (** A sequence of plane assignments: the last hit wins. *)
  Lemma set_planes_spec (l : list (nat * nat * Z * T)) : forall F Nx Ny Nz,
    sized F Nx Ny Nz -> Forall (plane_ok Nx Ny Nz) l ->
    exists G, seq_upd set_plane F l = Ok G /\ sized G Nx Ny Nz /\
      forall c i j k, c < 3 -> i < Nx -> j < Ny -> k < Nz ->
        entry G c i j k =
        fold_left (fun acc p => if hit Nx Ny Nz p c i j k then snd p else acc) l (entry F c i j k).
  Proof.
    induction l as [|p l IH]; intros F Nx Ny Nz S Hl.
    - exists F. split; [reflexivity|]. split; [exact S|]. reflexivity.
    - inversion Hl as [|? ? Hp Hl']; subst.
      destruct (set_plane_spec F Nx Ny Nz p S Hp) as [G [E [S1 A]]].
      destruct (IH G Nx Ny Nz S1 Hl') as [G' [E' [S2 A']]].
      exists G'. cbn [seq_upd]. rewrite E. cbn [bind]. split; [exact E'|]. split; [exact S2|].
      intros c i j k Hc Hi Hj Hk. rewrite A' by assumption. cbn [fold_left].
      rewrite A by assumption. reflexivity.
  Qed.

  (** ** Boundary masks *)
  Definition maskv (lo hi : nat -> T) (Nx Ny Nz d i j k : nat) : T :=
    let at_face a x n acc :=
      if d =? a then acc else if x =? n - 1 then hi a else if x =? 0 then lo a else acc in
    at_face 2 k Nz (at_face 1 j Ny (at_face 0 i Nx none_)).

  Lemma in_axis_first d : 0 < d -> in_axis d 0.
  Proof. unfold in_axis. lia. Qed.
  Lemma in_axis_last d : 0 < d -> in_axis d (-1).
  Proof. unfold in_axis. lia. Qed.
  Lemma pypos_last d : 0 < d -> pypos d (-1) = d - 1.
  Proof. unfold pypos. intros H. cbn [Z.ltb Z.compare]. lia. Qed.
  Lemma pypos_first d : pypos d 0 = 0.
  Proof. reflexivity. Qed.

  Lemma bc_mask_spec Nx Ny Nz (lo hi : nat -> T) :
    0 < Nx -> 0 < Ny -> 0 < Nz ->
    exists G, bc_mask Nx Ny Nz lo hi = Ok G /\ sized G Nx Ny Nz /\
      forall c i j k, c < 3 -> i < Nx -> j < Ny -> k < Nz ->
        entry G c i j k = maskv lo hi Nx Ny Nz c i j k.
  Proof.
    intros HX HY HZ. unfold bc_mask.
    destruct (set_planes_spec (mask_assigns lo hi) (field_ones Nx Ny Nz) Nx Ny Nz
                (sized_ones _ _ _)) as [G [E [S A]]].
    { cbn. repeat constructor; cbn; try lia;
        (apply in_axis_first || apply in_axis_last); assumption. }
    exists G. split; [exact E|]. split; [exact S|].
    intros c i j k Hc Hi Hj Hk. rewrite A by assumption.
    replace (entry (field_ones Nx Ny Nz) c i j k) with (none_ (T := T)).
    - unfold mask_assigns, axes. cbn [flat_map app Nat.eqb fold_left snd hit].
      cbn [coord dim]. rewrite !pypos_last, !pypos_first by assumption.
      unfold maskv.
      destruct c as [|[|[|c]]]; [| | |lia]; cbn [Nat.eqb andb];
        destruct (i =? 0), (i =? Nx - 1), (j =? 0), (j =? Ny - 1), (k =? 0), (k =? Nz - 1); reflexivity.
    - symmetry. rewrite entry_at. unfold at_, field_ones, fN; cbn.
      rewrite get_tab; [reflexivity|]. pose proof (cell_lt _ _ _ _ _ _ Hi Hj Hk). nia.
  Qed.

  (** ** Copying a plane *)
  Definition set_coord (a q i j k : nat) : nat * nat * nat :=
    match a with 0 => (q, j, k) | 1 => (i, q, k) | _ => (i, j, q) end.
  Definition entry3 (F : Field T) (c : nat) (t : nat * nat * nat) : T :=
    let '(i, j, k) := t in entry F c i j k.

  Lemma bc1 n x : x < n -> (if n =? 1 then 0 else x) = x.
  Proof. destruct (Nat.eqb_spec n 1); lia. Qed.
  Lemma bcompat_refl l : bcompat l l = true.
  Proof. induction l as [|d l IH]; cbn; [reflexivity|]. rewrite Nat.eqb_refl, orb_true_r. exact IH. Qed.

  Lemma copy_plane_spec F G a zd zs c Nx Ny Nz :
    sized F Nx Ny Nz -> sized G Nx Ny Nz -> c < 3 -> a < 3 ->
    in_axis (dim a Nx Ny Nz) zd -> in_axis (dim a Nx Ny Nz) zs ->
    exists F', copy_plane F a zd G zs c = Ok F' /\ sized F' Nx Ny Nz /\
      forall c' i j k, c' < 3 -> i < Nx -> j < Ny -> k < Nz ->
        entry F' c' i j k =
        if (c' =? c) && (coord a i j k =? pypos (dim a Nx Ny Nz) zd)
        then entry3 G c (set_coord a (pypos (dim a Nx Ny Nz) zs) i j k)
        else entry F c' i j k.
  Proof.
    intros [Hw [<- [<- <-]]] [Hw' [EX [EY EZ]]] Hc Ha Hzd Hzs.
    pose proof (pypos_pyindex _ _ Hzd) as Pd. pose proof (pypos_pyindex _ _ Hzs) as Ps.
    pose proof (pyindex_resolve _ _ _ Pd) as Rd. pose proof (pyindex_resolve _ _ _ Ps) as Rs.
    set (qd := pypos (dim a (fNx F) (fNy F) (fNz F)) zd) in *.
    set (qs := pypos (dim a (fNx F) (fNy F) (fNz F)) zs) in *.
    assert (Bs : qs < dim a (fNx F) (fNy F) (fNz F)) by apply Ps.
    unfold copy_plane, plane_key.
    destruct a as [|[|[|a]]]; [| | |lia]; cbn [dim coord set_coord] in *.
    - unfold getitem, to_matrix. rewrite (comp_cname c Hc). cbn [option_map].
      unfold mat_getitem. cbn [m0 m1 m2 to_matrix_c mtab]. rewrite EX, EY, EZ, Rs, !resolve_full.
      rewrite !seq_length. cbn [List.length keep3 kept kfull app bind].
      set (v := {| shape := _; dat := _ |}).
      assert (Hb : bcast_ok (VArr v) (keep3 (KI zd) kfull kfull (List.length [qd])
                 (List.length (seq 0 (fNy F))) (List.length (seq 0 (fNz F)))) = true).
      { rewrite !seq_length. cbn. rewrite !Nat.eqb_refl, !orb_true_r. reflexivity. }
      destruct (setitem_spec F (KI zd) kfull kfull (cname c) c (VArr v) [qd] (seq 0 (fNy F)) (seq 0 (fNz F))
        Hw (comp_cname c Hc) Rd (resolve_full _) (resolve_full _) Hb) as [F' [E [W [X [Y [Z A]]]]]].
      exists F'. split; [exact E|]. split; [split; auto|].
      intros c' i j k Hc' Hi Hj Hk. rewrite !entry_at, A by assumption.
      rewrite pos_of_one, !pos_of_full by assumption.
      destruct (i =? qd) eqn:E1, (c' =? c) eqn:E2; cbn [andb]; try reflexivity.
      cbn [bget keep3 kept kfull app rev]. unfold v. cbn [shape dat rev app bflat].
      rewrite (bc1 _ _ Hk), (bc1 _ _ Hj).
      match goal with |- get _ ?e = _ => replace e with (k + j * fNz F) by nia end.
      rewrite get_tab by nia.
      replace ((k + j * fNz F) / (fNy F * fNz F)) with 0 by (symmetry; apply Nat.div_small; nia).
      replace ((k + j * fNz F) / fNz F) with j by (rewrite (Nat.mul_comm j), div_add_l by exact Hk; reflexivity).
      replace ((k + j * fNz F) mod fNz F) with k by (rewrite (Nat.mul_comm j), mod_add_l by exact Hk; reflexivity).
      rewrite Nat.mod_small by exact Hj. cbn [nth]. rewrite !seq_nth by assumption.
      rewrite !Nat.add_0_l. unfold entry3. rewrite entry_at.
      apply mget_to_matrix; congruence.
    - unfold getitem, to_matrix. rewrite (comp_cname c Hc). cbn [option_map].
      unfold mat_getitem. cbn [m0 m1 m2 to_matrix_c mtab]. rewrite EX, EY, EZ, Rs, !resolve_full.
      rewrite !seq_length. cbn [List.length keep3 kept kfull app bind].
      set (v := {| shape := _; dat := _ |}).
      assert (Hb : bcast_ok (VArr v) (keep3 kfull (KI zd) kfull (List.length (seq 0 (fNx F)))
                 (List.length [qd]) (List.length (seq 0 (fNz F)))) = true).
      { rewrite !seq_length. cbn. rewrite !Nat.eqb_refl, !orb_true_r. reflexivity. }
      destruct (setitem_spec F kfull (KI zd) kfull (cname c) c (VArr v) (seq 0 (fNx F)) [qd] (seq 0 (fNz F))
        Hw (comp_cname c Hc) (resolve_full _) Rd (resolve_full _) Hb) as [F' [E [W [X [Y [Z A]]]]]].
      exists F'. split; [exact E|]. split; [split; auto|].
      intros c' i j k Hc' Hi Hj Hk. rewrite !entry_at, A by assumption.
      rewrite pos_of_one, !pos_of_full by assumption.
      destruct (j =? qd) eqn:E1, (c' =? c) eqn:E2; cbn [andb]; try reflexivity.
      cbn [bget keep3 kept kfull app rev]. unfold v. cbn [shape dat rev app bflat].
      rewrite (bc1 _ _ Hk), (bc1 _ _ Hi), ?Nat.mul_1_l.
      match goal with |- get _ ?e = _ => replace e with (k + i * fNz F) by nia end.
      rewrite get_tab by nia.
      replace ((k + i * fNz F) / fNz F) with i by (rewrite (Nat.mul_comm i), div_add_l by exact Hk; reflexivity).
      replace ((k + i * fNz F) mod fNz F) with k by (rewrite (Nat.mul_comm i), mod_add_l by exact Hk; reflexivity).
      rewrite Nat.mod_1_r. cbn [nth]. rewrite !seq_nth by assumption.
      rewrite !Nat.add_0_l. unfold entry3. rewrite entry_at.
      apply mget_to_matrix; congruence.
    - unfold getitem, to_matrix. rewrite (comp_cname c Hc). cbn [option_map].
      unfold mat_getitem. cbn [m0 m1 m2 to_matrix_c mtab]. rewrite EX, EY, EZ, Rs, !resolve_full.
      rewrite !seq_length. cbn [List.length keep3 kept kfull app bind].
      set (v := {| shape := _; dat := _ |}).
      assert (Hb : bcast_ok (VArr v) (keep3 kfull kfull (KI zd) (List.length (seq 0 (fNx F)))
                 (List.length (seq 0 (fNy F))) (List.length [qd])) = true).
      { rewrite !seq_length. cbn. rewrite !Nat.eqb_refl, !orb_true_r. reflexivity. }
      destruct (setitem_spec F kfull kfull (KI zd) (cname c) c (VArr v) (seq 0 (fNx F)) (seq 0 (fNy F)) [qd]
        Hw (comp_cname c Hc) (resolve_full _) (resolve_full _) Rd Hb) as [F' [E [W [X [Y [Z A]]]]]].
      exists F'. split; [exact E|]. split; [split; auto|].
      intros c' i j k Hc' Hi Hj Hk. rewrite !entry_at, A by assumption.
      rewrite pos_of_one, !pos_of_full by assumption.
      destruct (k =? qd) eqn:E1, (c' =? c) eqn:E2; cbn [andb]; try reflexivity.
      cbn [bget keep3 kept kfull app rev]. unfold v. cbn [shape dat rev app bflat].
      rewrite (bc1 _ _ Hj), (bc1 _ _ Hi), ?Nat.mul_1_r.
      match goal with |- get _ ?e = _ => replace e with (j + i * fNy F) by nia end.
      rewrite get_tab by nia.
      replace ((j + i * fNy F) / fNy F) with i by (rewrite (Nat.mul_comm i), div_add_l by exact Hj; reflexivity).
      rewrite Nat.div_1_r.
      replace ((j + i * fNy F) mod fNy F) with j by (rewrite (Nat.mul_comm i), mod_add_l by exact Hj; reflexivity).
      rewrite Nat.mod_1_r. cbn [nth]. rewrite !seq_nth by assumption.
      rewrite !Nat.add_0_l. unfold entry3. rewrite entry_at.
      apply mget_to_matrix; congruence.
  Qed.
End Planes.
