(** Lemmas: what the halo exchange does to the fields of the ranks. *)
From Coq Require Import List Arith ZArith Bool String Lia.
From Verif Require Import Num Vec Index Matrix FieldModel FieldSpec FieldProofs FieldProofs2
  GridModel GridProofs SolverModel SolverPlanes MpiModel MpiComm MpiSolverModel.
Import ListNotations.

Section Layers.
  Context {T : Type} {NT : Num T}.

  Lemma layer_copy (F G : Field T) zd zs c Nx Ny Nz Nz' :
    sized F Nx Ny Nz -> sized G Nx Ny Nz' -> c < 3 -> in_axis Nz zd -> in_axis Nz' zs ->
    exists v F', getitem (fun x => x) G (plane_key 2 zs c) = Ok v /\
      setitem F (plane_key 2 zd c) (VArr v) = Ok F' /\ sized F' Nx Ny Nz /\
      forall c' i j k, c' < 3 -> i < Nx -> j < Ny -> k < Nz ->
        entry F' c' i j k = if (c' =? c) && (k =? pypos Nz zd) then entry G c i j (pypos Nz' zs) else entry F c' i j k.
  Proof.
    intros [Hw [<- [<- <-]]] [Hw' [EX [EY EZ]]] Hc Hzd Hzs.
    pose proof (pypos_pyindex _ _ Hzd) as Pd. pose proof (pypos_pyindex _ _ Hzs) as Ps.
    pose proof (pyindex_resolve _ _ _ Pd) as Rd. pose proof (pyindex_resolve _ _ _ Ps) as Rs.
    set (qd := pypos (fNz F) zd) in *. set (qs := pypos Nz' zs) in *.
    assert (Bs : qs < Nz') by apply Ps. unfold plane_key.
    unfold getitem, to_matrix. rewrite (comp_cname c Hc). cbn [option_map].
    unfold mat_getitem. cbn [m0 m1 m2 to_matrix_c mtab]. rewrite EX, EY, EZ, Rs, !resolve_full.
    rewrite !seq_length. cbn [List.length keep3 kept kfull app bind].
    set (v := {| shape := _; dat := _ |}). exists v.
    assert (Hb : bcast_ok (VArr v) (keep3 kfull kfull (KI zd) (List.length (seq 0 (fNx F)))
               (List.length (seq 0 (fNy F))) (List.length [qd])) = true).
    { rewrite !seq_length. cbn. rewrite !Nat.eqb_refl, !orb_true_r. reflexivity. }
    destruct (setitem_spec F kfull kfull (KI zd) (cname c) c (VArr v) (seq 0 (fNx F)) (seq 0 (fNy F)) [qd]
      Hw (comp_cname c Hc) (resolve_full _) (resolve_full _) Rd Hb) as [F' [E [W [X [Y [Z A]]]]]].
    exists F'. split; [reflexivity|]. split; [exact E|]. split; [split; auto|].
    intros c' i j k Hc' Hi Hj Hk. rewrite !entry_at, A by assumption.
    rewrite pos_of_one, !pos_of_full by assumption.
    destruct (k =? qd) eqn:E1, (c' =? c) eqn:E2; cbn [andb]; try reflexivity.
    cbn [bget keep3 kept kfull app rev]. unfold v. cbn [shape dat rev app bflat].
    rewrite (bc1 _ _ Hj), (bc1 _ _ Hi), ?Nat.mul_1_r.
    match goal with |- get _ ?e = _ => replace e with (j + i * fNy F) by nia end.
    rewrite get_tab by nia.
    replace ((j + i * fNy F) / fNy F) with i by (rewrite (Nat.mul_comm i), div_add_l by exact Hj; reflexivity).
    rewrite Nat.div_1_r.
    replace ((j + i * fNy F) mod fNy F) with j by (rewrite (Nat.mul_comm i), mod_add_l by exact Hj; reflexivity).
    rewrite Nat.mod_1_r. cbn [nth]. rewrite !seq_nth by assumption.
    rewrite !Nat.add_0_l. rewrite ?entry_at.
    apply mget_to_matrix; congruence.
  Qed.

  Lemma layer_same (F G : Field T) z c Nx Ny Nz :
    sized F Nx Ny Nz -> sized G Nx Ny Nz -> c < 3 -> in_axis Nz z ->
    (forall i j, i < Nx -> j < Ny -> entry F c i j (pypos Nz z) = entry G c i j (pypos Nz z)) ->
    getitem (fun x => x) F (plane_key 2 z c) = getitem (fun x => x) G (plane_key 2 z c).
  Proof.
    intros [Hw [EX [EY EZ]]] [Hw' [EX' [EY' EZ']]] Hc Hz H.
    pose proof (pypos_pyindex _ _ Hz) as Ps. pose proof (pyindex_resolve _ _ _ Ps) as Rs.
    assert (Bs : pypos Nz z < Nz) by apply Ps. unfold plane_key.
    unfold getitem, to_matrix. rewrite (comp_cname c Hc). cbn [option_map].
    unfold mat_getitem. cbn [m0 m1 m2 to_matrix_c mtab]. rewrite EX, EY, EZ, EX', EY', EZ', Rs, !resolve_full.
    rewrite !seq_length. cbn [List.length keep3 kept kfull app bind]. f_equal. f_equal. apply tab_ext.
    intros n Hn. rewrite Nat.div_1_r, Nat.mod_1_r. rewrite !Nat.mul_1_r in *. cbn [nth].
    destruct (Nat.eq_dec Ny 0) as [->|Ny0]; [lia|].
    assert (n / Ny < Nx) by (apply Nat.div_lt_upper_bound; lia).
    assert (n mod Ny < Ny) by (apply Nat.mod_upper_bound; lia).
    rewrite !seq_nth, !Nat.add_0_l by assumption.
    rewrite !mget_to_matrix by congruence. rewrite <- !entry_at. apply H; assumption.
  Qed.
End Layers.

Section Halo.
  Context {T : Type} {NT : Num T} {OT : NumOrd T}.

  Lemma fsel_with f (s : Solver T) F : fsel f (with_fsel f s F) = F.
  Proof. destruct f as [|[|f]]; reflexivity. Qed.
  Lemma with_fsel_twice f (s : Solver T) F G : with_fsel f (with_fsel f s F) G = with_fsel f s G.
  Proof. destruct f as [|[|f]]; reflexivity. Qed.
  Lemma with_fsel_self f (s : Solver T) : with_fsel f s (fsel f s) = s.
  Proof. destruct f as [|[|f]], s; reflexivity. Qed.
  Lemma fsel_other f g (s : Solver T) F : f < 3 -> g < 3 -> f <> g -> fsel g (with_fsel f s F) = fsel g s.
  Proof. destruct f as [|[|[|f]]], g as [|[|[|g]]]; intros; try lia; reflexivity. Qed.

  Context (size Nx Ny : nat) (dimz : nat -> nat).
  Context (Hdim : forall r, r < size -> 1 + (if 0 <? r then 1 else 0) + (if r <? size - 1 then 1 else 0) <= dimz r).

  (** The field of rank [r] after an exchange, entry by entry. *)
  Definition exchanged (F : nat -> Field T) (r c i j k : nat) : T :=
    if (0 <? r) && (k =? 0) then entry (F (r - 1)) c i j (dimz (r - 1) - 2)
    else if (r <? size - 1) && (k =? dimz r - 1) then entry (F (r + 1)) c i j 1
    else entry (F r) c i j k.

  Context (fcom : nat -> option nat) (mid : nat -> nat -> Solver T).
  Notation aft := (after halo_send halo_recv fcom mid).
  Notation nop := (nops size fcom).
  Notation fl := (ffld fcom).

  (** Entry after the first [n] calls. *)
  Definition part (p r n c i j k : nat) : T :=
    let F r := fsel (fl p) (mid p r) in
    if (0 <? r) && (k =? 0) && (c <? Nat.min n (base r)) then entry (F (r - 1)) c i j (dimz (r - 1) - 2)
    else if (r <? size - 1) && (k =? dimz r - 1) && (c <? n - base r) then entry (F (r + 1)) c i j 1
    else entry (F r) c i j k.

  Lemma after_spec p r n : r < size -> n <= nop r p ->
    (forall r, r < size -> sized (fsel (fl p) (mid p r)) Nx Ny (dimz r)) ->
    exists F, aft r p n = with_fsel (fl p) (mid p r) F /\ sized F Nx Ny (dimz r) /\
      forall c i j k, c < 3 -> i < Nx -> j < Ny -> k < dimz r -> entry F c i j k = part p r n c i j k.
  Proof.
    intros Hr Hn HM. induction n as [|n IH].
    - exists (fsel (fl p) (mid p r)). split; [symmetry; apply with_fsel_self|]. split; [apply HM, Hr|].
      intros c i j k Hc Hi Hj Hk. unfold part. cbn [Nat.min]. rewrite Nat.sub_0_l.
      replace (c <? 0) with false by (symmetry; apply Nat.ltb_ge; lia). rewrite !andb_false_r. reflexivity.
    - destruct (IH ltac:(lia)) as (F & EF & SF & A). rewrite after_S, EF. unfold put.
      assert (Lq : n < nop r p) by lia.
      pose proof (op_valid size fcom r p n Hr Lq) as V0. destruct (peer_valid size r _ Hr V0) as (P1 & P2 & P3 & P4 & _).
      destruct (op_d_lt size fcom r p n Lq) as [Cd _].
      pose proof (Hdim r Hr) as Dr. pose proof (Hdim _ P1) as Dq.
      assert (Zd : in_axis (dimz r) (if op_hi r n then -1 else 0)%Z) by (unfold in_axis; destruct (op_hi r n); lia).
      assert (Zs : in_axis (dimz (peer r (op_hi r n))) (if negb (op_hi r n) then -2 else 1)%Z).
      { unfold in_axis. unfold peer, valid in *. destruct (op_hi r n); cbn [negb] in *.
        - destruct (Nat.ltb_spec 0 (r + 1)); lia.
        - destruct (Nat.ltb_spec (r - 1) (size - 1)); lia. }
      destruct (layer_copy F (fsel (fl p) (mid p (peer r (op_hi r n)))) (if op_hi r n then -1 else 0)%Z
        (if negb (op_hi r n) then -2 else 1)%Z (op_d r n) Nx Ny (dimz r) (dimz (peer r (op_hi r n))) SF (HM _ P1) Cd Zd Zs)
        as (v & F' & Ev & EF' & SF' & A').
      exists F'. unfold halo_recv, halo_send. rewrite Ev, fsel_with, EF', with_fsel_twice. split; [reflexivity|].
      split; [exact SF'|]. intros c i j k Hc Hi Hj Hk. rewrite A' by assumption. rewrite A by assumption. unfold part.
      assert (Ez1 : pypos (dimz r) (if op_hi r n then -1 else 0)%Z = if op_hi r n then dimz r - 1 else 0).
      { destruct (op_hi r n); [apply pypos_last; lia|reflexivity]. }
      assert (Ez2 : pypos (dimz (peer r (op_hi r n))) (if negb (op_hi r n) then -2 else 1)%Z =
                    if negb (op_hi r n) then dimz (peer r (op_hi r n)) - 2 else 1).
      { destruct (op_hi r n); cbn [negb]; [reflexivity|]. unfold pypos. cbn [Z.ltb Z.compare]. unfold in_axis in Zs. cbn [negb] in Zs. lia. }
      rewrite Ez1, Ez2. clear Ez1 Ez2 A A'. unfold nops in Lq. destruct (is_com fcom p); [|lia].
      revert Lq Cd V0 Dr. unfold op_hi, op_d, base, valid, peer. intros Lq Cd V0 Dr.
      destruct (Nat.ltb_spec 0 r) as [R0|R0]; destruct (Nat.ltb_spec r (size - 1)) as [R1|R1]; cbn [andb] in *;
      repeat match goal with
        | H : context [?a <=? ?b] |- _ => destruct (Nat.leb_spec a b); cbn [negb andb] in *
        | |- context [?a <=? ?b] => destruct (Nat.leb_spec a b); cbn [negb andb] in *
        | |- context [?a =? ?b] => destruct (Nat.eqb_spec a b); cbn [negb andb] in *
        | |- context [?a <? ?b] => destruct (Nat.ltb_spec a b); cbn [negb andb] in *
        end; try subst c; try subst k; try reflexivity; try lia.
  Qed.

  Lemma part_full p r c i j k : is_com fcom p = true -> c < 3 ->
    part p r (nop r p) c i j k = exchanged (fun r => fsel (fl p) (mid p r)) r c i j k.
  Proof.
    intros E Hc. unfold part, exchanged, nops. rewrite E. unfold base.
    destruct (Nat.ltb_spec 0 r), (Nat.ltb_spec r (size - 1)); cbn [andb plus Nat.min Nat.sub];
      repeat match goal with |- context [c <? ?n] => destruct (Nat.ltb_spec c n); [|lia] end; rewrite ?andb_true_r; reflexivity.
  Qed.

  Lemma after_indep p r n q : r < size -> n <= nop r p -> q < nop r p ->
    (forall r, r < size -> sized (fsel (fl p) (mid p r)) Nx Ny (dimz r)) ->
    halo_send (fl p) (op_hi r q) (op_d r q) (aft r p n) = halo_send (fl p) (op_hi r q) (op_d r q) (mid p r).
  Proof.
    intros Hr Hn Hq HM. destruct (after_spec p r n Hr Hn HM) as (F & -> & SF & A).
    unfold halo_send. rewrite fsel_with. pose proof (Hdim r Hr) as Dr.
    destruct (op_d_lt size fcom r p q Hq) as [Cd _]. pose proof (op_valid size fcom r p q Hr Hq) as V0.
    assert (Dz : 2 <= dimz r).
    { unfold valid in V0. destruct (op_hi r q); [destruct (Nat.ltb_spec r (size - 1)); lia|destruct (Nat.ltb_spec 0 r); lia]. }
    assert (Zs : in_axis (dimz r) (if op_hi r q then -2 else 1)%Z) by (unfold in_axis; destruct (op_hi r q); lia).
    apply (layer_same _ _ _ _ Nx Ny (dimz r)); [exact SF|apply HM, Hr|exact Cd|exact Zs|].
    intros i j Hi Hj.
    assert (Ez : pypos (dimz r) (if op_hi r q then -2 else 1)%Z = if op_hi r q then dimz r - 2 else 1).
    { destruct (op_hi r q); [|reflexivity]. unfold pypos. cbn [Z.ltb Z.compare]. lia. }
    rewrite Ez. rewrite A by (try assumption; destruct (op_hi r q); lia). unfold part.
    unfold valid in V0. destruct (op_hi r q).
    - destruct (Nat.ltb_spec 0 r); cbn [andb].
      + destruct (Nat.eqb_spec (dimz r - 2) 0); [destruct (Nat.ltb_spec r (size - 1)); lia|]. cbn [andb].
        destruct (Nat.eqb_spec (dimz r - 2) (dimz r - 1)); [lia|]. rewrite andb_false_r. reflexivity.
      + destruct (Nat.eqb_spec (dimz r - 2) (dimz r - 1)); [lia|]. rewrite andb_false_r. reflexivity.
    - change (1 =? 0) with false. rewrite andb_false_r. cbn [andb].
      destruct (Nat.ltb_spec r (size - 1)); cbn [andb]; [|reflexivity].
      destruct (Nat.eqb_spec 1 (dimz r - 1)); [|reflexivity]. destruct (Nat.ltb_spec 0 r); lia.
  Qed.
End Halo.

Section Exchange.
  Context {T : Type} {NT : Num T} {OT : NumOrd T}.

  (** The layers below and above that rank [r] shares with a neighbour. *)
  Definition below (r : nat) : nat := if 0 <? r then 1 else 0.
  Definition above (size r : nat) : nat := if r <? size - 1 then 1 else 0.

  Lemma exchange_total (size Nx Ny : nat) (nz : nat -> nat) fld (init : nat -> Solver T) :
    (forall r, r < size -> 0 < nz r) ->
    (forall r, r < size -> sized (fsel fld (init r)) Nx Ny (nz r + below r + above size r)) ->
    exists N, forall eg n w,
      wsteps halo_send halo_recv eg size n (start init (fun r => Local (@Ok _) :: communicate size r fld)) w ->
      n <= N /\ (finished size w \/ exists w', wstep halo_send halo_recv false size w w') /\
      (finished size w -> forall r, r < size -> exists F, rst (wrank w r) = with_fsel fld (init r) F /\
         sized F Nx Ny (nz r + below r + above size r) /\
         forall c i j k, c < 3 -> i < Nx -> j < Ny -> k < nz r + below r + above size r ->
           entry F c i j k = exchanged size (fun r => nz r + below r + above size r) (fun r => fsel fld (init r)) r c i j k).
  Proof.
    intros Hz HS. set (dimz := fun r => nz r + below r + above size r).
    assert (Hdim : forall r, r < size -> 1 + (if 0 <? r then 1 else 0) + (if r <? size - 1 then 1 else 0) <= dimz r).
    { intros r Hr. specialize (Hz r Hr). unfold dimz, below, above. lia. }
    set (fcom := fun _ : nat => Some fld). set (mid := fun (_ r : nat) => init r).
    set (G := fun p r => match p with 0 => init r | S p => after halo_send halo_recv fcom mid r p (nops size fcom r p) end).
    destruct (run_total halo_send halo_recv size 1 (fun _ _ => @Ok _) fcom G mid) with (init := init) (code := fun r => Local (@Ok (Solver T)) :: communicate size r fld)
      as [N HN].
    - intros r p n q Hp Hr Hn Hq. apply (after_indep size Nx Ny dimz Hdim fcom mid p r n q Hr Hn Hq). intros r' Hr'. apply HS, Hr'.
    - intros p r Hp Hr. assert (p = 0) by lia. subst p. reflexivity.
    - intros p r Hp Hr. reflexivity.
    - intros r Hr. reflexivity.
    - intros r Hr. unfold code_ph. cbn [seq Nat.sub flat_map phase_code fcom]. rewrite app_nil_r. reflexivity.
    - exists N. intros eg n w Hw. destruct (HN eg n w Hw) as (A & B & C). split; [exact A|]. split; [exact B|].
      intros Hf r Hr. rewrite (C Hf r Hr). cbn [G].
      destruct (after_spec size Nx Ny dimz Hdim fcom mid 0 r (nops size fcom r 0) Hr (le_n _) (fun r Hr => HS r Hr)) as (F & EF & SF & P).
      exists F. split; [exact EF|]. split; [exact SF|]. intros c i j k Hc Hi Hj Hk. rewrite P by assumption.
      rewrite part_full by first [exact Hdim | reflexivity | exact Hc]. reflexivity.
  Qed.
End Exchange.
