(** Lemmas on the absorbing walls and on emsolve. *)
From Coq Require Import List Arith ZArith Bool String Lia.
From Verif Require Import Num Vec FieldModel FieldSpec FieldProofs FieldProofs2 GridModel GridProofs SolverModel SolverPlanes
  SolverBuild SolverKern SolverCons SolverOps SolverTime SolverKit RoutinesModel.
Import ListNotations.

(** Position read by the wall copy: layer 1 in place of layer 0 on an absorbing low wall. *)
Definition shifted (b : bool) (i : nat) : nat := if b then Nat.max 1 i else i.

Lemma pypos_lt : forall d z, in_axis d z -> pypos d z < d.
Proof. intros d z [H1 H2]. unfold pypos. destruct (Z.ltb_spec z 0); lia. Qed.

Section Routines.
  Context {T : Type} {NT : Num T} {OT : NumOrd T}.
  Context (Nx Ny Nz : nat).

  Definition abc_fit (s : Solver T) : Prop :=
    sized (sE s) Nx Ny Nz /\ sized (sH s) Nx Ny Nz /\ 0 < Nx /\ 0 < Ny /\ 0 < Nz /\
    (forall a, a < 3 -> is_abc s (false, a) = true -> 2 <= dim a Nx Ny Nz).

  Definition keys_of (f : bool * nat) : list (string * key) :=
    map (fun d => (face_name (fst f) d, plane_key (snd f) (abc_read (fst f)) d)) axes.

  Lemma read_ok : forall (F : Field T) a z d, sized F Nx Ny Nz -> a < 3 -> d < 3 -> in_axis (dim a Nx Ny Nz) z ->
    exists v, getitem (fun x => x) F (plane_key a z d) = Ok v.
  Proof.
    intros F a z d HF Ha Hd Hz.
    destruct (copy_plane_spec F F a z z d Nx Ny Nz HF HF Hd Ha Hz Hz) as (F' & H & _).
    unfold copy_plane in H. destruct (getitem _ F _) as [v|e]; [eexists; reflexivity|discriminate H].
  Qed.

  Lemma face_in_axis : forall s f, abc_fit s -> snd f < 3 -> is_abc s f = true ->
    in_axis (dim (snd f) Nx Ny Nz) (abc_read (fst f)) /\ in_axis (dim (snd f) Nx Ny Nz) (abc_write (fst f)).
  Proof.
    intros s [[|] a] (HE & HH & Px & Py & Pz & Hl) Ha Hf; cbn [fst snd] in *; unfold abc_read, abc_write, in_axis.
    - assert (1 <= dim a Nx Ny Nz) by (destruct a as [|[|a]]; cbn; lia). lia.
    - specialize (Hl a Ha Hf). lia.
  Qed.

  Lemma get_loop : forall (F : Field T) f a0, sized F Nx Ny Nz -> snd f < 3 -> in_axis (dim (snd f) Nx Ny Nz) (abc_read (fst f)) ->
    exists v, seq_upd (fun _ (p : string * key) => getitem (fun x => x) F (snd p)) a0 (keys_of f) = Ok v.
  Proof.
    intros F f a0 HF Ha Hz. unfold keys_of, axes. cbn [map seq_upd].
    destruct (read_ok F (snd f) (abc_read (fst f)) 0 HF Ha ltac:(lia) Hz) as [v0 H0].
    destruct (read_ok F (snd f) (abc_read (fst f)) 1 HF Ha ltac:(lia) Hz) as [v1 H1].
    destruct (read_ok F (snd f) (abc_read (fst f)) 2 HF Ha ltac:(lia) Hz) as [v2 H2].
    exists v2. cbn [snd]. rewrite H0. cbn [bind]. rewrite H1. cbn [bind]. rewrite H2. reflexivity.
  Qed.

  (** The dictionary: the high face replaces the entry of the low face. *)
  Definition dict_for (s : Solver T) (D : AbcDict) : Prop := forall a, a < 3 ->
    D a = if is_abc s (true, a) then Some (keys_of (true, a))
          else if is_abc s (false, a) then Some (keys_of (false, a)) else None.

  Definition get_step (s : Solver T) (D : AbcDict) (f : bool * nat) : result AbcDict :=
    if is_abc s f then
      let ks := map (fun d => (face_name (fst f) d, plane_key (snd f) (abc_read (fst f)) d)) axes in
      do _ <- seq_upd (fun _ (p : string * key) => getitem (fun x => x) (sE s) (snd p)) {| shape := []; dat := [] |} ks;
      do _ <- seq_upd (fun _ (p : string * key) => getitem (fun x => x) (sH s) (snd p)) {| shape := []; dat := [] |} ks;
      Ok (dict_set D (snd f) ks)
    else Ok D.

  Lemma get_step_ok : forall s f D, abc_fit s -> snd f < 3 ->
    get_step s D f = Ok (if is_abc s f then dict_set D (snd f) (keys_of f) else D).
  Proof.
    intros s f D W Ha. unfold get_step. destruct (is_abc s f) eqn:Hf; [|reflexivity].
    destruct (face_in_axis s f W Ha Hf) as [Hr _]. destruct W as (HE & HH & _).
    fold (keys_of f).
    destruct (get_loop (sE s) f {| shape := []; dat := [] |} HE Ha Hr) as [v0 H0].
    destruct (get_loop (sH s) f {| shape := []; dat := [] |} HH Ha Hr) as [v1 H1].
    cbn zeta. rewrite H0. cbn [bind]. rewrite H1. reflexivity.
  Qed.

  Lemma get_abc_ok : forall s, abc_fit s -> exists D, get_abc s = Ok D /\ dict_for s D.
  Proof.
    intros s W. unfold get_abc. fold (get_step s).
    unfold abc_faces. cbn [seq_upd].
    repeat (rewrite get_step_ok; [|exact W|cbn; lia]; cbn [bind]).
    eexists. split; [reflexivity|].
    intros a Ha. cbn [snd].
    destruct (is_abc s (false, 0)) eqn:e0; destruct (is_abc s (false, 1)) eqn:e1; destruct (is_abc s (false, 2)) eqn:e2;
    destruct (is_abc s (true, 0)) eqn:e3; destruct (is_abc s (true, 1)) eqn:e4; destruct (is_abc s (true, 2)) eqn:e5;
    (destruct a as [|[|[|a]]]; [| | |lia]);
    rewrite ?e0, ?e1, ?e2, ?e3, ?e4, ?e5; reflexivity.
  Qed.

  Lemma lookup_keys : forall hi hi' a d, d < 3 ->
    lookup (face_name hi d) (keys_of (hi', a)) =
    if Bool.eqb hi hi' then Some (plane_key a (abc_read hi) d) else None.
  Proof. intros [|] [|] a d Hd; (destruct d as [|[|[|d]]]; [| | |lia]); reflexivity. Qed.

  Lemma assign_copy : forall D f (F : Field T) d, snd f < 3 -> d < 3 -> D (snd f) = Some (keys_of f) ->
    abc_assign D f F d = copy_plane F (snd f) (abc_write (fst f)) F (abc_read (fst f)) d.
  Proof.
    intros D [hi a] F d Ha Hd HD. unfold abc_assign. cbn [fst snd] in *. rewrite HD.
    rewrite lookup_keys by exact Hd. rewrite Bool.eqb_reflx. reflexivity.
  Qed.
  Lemma assign_key : forall D hi a (F : Field T) d, d < 3 -> D a = Some (keys_of (negb hi, a)) ->
    abc_assign D (hi, a) F d = Err KeyError.
  Proof.
    intros D hi a F d Hd HD. unfold abc_assign. cbn [fst snd]. rewrite HD.
    rewrite lookup_keys by exact Hd. destruct hi; reflexivity.
  Qed.

  Definition same_conf (s s' : Solver T) : Prop :=
    s' = with_fields s (sE s') (sH s') (sJ s).

  Lemma with_fields_id : forall s : Solver T, with_fields s (sE s) (sH s) (sJ s) = s.
  Proof. intros [ ]. reflexivity. Qed.
  Lemma same_conf_refl : forall s, same_conf s s.
  Proof. intros s. unfold same_conf. symmetry. apply with_fields_id. Qed.
  Lemma same_conf_trans : forall a b c, same_conf a b -> same_conf b c -> same_conf a c.
  Proof. unfold same_conf. intros a b c H1 H2. rewrite H1 in H2. exact H2. Qed.
  Lemma same_conf_abc : forall a b, same_conf a b -> forall f, is_abc b f = is_abc a f.
  Proof. unfold same_conf. intros a b H f. rewrite H. reflexivity. Qed.
  Lemma same_conf_fit : forall a b, same_conf a b -> abc_fit a -> sized (sE b) Nx Ny Nz -> sized (sH b) Nx Ny Nz -> abc_fit b.
  Proof.
    intros a b H (_ & _ & Px & Py & Pz & Hl) HE HH. repeat (split; try assumption).
    intros c Hc Hb. apply (Hl c Hc). rewrite <- (same_conf_abc a b H). exact Hb.
  Qed.

  (** One face: plane [write] takes the current values of plane [read]. *)
  Definition face_pos (f : bool * nat) (i j k : nat) : nat * nat * nat :=
    if fst f then (i, j, k)
    else set_coord (snd f) (Nat.max 1 (coord (snd f) i j k)) i j k.

  Definition face_step (D : AbcDict) (s : Solver T) (f : bool * nat) : result (Solver T) :=
    if is_abc s f then
      seq_upd (fun s d =>
        do E <- abc_assign D f (sE s) d;
        do H <- abc_assign D f (sH s) d;
        Ok (with_fields s E H (sJ s))) s axes
    else Ok s.

  Lemma copies3 : forall (F : Field T) f, sized F Nx Ny Nz -> snd f < 3 ->
    in_axis (dim (snd f) Nx Ny Nz) (abc_read (fst f)) -> in_axis (dim (snd f) Nx Ny Nz) (abc_write (fst f)) ->
    let cp F d := copy_plane F (snd f) (abc_write (fst f)) F (abc_read (fst f)) d in
    exists F0 F1 F2, cp F 0 = Ok F0 /\ cp F0 1 = Ok F1 /\ cp F1 2 = Ok F2 /\ sized F2 Nx Ny Nz /\
      forall c i j k, c < 3 -> i < Nx -> j < Ny -> k < Nz -> entry F2 c i j k = entry3 F c (face_pos f i j k).
  Proof.
    intros F f HF Ha Hr Hw cp.
    destruct (copy_plane_spec F F (snd f) _ _ 0 Nx Ny Nz HF HF ltac:(lia) Ha Hw Hr) as (F0 & C0 & S0 & V0).
    destruct (copy_plane_spec F0 F0 (snd f) _ _ 1 Nx Ny Nz S0 S0 ltac:(lia) Ha Hw Hr) as (F1 & C1 & S1 & V1).
    destruct (copy_plane_spec F1 F1 (snd f) _ _ 2 Nx Ny Nz S1 S1 ltac:(lia) Ha Hw Hr) as (F2 & C2 & S2 & V2).
    exists F0, F1, F2. repeat (split; [assumption|]).
    assert (R : forall i j k, i < Nx -> j < Ny -> k < Nz ->
       exists i' j' k', set_coord (snd f) (pypos (dim (snd f) Nx Ny Nz) (abc_read (fst f))) i j k = (i', j', k') /\
         i' < Nx /\ j' < Ny /\ k' < Nz).
    { intros i j k Hi Hj Hk. pose proof (pypos_lt _ _ Hr) as P.
      destruct f as [hi a]. cbn [snd fst] in *. destruct a as [|[|a]]; cbn [set_coord dim] in *; do 3 eexists; (split; [reflexivity|]); repeat split; assumption. }
    assert (B : forall c i j k, c < 3 -> i < Nx -> j < Ny -> k < Nz -> entry F2 c i j k =
      if (coord (snd f) i j k =? pypos (dim (snd f) Nx Ny Nz) (abc_write (fst f)))%nat
      then entry3 F c (set_coord (snd f) (pypos (dim (snd f) Nx Ny Nz) (abc_read (fst f))) i j k)
      else entry F c i j k).
    { intros c i j k Hc Hi Hj Hk. destruct (R i j k Hi Hj Hk) as (i' & j' & k' & E & Hi' & Hj' & Hk').
      rewrite V2 by assumption. rewrite !E. cbn [entry3].
      destruct c as [|[|[|c]]]; [| | |lia]; cbn [Nat.eqb andb].
      - rewrite V1 by (assumption || lia). cbn [Nat.eqb andb]. rewrite V0 by (assumption || lia). cbn [Nat.eqb andb].
        rewrite E. reflexivity.
      - rewrite V1 by (assumption || lia). cbn [Nat.eqb andb]. rewrite !E. cbn [entry3].
        rewrite !V0 by (assumption || lia). cbn [Nat.eqb andb]. reflexivity.
      - rewrite !V1 by (assumption || lia). cbn [Nat.eqb andb]. rewrite !V0 by (assumption || lia). reflexivity. }
    intros c i j k Hc Hi Hj Hk. rewrite B by assumption. unfold face_pos. destruct f as [hi a]. cbn [fst snd] in *.
    assert (1 <= dim a Nx Ny Nz /\ coord a i j k < dim a Nx Ny Nz) as [P1 P2]
      by (destruct a as [|[|a]]; cbn; lia).
    destruct hi; unfold abc_write, abc_read, pypos.
    - replace (-1 <? 0)%Z with true by reflexivity.
      destruct (Nat.eqb_spec (coord a i j k) (Z.to_nat (-1 + Z.of_nat (dim a Nx Ny Nz)))) as [e|_]; [|reflexivity].
      rewrite <- e. destruct a as [|[|a]]; reflexivity.
    - replace (0 <? 0)%Z with false by reflexivity. replace (1 <? 0)%Z with false by reflexivity.
      change (Z.to_nat 0) with 0. change (Z.to_nat 1) with 1.
      destruct (Nat.eqb_spec (coord a i j k) 0) as [e|n].
      + rewrite e. reflexivity.
      + replace (Nat.max 1 (coord a i j k)) with (coord a i j k) by lia.
        destruct a as [|[|a]]; reflexivity.
  Qed.

  Lemma face_step_ok : forall D s f, abc_fit s -> snd f < 3 ->
    (is_abc s f = true -> D (snd f) = Some (keys_of f)) ->
    exists s', face_step D s f = Ok s' /\ same_conf s s' /\ abc_fit s' /\
      forall c i j k, c < 3 -> i < Nx -> j < Ny -> k < Nz ->
        entry (sE s') c i j k = entry3 (sE s) c (if is_abc s f then face_pos f i j k else (i, j, k)) /\
        entry (sH s') c i j k = entry3 (sH s) c (if is_abc s f then face_pos f i j k else (i, j, k)).
  Proof.
    intros D s f W Ha HD. unfold face_step. destruct (is_abc s f) eqn:Hf.
    2:{ exists s. repeat (split; [reflexivity || apply same_conf_refl || exact W|]). intros. split; reflexivity. }
    specialize (HD eq_refl). destruct (face_in_axis s f W Ha Hf) as [Hr Hw].
    assert (HE := proj1 W). assert (HH := proj1 (proj2 W)).
    destruct (copies3 (sE s) f HE Ha Hr Hw) as (A0 & A1 & A2 & a0 & a1 & a2 & SA & VA).
    destruct (copies3 (sH s) f HH Ha Hr Hw) as (B0 & B1 & B2 & b0 & b1 & b2 & SB & VB).
    exists (with_fields s A2 B2 (sJ s)). unfold axes. cbn [seq_upd].
    rewrite !(assign_copy D f _ _ Ha) by (exact HD || lia).
    rewrite a0. cbn [bind]. rewrite b0. cbn [bind]. cbn [with_fields sE sH sJ].
    rewrite !(assign_copy D f _ _ Ha) by (exact HD || lia).
    rewrite a1. cbn [bind]. rewrite b1. cbn [bind]. cbn [with_fields sE sH sJ].
    rewrite !(assign_copy D f _ _ Ha) by (exact HD || lia).
    rewrite a2. cbn [bind]. rewrite b2. cbn [bind].
    assert (C : same_conf s (with_fields s A2 B2 (sJ s))) by reflexivity.
    split; [reflexivity|]. split; [exact C|]. split; [apply (same_conf_fit s _ C W); assumption|].
    intros c i j k Hc Hi Hj Hk. split; [apply VA | apply VB]; assumption.
  Qed.

  (** No axis absorbing on both sides: the low walls take layer 1, the high walls are untouched. *)
  Definition one_sided (s : Solver T) : Prop :=
    forall a, a < 3 -> is_abc s (false, a) = true -> is_abc s (true, a) = false.

  Definition walls_from (s s' : Solver T) : Prop :=
    forall c i j k, c < 3 -> i < Nx -> j < Ny -> k < Nz ->
      let p a q := shifted (is_abc s (false, a)) q in
      entry (sE s') c i j k = entry (sE s) c (p 0 i) (p 1 j) (p 2 k) /\
      entry (sH s') c i j k = entry (sH s) c (p 0 i) (p 1 j) (p 2 k).

  Lemma shifted_lt : forall b n i, i < n -> (b = true -> 2 <= n) -> shifted b i < n.
  Proof. intros [|] n i Hi H; unfold shifted; [specialize (H eq_refl); lia|exact Hi]. Qed.

  Lemma update_abc_ok : forall s D, abc_fit s -> one_sided s -> dict_for s D ->
    exists s', update_abc s D = Ok s' /\ same_conf s s' /\ abc_fit s' /\ walls_from s s'.
  Proof.
    intros s D W O HD. unfold update_abc. fold (face_step D). unfold abc_faces. cbn [seq_upd].
    assert (DD : forall f, snd f < 3 -> is_abc s f = true -> D (snd f) = Some (keys_of f)).
    { intros [[|] a] Ha Hf; cbn [snd] in *; rewrite (HD a Ha).
      - rewrite Hf. reflexivity.
      - rewrite (O a Ha Hf), Hf. reflexivity. }
    assert (ST : forall t f, same_conf s t -> abc_fit t -> snd f < 3 ->
      exists s', face_step D t f = Ok s' /\ same_conf s s' /\ abc_fit s' /\
      forall c i j k, c < 3 -> i < Nx -> j < Ny -> k < Nz ->
        entry (sE s') c i j k = entry3 (sE t) c (if is_abc s f then face_pos f i j k else (i, j, k)) /\
        entry (sH s') c i j k = entry3 (sH t) c (if is_abc s f then face_pos f i j k else (i, j, k))).
    { intros t f C Wt Ha. destruct (face_step_ok D t f Wt Ha) as (s' & E & C' & W' & V).
      - intros Hf. apply DD; [exact Ha|]. rewrite <- (same_conf_abc s t C). exact Hf.
      - exists s'. split; [exact E|]. split; [exact (same_conf_trans _ _ _ C C')|]. split; [exact W'|].
        rewrite (same_conf_abc s t C) in V. exact V. }
    destruct (ST s (false, 0) (same_conf_refl s) W ltac:(cbn; lia)) as (s1 & E1 & C1 & W1 & V1).
    rewrite E1. cbn [bind].
    destruct (ST s1 (false, 1) C1 W1 ltac:(cbn; lia)) as (s2 & E2 & C2 & W2 & V2). rewrite E2. cbn [bind].
    destruct (ST s2 (false, 2) C2 W2 ltac:(cbn; lia)) as (s3 & E3 & C3 & W3 & V3). rewrite E3. cbn [bind].
    destruct (ST s3 (true, 0) C3 W3 ltac:(cbn; lia)) as (s4 & E4 & C4 & W4 & V4). rewrite E4. cbn [bind].
    destruct (ST s4 (true, 1) C4 W4 ltac:(cbn; lia)) as (s5 & E5 & C5 & W5 & V5). rewrite E5. cbn [bind].
    destruct (ST s5 (true, 2) C5 W5 ltac:(cbn; lia)) as (s6 & E6 & C6 & W6 & V6). rewrite E6. cbn [bind].
    exists s6. split; [reflexivity|]. split; [exact C6|]. split; [exact W6|].
    intros c i j k Hc Hi Hj Hk p.
    assert (Q : forall f, fst f = true -> (if is_abc s f then face_pos f i j k else (i, j, k)) = (i, j, k)).
    { intros f Hf. unfold face_pos. rewrite Hf. destruct (is_abc s f); reflexivity. }
    destruct (V6 c i j k Hc Hi Hj Hk) as [e6 h6]. rewrite (Q (true, 2) eq_refl) in e6, h6. cbn [entry3] in e6, h6.
    destruct (V5 c i j k Hc Hi Hj Hk) as [e5 h5]. rewrite (Q (true, 1) eq_refl) in e5, h5. cbn [entry3] in e5, h5.
    destruct (V4 c i j k Hc Hi Hj Hk) as [e4 h4]. rewrite (Q (true, 0) eq_refl) in e4, h4. cbn [entry3] in e4, h4.
    rewrite e6, e5, e4, h6, h5, h4. clear e6 e5 e4 h6 h5 h4.
    destruct W as (_ & _ & _ & _ & _ & Hl).
    assert (Hk2 : p 2 k < Nz) by (apply shifted_lt; [exact Hk|apply (Hl 2); lia]).
    assert (Hj2 : p 1 j < Ny) by (apply shifted_lt; [exact Hj|apply (Hl 1); lia]).
    destruct (V3 c i j k Hc Hi Hj Hk) as [e3 h3].
    assert (P3 : (if is_abc s (false, 2) then face_pos (false, 2) i j k else (i, j, k)) = (i, j, p 2 k))
      by (unfold p, shifted; destruct (is_abc s (false, 2)); reflexivity).
    rewrite P3 in e3, h3. cbn [entry3] in e3, h3. rewrite e3, h3.
    destruct (V2 c i j (p 2 k) Hc Hi Hj Hk2) as [e2 h2].
    assert (P2 : (if is_abc s (false, 1) then face_pos (false, 1) i j (p 2 k) else (i, j, p 2 k)) = (i, p 1 j, p 2 k))
      by (unfold p, shifted; destruct (is_abc s (false, 1)); reflexivity).
    rewrite P2 in e2, h2. cbn [entry3] in e2, h2. rewrite e2, h2.
    destruct (V1 c i (p 1 j) (p 2 k) Hc Hi Hj2 Hk2) as [e1 h1].
    assert (P1 : (if is_abc s (false, 0) then face_pos (false, 0) i (p 1 j) (p 2 k) else (i, p 1 j, p 2 k)) = (p 0 i, p 1 j, p 2 k))
      by (unfold p, shifted; destruct (is_abc s (false, 0)); reflexivity).
    rewrite P1 in e1, h1. cbn [entry3] in e1, h1. rewrite e1, h1. split; reflexivity.
  Qed.

  (** Some axis absorbing on both sides: the name of the low face is gone from the dictionary. *)
  Lemma update_abc_key : forall s D, abc_fit s -> dict_for s D ->
    (exists a, a < 3 /\ is_abc s (false, a) = true /\ is_abc s (true, a) = true) ->
    update_abc s D = Err KeyError.
  Proof.
    intros s D W HD HB. unfold update_abc. fold (face_step D). unfold abc_faces. cbn [seq_upd].
    assert (BAD : forall t a, same_conf s t -> a < 3 -> is_abc s (false, a) = true -> is_abc s (true, a) = true ->
      face_step D t (false, a) = Err KeyError).
    { intros t a C Ha Hl Hh. unfold face_step. rewrite (same_conf_abc s t C), Hl. unfold axes. cbn [seq_upd].
      rewrite assign_key; [reflexivity|lia|]. rewrite (HD a Ha), Hh. reflexivity. }
    assert (GOOD : forall t a, same_conf s t -> abc_fit t -> a < 3 ->
      (is_abc s (false, a) = true -> is_abc s (true, a) = false) ->
      exists s', face_step D t (false, a) = Ok s' /\ same_conf s s' /\ abc_fit s').
    { intros t a C Wt Ha H. destruct (face_step_ok D t (false, a) Wt Ha) as (s' & E & C' & W' & _).
      - cbn [snd]. intros Hf. rewrite (same_conf_abc s t C) in Hf. rewrite (HD a Ha), (H Hf), Hf. reflexivity.
      - exists s'. repeat (split; [first [assumption | exact (same_conf_trans _ _ _ C C')]|]). exact W'. }
    assert (DEC : forall a, (is_abc s (false, a) = true /\ is_abc s (true, a) = true) \/
      (is_abc s (false, a) = true -> is_abc s (true, a) = false)).
    { intros a. destruct (is_abc s (false, a)), (is_abc s (true, a)); auto; right; intros; congruence. }
    destruct (DEC 0) as [[x y]|G0].
    { rewrite (BAD s 0 (same_conf_refl s)) by (assumption || lia). reflexivity. }
    destruct (GOOD s 0 (same_conf_refl s) W ltac:(lia) G0) as (s1 & E1 & C1 & W1). rewrite E1. cbn [bind].
    destruct (DEC 1) as [[x y]|G1].
    { rewrite (BAD s1 1 C1) by (assumption || lia). reflexivity. }
    destruct (GOOD s1 1 C1 W1 ltac:(lia) G1) as (s2 & E2 & C2 & W2). rewrite E2. cbn [bind].
    destruct (DEC 2) as [[x y]|G2].
    { rewrite (BAD s2 2 C2) by (assumption || lia). reflexivity. }
    destruct HB as (a & Ha & Hl & Hh). destruct a as [|[|[|a]]]; [| | |lia].
    - rewrite (G0 Hl) in Hh. discriminate.
    - rewrite (G1 Hl) in Hh. discriminate.
    - rewrite (G2 Hl) in Hh. discriminate.
  Qed.
End Routines.
