(** Lemmas: every schedule of a program made of phases "compute, then exchange halos" reaches the
    state of the synchronous execution, and never blocks. *)
From Coq Require Import List Arith ZArith Bool Lia.
From Verif Require Import Num Vec MpiModel.
Import ListNotations.

Section Comm.
  Context {St Msg : Type}.
  Context (sendbuf : nat -> bool -> nat -> St -> Msg) (recvbuf : nat -> bool -> nat -> Msg -> St -> St).
  Context (size P : nat).
  (** Phase [p]: the computation [floc p], then an exchange of field [f] if [fcom p = Some f]. *)
  Context (floc : nat -> nat -> St -> result St) (fcom : nat -> option nat).
  Context (G mid : nat -> nat -> St).

  Definition is_com (p : nat) : bool := match fcom p with Some _ => true | None => false end.
  Definition ffld (p : nat) : nat := match fcom p with Some f => f | None => 0 end.
  Definition base (r : nat) : nat := if 0 <? r then 3 else 0.
  Definition nops (r p : nat) : nat := if is_com p then base r + (if r <? size - 1 then 3 else 0) else 0.
  Definition op_hi (r q : nat) : bool := base r <=? q.
  Definition op_d (r q : nat) : nat := if base r <=? q then q - base r else q.
  Definition put (r p q : nat) (s : St) : St :=
    recvbuf (ffld p) (op_hi r q) (op_d r q) (sendbuf (ffld p) (negb (op_hi r q)) (op_d r q) (mid p (peer r (op_hi r q)))) s.
  Definition after (r p n : nat) : St := fold_left (fun s q => put r p q s) (seq 0 n) (mid p r).

  (** Receiving does not touch the layers that are sent. *)
  Context (indep : forall r p n q, p < P -> r < size -> n <= nops r p -> q < nops r p ->
             sendbuf (ffld p) (op_hi r q) (op_d r q) (after r p n) = sendbuf (ffld p) (op_hi r q) (op_d r q) (mid p r)).
  Context (HG : forall p r, p < P -> r < size -> floc p r (G p r) = Ok (mid p r))
          (HS : forall p r, p < P -> r < size -> G (S p) r = after r p (nops r p)).

  Definition sr (r p q : nat) : instr St := Sendrecv (ffld p) (op_hi r q) (op_d r q).
  Definition phase_code (r p : nat) : list (instr St) :=
    Local (floc p r) :: match fcom p with Some f => communicate size r f | None => [] end.
  Definition code_ph (r p : nat) : list (instr St) := flat_map (phase_code r) (seq p (P - p)).
  Definition code_ops (r p q : nat) : list (instr St) := map (sr r p) (seq q (nops r p - q)) ++ code_ph r (S p).

  Lemma comm_ops r p : match fcom p with Some f => communicate size r f | None => [] end = map (sr r p) (seq 0 (nops r p)).
  Proof.
    unfold communicate, sr, nops, ffld, is_com, op_hi, op_d, base. destruct (fcom p); [|reflexivity].
    destruct (0 <? r), (r <? size - 1); reflexivity.
  Qed.
  Lemma code_ph_local r p : p < P -> code_ph r p = Local (floc p r) :: code_ops r p 0.
  Proof.
    intros H. unfold code_ph, code_ops. replace (P - p) with (S (P - S p)) by lia. cbn [seq flat_map].
    unfold phase_code at 1. rewrite comm_ops, Nat.sub_0_r. reflexivity.
  Qed.
  Lemma code_ops_more r p q : q < nops r p -> code_ops r p q = sr r p q :: code_ops r p (S q).
  Proof. intros H. unfold code_ops. replace (nops r p - q) with (S (nops r p - S q)) by lia. reflexivity. Qed.
  Lemma code_ops_last r p q : nops r p <= q -> code_ops r p q = code_ph r (S p).
  Proof. intros H. unfold code_ops. replace (nops r p - q) with 0 by lia. reflexivity. Qed.
  Lemma code_ph_fin r : code_ph r P = [].
  Proof. unfold code_ph. rewrite Nat.sub_diag. reflexivity. Qed.

  (** Number of exchanges before phase [p], and the phase of the [m]-th exchange. *)
  Definition nc (p : nat) : nat := List.length (filter is_com (seq 0 p)).
  Definition cph (m : nat) : nat := nth m (filter is_com (seq 0 P)) 0.
  Lemma nc_S p : nc (S p) = nc p + (if is_com p then 1 else 0).
  Proof. unfold nc. rewrite seq_S, filter_app, app_length. cbn [plus filter]. destruct (is_com p); reflexivity. Qed.
  Lemma nc_mono p q : p <= q -> nc p <= nc q.
  Proof. induction 1; [lia|]. rewrite nc_S. lia. Qed.
  Lemma cph_nc p : p < P -> is_com p = true -> cph (nc p) = p.
  Proof.
    intros H E. unfold cph, nc. replace P with (p + S (P - S p)) by lia. rewrite seq_app, filter_app. cbn [plus seq filter].
    rewrite E, app_nth2, Nat.sub_diag by lia. reflexivity.
  Qed.
  Lemma nops_com r p q : q < nops r p -> is_com p = true.
  Proof. unfold nops. destruct (is_com p); [reflexivity|lia]. Qed.

  (** ** Positions *)
  Inductive pos : Type := PLoc (p : nat) | POp (p q : nat).
  Definition b2n (b : bool) : nat := if b then 1 else 0.
  Definition rank_ok (r : nat) (x : Rank St) (c : pos) : Prop :=
    match c with
    | PLoc p => p <= P /\ rcode x = code_ph r p /\ rst x = G p r /\ rposted x = false /\ rsent x = false /\ rrecvd x = false
    | POp p q => p < P /\ q < nops r p /\ rcode x = code_ops r p q /\ rst x = after r p (q + b2n (rrecvd x)) /\
                 (rposted x = false -> rsent x = false /\ rrecvd x = false)
    end.
  Definition dn (r : nat) (hi : bool) (q : nat) : nat := if hi then q - base r else Nat.min q (base r).
  Definition cnt (r : nat) (hi fl : bool) (c : pos) : nat :=
    match c with
    | PLoc p => 3 * nc p
    | POp p q => 3 * nc p + dn r hi q + b2n (fl && Bool.eqb (op_hi r q) hi)
    end.
  Definition sentN (w : World St Msg) (pi : nat -> pos) r hi : nat := cnt r hi (rsent (wrank w r)) (pi r).
  Definition recvN (w : World St Msg) (pi : nat -> pos) r hi : nat := cnt r hi (rrecvd (wrank w r)) (pi r).
  Definition valid (r : nat) (hi : bool) : Prop := if hi then S r < size else 0 < r.
  Definition msgof (r : nat) (hi : bool) (n : nat) : Msg := sendbuf (ffld (cph (n / 3))) hi (n mod 3) (mid (cph (n / 3)) r).
  Definition link w pi r hi : Prop :=
    recvN w pi (peer r hi) (negb hi) <= sentN w pi r hi /\
    wchan w r (peer r hi) (sendtag hi) =
      map (msgof r hi) (seq (recvN w pi (peer r hi) (negb hi)) (sentN w pi r hi - recvN w pi (peer r hi) (negb hi))).
  Definition Inv w pi : Prop :=
    (forall r, r < size -> rank_ok r (wrank w r) (pi r)) /\
    (forall r hi, r < size -> valid r hi -> link w pi r hi).

  Definition setp (pi : nat -> pos) r c : nat -> pos := fun n => if n =? r then c else pi n.

  Lemma peer_valid r hi : r < size -> valid r hi -> peer r hi < size /\ valid (peer r hi) (negb hi) /\
    peer (peer r hi) (negb hi) = r /\ peer r hi <> r /\ sendtag hi = recvtag (negb hi) /\ recvtag hi = sendtag (negb hi).
  Proof. destruct hi; cbn; intros; repeat split; lia. Qed.
  Lemma op_valid r p q : r < size -> q < nops r p -> valid r (op_hi r q).
  Proof.
    unfold nops, op_hi, valid, base. intros Hr Hq. destruct (is_com p); [|lia]. destruct (Nat.ltb_spec 0 r), (Nat.ltb_spec r (size - 1));
    match goal with |- context [?a <=? ?b] => destruct (Nat.leb_spec a b) end; lia.
  Qed.
  Lemma base_valid r p : (valid r false -> base r = 3) /\ (valid r true -> is_com p = true -> nops r p = base r + 3).
  Proof.
    unfold valid, base, nops. split; intros H.
    - destruct (Nat.ltb_spec 0 r); [reflexivity|lia].
    - intros ->. destruct (Nat.ltb_spec r (size - 1)); [reflexivity|lia].
  Qed.
  Lemma op_d_lt r p q : q < nops r p -> op_d r q < 3 /\ dn r (op_hi r q) q = op_d r q.
  Proof.
    unfold nops, op_d, op_hi, dn, base. intros H. destruct (is_com p); [|lia]. destruct (0 <? r), (r <? size - 1);
    match goal with |- context [?a <=? ?b] => destruct (Nat.leb_spec a b) end; split; lia.
  Qed.
  Lemma dn_succ r hi q : dn r hi (S q) = dn r hi q + b2n (Bool.eqb (op_hi r q) hi).
  Proof.
    unfold dn, op_hi. destruct hi; match goal with |- context [?a <=? ?b] => destruct (Nat.leb_spec a b) end; cbn [Bool.eqb b2n]; lia.
  Qed.
  Lemma dn_full r p hi : valid r hi -> is_com p = true -> dn r hi (nops r p) = 3.
  Proof.
    intros H Hc. destruct (base_valid r p) as [A B]. unfold dn. destruct hi.
    - rewrite (B H Hc). lia.
    - rewrite (A H). unfold nops. rewrite (A H), Hc. lia.
  Qed.
  Lemma dn_zero r hi : dn r hi 0 = 0.
  Proof. unfold dn. destruct hi; lia. Qed.

  Lemma msg_index p d : d < 3 -> (3 * p + d) / 3 = p /\ (3 * p + d) mod 3 = d.
  Proof.
    intros H. rewrite (Nat.mul_comm 3 p), Nat.add_comm. split.
    - rewrite Nat.div_add by lia. rewrite Nat.div_small by lia. reflexivity.
    - rewrite Nat.mod_add by lia. apply Nat.mod_small. lia.
  Qed.
  Lemma after_S r p n : after r p (S n) = put r p n (after r p n).
  Proof. unfold after. rewrite seq_S, fold_left_app. reflexivity. Qed.

  (** A change of one rank that keeps its counts keeps the links. *)
  Lemma links_keep w pi r x c :
    (forall hi, valid r hi -> cnt r hi (rsent x) c = sentN w pi r hi /\ cnt r hi (rrecvd x) c = recvN w pi r hi) ->
    (forall r0 hi, r0 < size -> valid r0 hi -> link w pi r0 hi) -> r < size ->
    forall r0 hi, r0 < size -> valid r0 hi -> link (set_rank w r x) (setp pi r c) r0 hi.
  Proof.
    intros Hc HL Hr r0 hi H0 V. destruct (HL r0 hi H0 V) as [A B].
    destruct (peer_valid r0 hi H0 V) as (P1 & P2 & P3 & P4 & _).
    assert (Es : sentN (set_rank w r x) (setp pi r c) r0 hi = sentN w pi r0 hi).
    { unfold sentN at 1, setp, set_rank. cbn [wrank]. destruct (Nat.eqb_spec r0 r) as [->|N]; [apply Hc, V|reflexivity]. }
    assert (Er : recvN (set_rank w r x) (setp pi r c) (peer r0 hi) (negb hi) = recvN w pi (peer r0 hi) (negb hi)).
    { unfold recvN at 1, setp, set_rank. cbn [wrank]. destruct (Nat.eqb_spec (peer r0 hi) r) as [E|N]; [subst r; apply Hc, P2|reflexivity]. }
    unfold link. rewrite Es, Er. split; [exact A|exact B].
  Qed.

  Lemma ranks_set (w : World St Msg) pi r x c : (forall r0, r0 < size -> rank_ok r0 (wrank w r0) (pi r0)) -> rank_ok r x c ->
    forall r0, r0 < size -> rank_ok r0 (wrank (set_rank w r x) r0) (setp pi r c r0).
  Proof.
    intros H Hx r0 H0. unfold set_rank, setp. cbn [wrank]. destruct (Nat.eqb_spec r0 r) as [->|N]; [exact Hx|apply H, H0].
  Qed.

  (** Which position a rank with a given next instruction is in. *)
  Lemma at_local r x c f l : rank_ok r x c -> rcode x = Local f :: l ->
    exists p, c = PLoc p /\ p < P /\ rst x = G p r /\ f = floc p r /\ l = code_ops r p 0.
  Proof.
    destruct c as [p|p q]; cbn.
    - intros (Hp & Hc & Hs & _) E. exists p. split; [reflexivity|].
      rewrite Hc in E. destruct (Nat.eq_dec p P) as [->|N].
      + rewrite code_ph_fin in E. discriminate.
      + rewrite code_ph_local in E by lia. injection E as <- <-. split; [lia|]. auto.
    - intros (Hp & Hq & Hc & _) E. rewrite Hc, code_ops_more in E by exact Hq. discriminate.
  Qed.
  Lemma at_op r x c fld hi d l : rank_ok r x c -> rcode x = Sendrecv fld hi d :: l ->
    exists p q, c = POp p q /\ p < P /\ q < nops r p /\ fld = ffld p /\ hi = op_hi r q /\ d = op_d r q /\
      l = code_ops r p (S q) /\ rst x = after r p (q + b2n (rrecvd x)) /\
      (rposted x = false -> rsent x = false /\ rrecvd x = false).
  Proof.
    destruct c as [p|p q]; cbn.
    - intros (Hp & Hc & Hs & _) E. rewrite Hc in E. destruct (Nat.eq_dec p P) as [->|N].
      + rewrite code_ph_fin in E. discriminate.
      + rewrite code_ph_local in E by lia. discriminate.
    - intros (Hp & Hq & Hc & Hs & Hf) E. exists p, q. rewrite Hc, code_ops_more in E by exact Hq.
      unfold sr in E. injection E as <- <- <- <-. repeat (split; [first [reflexivity|assumption]|]). exact Hf.
  Qed.
  Ltac rk := cbn [rank_ok next_rank mark rcode rst rposted rsent rrecvd b2n].
  Lemma next_loc r p q : r < size -> p < P -> q < nops r p ->
    exists c, rank_ok r (next_rank (after r p (S q)) (code_ops r p (S q))) c /\
      forall hi, valid r hi -> cnt r hi false c = 3 * nc p + dn r hi (S q).
  Proof.
    intros Hr Hp Hq. pose proof (nops_com r p q Hq) as Ec. destruct (Nat.eq_dec (S q) (nops r p)) as [E|N].
    - exists (PLoc (S p)). split.
      + rk. split; [lia|]. split; [apply code_ops_last; lia|]. split; [rewrite E; symmetry; apply HS; assumption|]. auto.
      + intros hi V. cbn [cnt]. rewrite E, (dn_full r p hi V Ec), nc_S, Ec. lia.
    - exists (POp p (S q)). split.
      + rk. split; [exact Hp|]. split; [lia|]. split; [reflexivity|]. split; [rewrite Nat.add_0_r; reflexivity|auto].
      + intros hi V. cbn [cnt andb b2n]. lia.
  Qed.

  Lemma setp_same pi r : forall n, setp pi r (pi r) n = pi n.
  Proof. intros n. unfold setp. destruct (Nat.eqb_spec n r) as [->|]; reflexivity. Qed.

  Lemma cnt_POp_flag r hi p q :
    cnt r hi true (POp p q) = (if Bool.eqb (op_hi r q) hi then S (cnt r hi false (POp p q)) else cnt r hi false (POp p q)).
  Proof. cbn [cnt andb]. destruct (Bool.eqb (op_hi r q) hi); cbn [b2n]; lia. Qed.
  Lemma cnt_cur r p q : q < nops r p -> cnt r (op_hi r q) false (POp p q) = 3 * nc p + op_d r q /\ op_d r q < 3.
  Proof. intros H. destruct (op_d_lt r p q H) as [A B]. cbn [cnt andb b2n]. rewrite B. split; [lia|exact A]. Qed.

  Lemma inv_buffer w pi r fld hi d c : Inv w pi -> r < size -> rcode (wrank w r) = Sendrecv fld hi d :: c ->
      rposted (wrank w r) = true -> rsent (wrank w r) = false ->
    Inv (set_chan (set_rank w r (mark (wrank w r) true true (rrecvd (wrank w r)) (rst (wrank w r))))
           r (peer r hi) (sendtag hi)
           (wchan w r (peer r hi) (sendtag hi) ++ [sendbuf fld hi d (rst (wrank w r))])) pi.
  Proof.
    intros [HR HL] Hr Hc Hp Hs.
    destruct (at_op r _ (pi r) fld hi d c (HR r Hr) Hc) as (p & q & Ep & Lp & Lq & -> & -> & -> & -> & Es & Hfl).
    pose proof (op_valid r p q Hr Lq) as V0. destruct (peer_valid r _ Hr V0) as (P1 & P2 & P3 & P4 & P5 & P6).
    split.
    + intros r0 H0. unfold set_chan, set_rank. cbn [wrank]. destruct (Nat.eqb_spec r0 r) as [->|N]; [|apply HR, H0].
      rewrite Ep. rk. split; [exact Lp|]. split; [exact Lq|]. split; [rewrite Hc; symmetry; apply code_ops_more; exact Lq|].
      split; [exact Es|discriminate].
    + intros r0 hi H0 V. destruct (HL r0 hi H0 V) as [A B]. destruct (peer_valid r0 hi H0 V) as (Q1 & Q2 & Q3 & Q4 & _).
      set (w1 := set_chan _ _ _ _ _).
      assert (Er : recvN w1 pi (peer r0 hi) (negb hi) = recvN w pi (peer r0 hi) (negb hi)).
      { unfold recvN, w1, set_chan, set_rank. cbn [wrank]. destruct (Nat.eqb_spec (peer r0 hi) r) as [->|]; reflexivity. }
      destruct (cnt_cur r p q Lq) as [Cc Cd].
      assert (Es' : sentN w1 pi r0 hi = if (r0 =? r) && Bool.eqb (op_hi r q) hi then S (sentN w pi r0 hi) else sentN w pi r0 hi).
      { unfold sentN, w1, set_chan, set_rank. cbn [wrank]. destruct (Nat.eqb_spec r0 r) as [->|]; [|reflexivity].
        cbn [mark rsent andb]. rewrite Ep, Hs, cnt_POp_flag. reflexivity. }
      unfold link. rewrite Er, Es'. unfold w1 at 1, set_chan. cbn [wchan set_rank].
      destruct (Nat.eqb_spec r0 r) as [->|N]; cbn [andb].
      * destruct (Bool.eqb (op_hi r q) hi) eqn:Eh.
        -- apply eqb_prop in Eh. subst hi. rewrite !Nat.eqb_refl. cbn [andb]. split; [lia|].
           rewrite B. set (a := recvN w pi (peer r (op_hi r q)) (negb (op_hi r q))) in *. set (b := sentN w pi r (op_hi r q)) in *.
           replace (S b - a) with (S (b - a)) by lia. rewrite seq_S, map_app. f_equal. cbn [map]. f_equal.
           replace (a + (b - a)) with b by lia.
           assert (Eb : b = 3 * nc p + op_d r q) by (unfold b, sentN; rewrite Ep, Hs; exact Cc).
           rewrite Eb. unfold msgof. destruct (msg_index (nc p) (op_d r q) Cd) as [-> ->]. rewrite cph_nc by (try exact Lp; exact (nops_com _ _ _ Lq)). rewrite Es. apply indep; [exact Lp|exact Hr|destruct (rrecvd (wrank w r)); cbn [b2n]; lia|exact Lq].
        -- destruct ((peer r hi =? peer r (op_hi r q)) && (sendtag hi =? sendtag (op_hi r q))) eqn:E.
           ++ exfalso. apply andb_prop in E. destruct E as [_ E]. apply Nat.eqb_eq in E. destruct hi, (op_hi r q); cbn in *; discriminate.
           ++ split; [exact A|exact B].
      * split; [exact A|exact B].
  Qed.
  Lemma inv_deliver w pi r fld hi d c m l : Inv w pi -> r < size -> rcode (wrank w r) = Sendrecv fld hi d :: c ->
      rposted (wrank w r) = true -> rrecvd (wrank w r) = false ->
      wchan w (peer r hi) r (recvtag hi) = m :: l ->
    Inv (set_chan (set_rank w r (mark (wrank w r) true (rsent (wrank w r)) true (recvbuf fld hi d m (rst (wrank w r)))))
           (peer r hi) r (recvtag hi) l) pi.
  Proof.
    intros [HR HL] Hr Hc Hp Hv Hm.
    destruct (at_op r _ (pi r) fld hi d c (HR r Hr) Hc) as (p & q & Ep & Lp & Lq & -> & -> & -> & -> & Es & Hfl).
    pose proof (op_valid r p q Hr Lq) as V0. destruct (peer_valid r _ Hr V0) as (P1 & P2 & P3 & P4 & P5 & P6).
    destruct (cnt_cur r p q Lq) as [Cc Cd].
    set (o := op_hi r q) in *. destruct (HL (peer r o) (negb o) P1 P2) as [A0 B0]. rewrite P3, negb_involutive in A0, B0.
    assert (Ec : recvN w pi r o = 3 * nc p + op_d r q) by (unfold recvN; rewrite Ep, Hv; exact Cc).
    rewrite <- P6, Hm in B0.
    assert (Lt : recvN w pi r o < sentN w pi (peer r o) (negb o)).
    { destruct (sentN w pi (peer r o) (negb o) - recvN w pi r o) eqn:E; [discriminate|lia]. }
    replace (sentN w pi (peer r o) (negb o) - recvN w pi r o) with (S (sentN w pi (peer r o) (negb o) - S (recvN w pi r o))) in B0 by lia.
    cbn [seq map] in B0. injection B0 as Em El.
    assert (Em' : recvbuf (ffld p) o (op_d r q) m (rst (wrank w r)) = after r p (S q)).
    { rewrite after_S, Es, Hv. cbn [b2n]. rewrite Nat.add_0_r. unfold put. fold o. rewrite Em, Ec. unfold msgof.
      destruct (msg_index (nc p) (op_d r q) Cd) as [-> ->]. rewrite cph_nc by (try exact Lp; exact (nops_com _ _ _ Lq)). reflexivity. }
    split.
    + intros r0 H0. unfold set_chan, set_rank. cbn [wrank]. destruct (Nat.eqb_spec r0 r) as [->|N]; [|apply HR, H0].
      rewrite Ep. rk. split; [exact Lp|]. split; [exact Lq|]. split; [rewrite Hc; symmetry; apply code_ops_more; exact Lq|].
      split; [rewrite Em', Nat.add_1_r; reflexivity|discriminate].
    + intros r0 hi H0 V. destruct (HL r0 hi H0 V) as [A B]. destruct (peer_valid r0 hi H0 V) as (Q1 & Q2 & Q3 & Q4 & Q5 & _).
      set (w1 := set_chan _ _ _ _ _).
      assert (Es' : sentN w1 pi r0 hi = sentN w pi r0 hi).
      { unfold sentN, w1, set_chan, set_rank. cbn [wrank]. destruct (Nat.eqb_spec r0 r) as [->|]; reflexivity. }
      assert (Er : recvN w1 pi (peer r0 hi) (negb hi) =
        if (peer r0 hi =? r) && Bool.eqb o (negb hi) then S (recvN w pi (peer r0 hi) (negb hi)) else recvN w pi (peer r0 hi) (negb hi)).
      { unfold recvN, w1, set_chan, set_rank. cbn [wrank]. destruct (Nat.eqb_spec (peer r0 hi) r) as [->|]; [|reflexivity].
        cbn [mark rrecvd andb]. rewrite Ep, Hv, cnt_POp_flag. reflexivity. }
      unfold link. rewrite Es', Er. unfold w1 at 1, set_chan. cbn [wchan set_rank].
      destruct (Nat.eqb_spec (peer r0 hi) r) as [E|N]; cbn [andb].
      * rewrite E in *. destruct (Bool.eqb o (negb hi)) eqn:Eh.
        -- apply eqb_prop in Eh. assert (hi = negb o) by (destruct hi, o; cbn in *; congruence). subst hi.
           assert (r0 = peer r o) by (rewrite negb_involutive in Q3; congruence). subst r0.
           rewrite <- P6, !Nat.eqb_refl. cbn [andb]. rewrite negb_involutive in *. split; [lia|].
           rewrite Nat.eqb_refl. exact El.
        -- destruct ((r0 =? peer r o) && true && (sendtag hi =? recvtag o)) eqn:E'.
           ++ exfalso. apply andb_prop in E'. destruct E' as [_ E']. apply Nat.eqb_eq in E'. destruct hi, o; cbn in *; discriminate.
           ++ split; [exact A|exact B].
      * rewrite andb_false_r. cbn [andb]. split; [exact A|exact B].
  Qed.
  Lemma inv_ext w w' pi : (forall r, wrank w r = wrank w' r) -> (forall a b t, wchan w a b t = wchan w' a b t) ->
    Inv w pi -> Inv w' pi.
  Proof.
    intros E1 E2 [HR HL]. split.
    - intros r Hr. rewrite <- E1. apply HR, Hr.
    - intros r hi Hr V. unfold link, sentN, recvN in *. rewrite <- !E1, <- E2. apply HL; assumption.
  Qed.

  Lemma inv_step eg w pi w' : Inv w pi -> wstep sendbuf recvbuf eg size w w' -> exists pi', Inv w' pi'.
  Proof.
    intros [HR HL] St1. destruct St1 as [w r f c s Hr Hc Hf|w r fld hi d c Hr Hc Hp|w r fld hi d c _ Hr Hc Hp Hs
      |w r fld hi d c m l Hr Hc Hp Hv Hm|w r q0 fld hi d c fld' hi' d' c' Hr Hq Hne Hc Hp Hs Hc' Hp' Hv' Hpr Hpq Ht Hch|w r fld hi d c Hr Hc Hp Hs Hv].
    - (* local *)
      destruct (at_local r _ (pi r) f c (HR r Hr) Hc) as (p & Ep & Lp & Es & -> & ->).
      rewrite Es, (HG p r Lp Hr) in Hf. injection Hf as <-.
      destruct (Nat.eq_dec (nops r p) 0) as [E0|N0].
      + exists (setp pi r (PLoc (S p))). split.
        * apply ranks_set; [exact HR|]. rk. split; [lia|]. split; [apply code_ops_last; lia|].
          split; [rewrite (HS p r Lp Hr), E0; reflexivity|auto].
        * apply links_keep; [|exact HL|exact Hr]. intros hi V. destruct (is_com p) eqn:Ec.
          -- exfalso. destruct (base_valid r p) as [A B]. destruct hi; [rewrite (B V Ec) in E0; lia|].
             unfold nops in E0. rewrite Ec, (A V) in E0. lia.
          -- unfold sentN, recvN. rewrite Ep. cbn [cnt]. rewrite nc_S, Ec, Nat.add_0_r. split; reflexivity.
      + exists (setp pi r (POp p 0)). split.
        * apply ranks_set; [exact HR|]. rk. split; [lia|]. split; [lia|]. split; [reflexivity|]. split; [reflexivity|auto].
        * apply links_keep; [|exact HL|exact Hr]. intros hi V. unfold sentN, recvN. rewrite Ep. cbn [cnt next_rank rsent rrecvd andb b2n].
          rewrite dn_zero. lia.
    - (* post *)
      destruct (at_op r _ (pi r) fld hi d c (HR r Hr) Hc) as (p & q & Ep & Lp & Lq & -> & -> & -> & -> & Es & Hfl).
      destruct (Hfl Hp) as [F1 F2]. exists (setp pi r (POp p q)). split.
      + apply ranks_set; [exact HR|]. rk. split; [exact Lp|]. split; [exact Lq|]. split; [rewrite Hc; symmetry; apply code_ops_more; exact Lq|].
        split; [rewrite Es, F2; reflexivity|discriminate].
      + apply links_keep; [|exact HL|exact Hr]. intros hi V. unfold sentN, recvN. rewrite Ep, F1, F2. split; reflexivity.
    - (* buffer *)
      exists pi. eapply inv_buffer; try eassumption. split; assumption.
    - (* deliver *)
      exists pi. eapply inv_deliver; try eassumption. split; assumption.
    - (* meet: a buffered send followed by its delivery *)
      subst q0. pose proof (inv_buffer w pi r fld hi d c (conj HR HL) Hr Hc Hp Hs) as I1.
      rewrite Hch in I1. cbn [app] in I1. set (w1 := set_chan _ _ _ _ _) in I1.
      assert (Eq : wrank w1 (peer r hi) = wrank w (peer r hi)).
      { unfold w1, set_chan, set_rank. cbn [wrank]. destruct (Nat.eqb_spec (peer r hi) r); [congruence|reflexivity]. }
      assert (Ehi : hi' = negb hi) by (destruct hi, hi'; cbn in *; congruence). 
      exists pi. refine (inv_ext _ _ pi _ _ (inv_deliver w1 pi (peer r hi) fld' hi' d' c' (sendbuf fld hi d (rst (wrank w r))) [] I1 Hq _ _ _ _)).
      + intros n. rewrite !Eq. cbn [set_chan set_rank wrank].
        destruct (Nat.eqb_spec (peer r hi) r); [congruence|]. destruct (Nat.eqb_spec n (peer r hi)); reflexivity.
      + intros a b t. unfold w1, set_chan, set_rank. cbn [wchan]. rewrite Hpq, <- Ht.
        destruct ((a =? r) && (b =? peer r hi) && (t =? sendtag hi)) eqn:E; [|reflexivity].
        apply andb_prop in E. destruct E as [E Ec]. apply andb_prop in E. destruct E as [Ea Eb].
        apply Nat.eqb_eq in Ea, Eb, Ec. subst. symmetry. exact Hch.
      + rewrite Eq. exact Hc'.
      + rewrite Eq. exact Hp'.
      + rewrite Eq. exact Hv'.
      + unfold w1, set_chan. cbn [wchan]. rewrite Hpq, <- Ht, !Nat.eqb_refl. reflexivity.
    - (* return *)
      destruct (at_op r _ (pi r) fld hi d c (HR r Hr) Hc) as (p & q & Ep & Lp & Lq & -> & -> & -> & -> & Es & Hfl).
      destruct (next_loc r p q Hr Lp Lq) as [c' [R' C']]. rewrite Hv in Es. cbn [b2n] in Es. rewrite Nat.add_1_r in Es.
      exists (setp pi r c'). split.
      + apply ranks_set; [exact HR|]. rewrite Es. exact R'.
      + apply links_keep; [|exact HL|exact Hr]. intros hi V. unfold sentN, recvN. cbn [next_rank rsent rrecvd].
        rewrite (C' hi V), Ep, Hs, Hv. cbn [cnt andb]. rewrite dn_succ. lia.
  Qed.

  (** ** Termination *)
  Definition cw (i : instr St) : nat := match i with Local _ => 1 | Sendrecv _ _ _ => 4 end.
  Definition cws (l : list (instr St)) : nat := fold_right (fun i n => cw i + n) 0 l.
  Definition rm (x : Rank St) : nat := cws (rcode x) - (b2n (rposted x) + b2n (rsent x) + b2n (rrecvd x)).
  Fixpoint fsum (n : nat) (f : nat -> nat) : nat := match n with 0 => 0 | S n => fsum n f + f n end.
  Definition wm (w : World St Msg) : nat := fsum size (fun r => rm (wrank w r)).
  Lemma fsum_le n f g : (forall i, i < n -> f i <= g i) -> fsum n f <= fsum n g.
  Proof.
    induction n; intros H; cbn [fsum]; [lia|]. pose proof (H n). assert (fsum n f <= fsum n g) by (apply IHn; intros; apply H; lia). lia.
  Qed.
  Lemma fsum_lt n f g r : (forall i, i < n -> f i <= g i) -> r < n -> f r < g r -> fsum n f < fsum n g.
  Proof.
    induction n; intros H Hr Hl; [lia|]. cbn [fsum]. destruct (Nat.eq_dec r n) as [->|N].
    - assert (fsum n f <= fsum n g) by (apply fsum_le; intros; apply H; lia). lia.
    - pose proof (H n). assert (fsum n f < fsum n g) by (apply IHn; [intros; apply H; lia|lia|exact Hl]). lia.
  Qed.
  Lemma wm_set w r x : r < size -> rm x < rm (wrank w r) -> wm (set_rank w r x) < wm w.
  Proof.
    intros Hr H. apply (fsum_lt _ _ _ r); [|exact Hr|].
    - intros i Hi. cbn [set_rank wrank]. destruct (Nat.eqb_spec i r) as [->|]; lia.
    - cbn [set_rank wrank]. rewrite Nat.eqb_refl. exact H.
  Qed.
  Lemma wm_decr eg w pi w' : Inv w pi -> wstep sendbuf recvbuf eg size w w' -> wm w' < wm w.
  Proof.
    intros [HR HL] St1. destruct St1 as [w r f c s Hr Hc Hf|w r fld hi d c Hr Hc Hp|w r fld hi d c _ Hr Hc Hp Hs
      |w r fld hi d c m l Hr Hc Hp Hv Hm|w r q0 fld hi d c fld' hi' d' c' Hr Hq Hne Hc Hp Hs Hc' Hp' Hv' Hpr Hpq Ht Hch|w r fld hi d c Hr Hc Hp Hs Hv].
    - apply wm_set; [exact Hr|]. destruct (at_local r _ (pi r) f c (HR r Hr) Hc) as (p & Ep & _).
      pose proof (HR r Hr) as R. rewrite Ep in R. destruct R as (_ & _ & _ & A & B & C).
      unfold rm. rewrite A, B, C, Hc. cbn [next_rank rcode rposted rsent rrecvd b2n cws fold_right cw]. fold (cws c). lia.
    - apply wm_set; [exact Hr|]. destruct (at_op r _ (pi r) fld hi d c (HR r Hr) Hc) as (p & q & _ & _ & _ & _ & _ & _ & _ & _ & Hfl).
      destruct (Hfl Hp) as [F1 F2]. unfold rm. cbn [mark rcode rposted rsent rrecvd b2n]. rewrite Hp, F1, F2, Hc.
      cbn [b2n cws fold_right cw]. fold (cws c). lia.
    - change (wm (set_rank w r (mark (wrank w r) true true (rrecvd (wrank w r)) (rst (wrank w r)))) < wm w).
      apply wm_set; [exact Hr|]. unfold rm. cbn [mark rcode rposted rsent rrecvd b2n]. rewrite Hp, Hs, Hc.
      cbn [b2n cws fold_right cw]. fold (cws c). destruct (rrecvd (wrank w r)); cbn [b2n]; lia.
    - change (wm (set_rank w r (mark (wrank w r) true (rsent (wrank w r)) true (recvbuf fld hi d m (rst (wrank w r))))) < wm w).
      apply wm_set; [exact Hr|]. unfold rm. cbn [mark rcode rposted rsent rrecvd b2n]. rewrite Hp, Hv, Hc.
      cbn [b2n cws fold_right cw]. fold (cws c). destruct (rsent (wrank w r)); cbn [b2n]; lia.
    - eapply Nat.lt_trans; [apply wm_set; [exact Hq|]|apply wm_set; [exact Hr|]].
      + cbn [set_rank wrank]. destruct (Nat.eqb_spec q0 r); [congruence|].
        unfold rm. cbn [mark rcode rposted rsent rrecvd b2n]. rewrite Hp', Hv', Hc'.
        cbn [b2n cws fold_right cw]. fold (cws c'). destruct (rsent (wrank w q0)); cbn [b2n]; lia.
      + unfold rm. cbn [mark rcode rposted rsent rrecvd b2n]. rewrite Hp, Hs, Hc.
        cbn [b2n cws fold_right cw]. fold (cws c). destruct (rrecvd (wrank w r)); cbn [b2n]; lia.
    - apply wm_set; [exact Hr|]. unfold rm. cbn [next_rank rcode rposted rsent rrecvd b2n]. rewrite Hp, Hs, Hv, Hc.
      cbn [b2n cws fold_right cw]. fold (cws c). lia.
  Qed.

  (** ** Progress without buffering *)
  Definition ph (c : pos) : nat := match c with PLoc p => p | POp p _ => p end.
  Lemma min_rank (f : nat -> nat) n : 0 < n ->
    exists r, r < n /\ (forall i, i < n -> f r <= f i) /\ (forall i, i < r -> f r < f i).
  Proof.
    induction n as [|n IH]; intros H; [lia|]. destruct (Nat.eq_dec n 0) as [->|N].
    - exists 0. split; [lia|]. split; [intros i Hi; replace i with 0 by lia; lia|lia].
    - destruct (IH ltac:(lia)) as (r & Hr & A & B). destruct (Nat.lt_ge_cases (f n) (f r)) as [L|L].
      + exists n. split; [lia|]. split; intros i Hi.
        * destruct (Nat.eq_dec i n) as [->|]; [lia|]. specialize (A i ltac:(lia)). lia.
        * specialize (A i Hi). lia.
      + exists r. split; [lia|]. split; [|exact B]. intros i Hi. destruct (Nat.eq_dec i n) as [->|]; [lia|]. apply A. lia.
  Qed.
  Lemma cnt_past r c p : p < ph c -> is_com p = true -> forall hi fl, 3 * nc p + 3 <= cnt r hi fl c.
  Proof.
    intros H E hi fl. assert (nc p + 1 <= nc (ph c)) by (pose proof (nc_mono (S p) (ph c) H) as M; rewrite nc_S, E in M; lia).
    destruct c; cbn [ph cnt] in *; lia.
  Qed.
  Lemma loc_enabled w pi r p : Inv w pi -> r < size -> pi r = PLoc p -> p < P -> exists w', wstep sendbuf recvbuf false size w w'.
  Proof.
    intros [HR _] Hr E Lp. pose proof (HR r Hr) as R. rewrite E in R. destruct R as (Hp & Hc & Hs & _).
    rewrite code_ph_local in Hc by lia. eexists. eapply w_local; [exact Hr|exact Hc|]. rewrite Hs. apply HG; [lia|exact Hr].
  Qed.
  Lemma deliver_enabled w pi r p q : Inv w pi -> r < size -> pi r = POp p q -> rposted (wrank w r) = true ->
    rrecvd (wrank w r) = false -> recvN w pi r (op_hi r q) < sentN w pi (peer r (op_hi r q)) (negb (op_hi r q)) ->
    exists w', wstep sendbuf recvbuf false size w w'.
  Proof.
    intros [HR HL] Hr E Hp Hv Hlt. pose proof (HR r Hr) as R. rewrite E in R. destruct R as (Lp & Lq & Hc & Hs & _).
    rewrite code_ops_more in Hc by exact Lq. pose proof (op_valid r p q Hr Lq) as V0.
    destruct (peer_valid r _ Hr V0) as (P1 & P2 & P3 & P4 & P5 & P6).
    destruct (HL _ _ P1 P2) as [A B]. rewrite P3, negb_involutive, <- P6 in B.
    destruct (sentN w pi (peer r (op_hi r q)) (negb (op_hi r q)) - recvN w pi r (op_hi r q)) as [|k] eqn:Ek; [lia|].
    cbn [seq map] in B. eexists. eapply w_deliver; [exact Hr|exact Hc|exact Hp|exact Hv|exact B].
  Qed.
  Lemma post_enabled w pi r p q : Inv w pi -> r < size -> pi r = POp p q -> rposted (wrank w r) = false ->
    exists w', wstep sendbuf recvbuf false size w w'.
  Proof.
    intros [HR HL] Hr E Hp. pose proof (HR r Hr) as R. rewrite E in R. destruct R as (Lp & Lq & Hc & Hs & _).
    rewrite code_ops_more in Hc by exact Lq. eexists. eapply w_post; [exact Hr|exact Hc|exact Hp].
  Qed.
  Lemma return_enabled w pi r p q : Inv w pi -> r < size -> pi r = POp p q -> rposted (wrank w r) = true ->
    rsent (wrank w r) = true -> rrecvd (wrank w r) = true -> exists w', wstep sendbuf recvbuf false size w w'.
  Proof.
    intros [HR HL] Hr E Hp Hs Hv. pose proof (HR r Hr) as R. rewrite E in R. destruct R as (Lp & Lq & Hc & _).
    rewrite code_ops_more in Hc by exact Lq. eexists. eapply w_return; [exact Hr|exact Hc|exact Hp|exact Hs|exact Hv].
  Qed.
  Lemma meet_enabled w pi r p q p' q' : Inv w pi -> r < size -> pi r = POp p q -> pi (peer r (op_hi r q)) = POp p' q' ->
    op_hi (peer r (op_hi r q)) q' = negb (op_hi r q) ->
    rposted (wrank w r) = true -> rsent (wrank w r) = false ->
    rposted (wrank w (peer r (op_hi r q))) = true -> rrecvd (wrank w (peer r (op_hi r q))) = false ->
    sentN w pi r (op_hi r q) <= recvN w pi (peer r (op_hi r q)) (negb (op_hi r q)) ->
    exists w', wstep sendbuf recvbuf false size w w'.
  Proof.
    intros [HR HL] Hr E E' Eh Hp Hs Hp' Hv' Hle. pose proof (HR r Hr) as R. rewrite E in R. destruct R as (Lp & Lq & Hc & _).
    rewrite code_ops_more in Hc by exact Lq. pose proof (op_valid r p q Hr Lq) as V0.
    destruct (peer_valid r _ Hr V0) as (P1 & P2 & P3 & P4 & P5 & P6).
    pose proof (HR _ P1) as R'. rewrite E' in R'. destruct R' as (Lp' & Lq' & Hc' & _).
    rewrite code_ops_more in Hc' by exact Lq'.
    destruct (HL _ _ Hr V0) as [A B].
    replace (sentN w pi r (op_hi r q) - recvN w pi (peer r (op_hi r q)) (negb (op_hi r q))) with 0 in B by lia. cbn [seq map] in B.
    unfold sr in Hc, Hc'. rewrite Eh in Hc'.
    eexists. eapply w_meet; [exact Hr|exact P1|congruence|exact Hc|exact Hp|exact Hs|exact Hc'|exact Hp'|exact Hv'|reflexivity|exact P3|exact P5|exact B].
  Qed.
  Lemma past_enabled w pi r p q : Inv w pi -> r < size -> pi r = POp p q -> rposted (wrank w r) = true ->
    3 * nc p + 3 <= recvN w pi (peer r (op_hi r q)) (negb (op_hi r q)) ->
    3 * nc p + 3 <= sentN w pi (peer r (op_hi r q)) (negb (op_hi r q)) ->
    exists w', wstep sendbuf recvbuf false size w w'.
  Proof.
    intros I Hr E Hp H1 H2. pose proof I as [HR HL]. pose proof (HR r Hr) as R. rewrite E in R. destruct R as (Lp & Lq & _).
    pose proof (op_valid r p q Hr Lq) as V0. destruct (cnt_cur r p q Lq) as [Cc Cd].
    pose proof (cnt_POp_flag r (op_hi r q) p q) as Cf. rewrite eqb_reflx in Cf.
    destruct (HL r _ Hr V0) as [A _].
    destruct (rsent (wrank w r)) eqn:Es.
    - destruct (rrecvd (wrank w r)) eqn:Ev.
      + eapply return_enabled; eassumption.
      + eapply deliver_enabled; try eassumption. unfold recvN. rewrite E, Ev. lia.
    - exfalso. assert (sentN w pi r (op_hi r q) = 3 * nc p + op_d r q) by (unfold sentN; rewrite E, Es; exact Cc). lia.
  Qed.

  Lemma progress w pi : Inv w pi -> finished size w \/ exists w', wstep sendbuf recvbuf false size w w'.
  Proof.
    intros I. pose proof I as [HR HL]. destruct (Nat.eq_dec size 0) as [->|Nz]; [left; intros r Hr; lia|].
    destruct (min_rank (fun r => ph (pi r)) size ltac:(lia)) as (r & Hr & Hmin & Hlow). cbv beta in Hmin, Hlow.
    destruct (pi r) as [p|p q] eqn:E; cbn [ph] in Hmin, Hlow.
    - pose proof (HR r Hr) as R. rewrite E in R. destruct R as (Lp & _).
      destruct (Nat.eq_dec p P) as [->|N]; [left|right; apply (loc_enabled w pi r p); [exact I|exact Hr|exact E|lia]].
      intros i Hi. pose proof (HR i Hi) as R. specialize (Hmin i Hi). destruct (pi i) as [p'|p' q']; cbn [ph rank_ok] in Hmin, R; [|lia].
      destruct R as (L & Hc & _). replace p' with P in Hc by lia. rewrite Hc. apply code_ph_fin.
    - right. destruct (rposted (wrank w r)) eqn:Hp; [|eapply post_enabled; eassumption].
      pose proof (HR r Hr) as R. rewrite E in R. destruct R as (Lp & Lq & _).
      pose proof (op_valid r p q Hr Lq) as V0. destruct (peer_valid r _ Hr V0) as (P1 & P2 & P3 & P4 & P5 & P6).
      destruct (op_hi r q) eqn:Eh.
      + cbn [peer negb] in *. pose proof (Hmin _ P1) as Hm. pose proof (HR _ P1) as R'.
        assert (Past : p < ph (pi (r + 1)) -> exists w', wstep sendbuf recvbuf false size w w').
        { intros L. eapply (past_enabled w pi r p q); try eassumption; rewrite Eh; cbn [peer negb]; unfold recvN, sentN; (apply cnt_past; [exact L|exact (nops_com _ _ _ Lq)]). }
        destruct (pi (r + 1)) as [p'|p' q'] eqn:E'; cbn [ph] in Hm, Past.
        * destruct (Nat.eq_dec p p') as [<-|N]; [|apply Past; lia].
          apply (loc_enabled w pi (r + 1) p); [exact I|exact P1|exact E'|exact Lp].
        * destruct (Nat.eq_dec p p') as [<-|N]; [|apply Past; lia].
          destruct (rposted (wrank w (r + 1))) eqn:Hp'; [|eapply post_enabled; eassumption].
          destruct R' as (_ & Lq' & _). assert (Eb : base (r + 1) = 3) by (apply (base_valid (r + 1) p), P2).
          destruct (op_hi (r + 1) q') eqn:Eh'.
          -- assert (dn (r + 1) false q' = 3) by (unfold dn; unfold op_hi in Eh'; apply Nat.leb_le in Eh'; lia).
             eapply (past_enabled w pi r p q); try eassumption; rewrite Eh; cbn [peer negb]; unfold recvN, sentN; rewrite E'; cbn [cnt]; lia.
          -- pose proof (cnt_cur r p q Lq) as [Cc Cd]. pose proof (cnt_cur (r + 1) p q' Lq') as [Cc' Cd'].
             pose proof (cnt_POp_flag r true p q) as Cf. pose proof (cnt_POp_flag (r + 1) false p q') as Cf'.
             rewrite Eh in Cc, Cf. rewrite Eh' in Cc', Cf'. cbn [Bool.eqb] in Cf, Cf'.
             destruct (HL r true Hr V0) as [L1 _]. destruct (HL (r + 1) false P1 P2) as [L2 _].
             cbn [peer negb] in L1, L2. replace (r + 1 - 1) with r in L2 by lia.
             unfold sentN, recvN in L1, L2. rewrite E, E' in L1, L2.
             assert (D1 : rrecvd (wrank w r) = false -> cnt r true false (POp p q) < cnt (r + 1) false (rsent (wrank w (r + 1))) (POp p q') ->
                exists w', wstep sendbuf recvbuf false size w w').
             { intros Hv L. eapply (deliver_enabled w pi r p q); try eassumption. rewrite Eh. cbn [peer negb]. unfold recvN, sentN. rewrite E, E', Hv. exact L. }
             assert (D2 : rrecvd (wrank w (r + 1)) = false -> cnt (r + 1) false false (POp p q') < cnt r true (rsent (wrank w r)) (POp p q) ->
                exists w', wstep sendbuf recvbuf false size w w').
             { intros Hv L. eapply deliver_enabled; [exact I|exact P1|exact E'|exact Hp'|exact Hv|]. rewrite Eh'. cbn [peer negb].
               replace (r + 1 - 1) with r by lia. unfold recvN, sentN. rewrite E, E', Hv. exact L. }
             assert (M1 : rsent (wrank w r) = false -> rrecvd (wrank w (r + 1)) = false ->
                cnt r true false (POp p q) <= cnt (r + 1) false false (POp p q') -> exists w', wstep sendbuf recvbuf false size w w').
             { intros Hs Hv L. eapply (meet_enabled w pi r p q p q'); try eassumption; rewrite ?Eh; cbn [peer negb]; try eassumption.
               unfold recvN, sentN. rewrite E, E', Hs, Hv. exact L. }
             assert (M2 : rsent (wrank w (r + 1)) = false -> rrecvd (wrank w r) = false ->
                cnt (r + 1) false false (POp p q') <= cnt r true false (POp p q) -> exists w', wstep sendbuf recvbuf false size w w').
             { intros Hs Hv L. eapply (meet_enabled w pi (r + 1) p q' p q); try eassumption; rewrite ?Eh'; cbn [peer negb];
                 replace (r + 1 - 1) with r by lia; try eassumption.
               unfold recvN, sentN. rewrite E, E', Hs, Hv. exact L. }
             revert L1 L2 D1 D2 M1 M2.
             destruct (rsent (wrank w r)) eqn:S1, (rrecvd (wrank w r)) eqn:V1; intros L1 L2 D1 D2 M1 M2; [exact (return_enabled w pi r p q I Hr E Hp S1 V1)|..];
             revert L1 L2 D1 D2 M1 M2;
             destruct (rsent (wrank w (r + 1))) eqn:S2, (rrecvd (wrank w (r + 1))) eqn:V2; intros L1 L2 D1 D2 M1 M2; try exact (return_enabled w pi (r + 1) p q' I P1 E' Hp' S2 V2);
             first [ exfalso; lia | apply M1; [reflexivity|reflexivity|lia] | apply M2; [reflexivity|reflexivity|lia]
                   | apply D1; [reflexivity|lia] | apply D2; [reflexivity|lia]
                   | destruct (Nat.lt_trichotomy (op_d r q) (op_d (r + 1) q')) as [?|[?|?]]; first [ exfalso; lia | apply D1; [reflexivity|lia] | apply D2; [reflexivity|lia]
                     | apply M1; [reflexivity|reflexivity|lia] | apply M2; [reflexivity|reflexivity|lia]]].
      + cbn [peer negb] in *. assert (L : p < ph (pi (r - 1))) by (apply Hlow; lia).
        eapply (past_enabled w pi r p q); try eassumption; rewrite Eh; cbn [peer negb]; unfold recvN, sentN; (apply cnt_past; [exact L|exact (nops_com _ _ _ Lq)]).
  Qed.

  (** ** Runs *)
  Lemma inv_start init code : (forall r, r < size -> init r = G 0 r) -> (forall r, r < size -> code r = code_ph r 0) ->
    Inv (start init code) (fun _ => PLoc 0).
  Proof.
    intros H HC. split.
    - intros r Hr. cbn [start wrank]. rk. split; [lia|]. split; [apply HC, Hr|]. split; [apply H, Hr|auto].
    - intros r hi Hr V. unfold link, recvN, sentN, start. cbn [wrank wchan cnt]. split; [lia|]. reflexivity.
  Qed.
  Lemma run_inv eg n w w' pi : wsteps sendbuf recvbuf eg size n w w' -> Inv w pi -> exists pi', Inv w' pi' /\ n + wm w' <= wm w.
  Proof.
    intros H. revert pi. induction H as [w|n w w1 w2 Hs Hr IH]; intros pi I.
    - exists pi. split; [exact I|lia].
    - destruct (inv_step eg w pi w1 I Hs) as [pi1 I1]. pose proof (wm_decr eg w pi w1 I Hs).
      destruct (IH pi1 I1) as (pi' & I' & L). exists pi'. split; [exact I'|lia].
  Qed.
  Lemma inv_finished w pi : Inv w pi -> finished size w -> forall r, r < size -> rst (wrank w r) = G P r.
  Proof.
    intros [HR _] Hf r Hr. pose proof (HR r Hr) as R. specialize (Hf r Hr). destruct (pi r) as [p|p q]; cbn [rank_ok] in R.
    - destruct R as (Hp & Hc & Hs & _). rewrite Hf in Hc. destruct (Nat.eq_dec p P) as [->|N]; [exact Hs|].
      exfalso. rewrite code_ph_local in Hc by lia. discriminate.
    - destruct R as (Hp & Hq & Hc & _). rewrite Hf, code_ops_more in Hc by exact Hq. discriminate.
  Qed.
  Lemma run_total init code : (forall r, r < size -> init r = G 0 r) -> (forall r, r < size -> code r = code_ph r 0) ->
    exists N, forall eg n w, wsteps sendbuf recvbuf eg size n (start init code) w ->
      n <= N /\
      (finished size w \/ exists w', wstep sendbuf recvbuf false size w w') /\
      (finished size w -> forall r, r < size -> rst (wrank w r) = G P r).
  Proof.
    intros H HC. exists (wm (start init code)). intros eg n w Hr.
    destruct (run_inv eg n _ w _ Hr (inv_start init code H HC)) as (pi & I & L).
    split; [lia|]. split; [eapply progress, I|apply (inv_finished w pi I)].
  Qed.
End Comm.
