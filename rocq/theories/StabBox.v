(** Lemmas: leapfrog with losses on a graded mesh in a box of electric walls keeps the fields bounded. *)
From Coq Require Import List Arith Bool Lia Reals Lra.
From Verif Require Import Num Vec Index Matrix FieldModel GridModel GridProofs SolverModel SolverSpec SolverPlanes SolverKern SolverEnergy SolverFlux StabSum Stab StabGraded.
Open Scope nat_scope.

Section Kernel.
  Context (K : Kern R) (l t : nat -> nat -> R) (h : nat -> R) (e0 m0 nu : R).
  Notation X := (kNx K). Notation Y := (kNy K). Notation Z := (kNz K). Notation N := (kN K).
  Notation ixK := (ix (kNx K) (kNy K) (kNz K)).
  Notation dimK := (fun d => dim d (kNx K) (kNy K) (kNz K)).
  Notation box := (in_box (kNx K) (kNy K) (kNz K)).
  Context (HX : 0 < X) (HY : 0 < Y) (HZ : 0 < Z).
  Context (Ph : forall d, (0 < h d)%R) (P0 : (0 < e0)%R) (P1 : (0 < m0)%R) (Pn : (0 < nu)%R).
  Context (Hl : forall d i, d < 3 -> i < dimK d -> (h d <= l d i)%R).
  Context (Ht : forall d i, d < 3 -> i + 1 < dimK d -> (h d <= t d i)%R) (Hz : forall d i, d < 3 -> i + 1 = dimK d -> t d i = 0%R).
  Context (HL : forall d i j k, box d i j k -> kL K (ixK d i j k) = l d (coord d i j k)).
  Context (HtL : forall d i j k, box d i j k -> (0 <= ktL K (ixK d i j k))%R /\ (coord d i j k + 1 < dimK d -> ktL K (ixK d i j k) = t d (coord d i j k))).
  Context (HA : forall d i j k, box d i j k -> (kiA K (ixK d i j k) = / (l (tr1 d) (coord (tr1 d) i j k) * l (tr2 d) (coord (tr2 d) i j k)))%R).
  Context (HtA : forall d i j k, box d i j k -> (0 <= kitA K (ixK d i j k))%R /\
    (coord (tr1 d) i j k + 1 < dimK (tr1 d) -> coord (tr2 d) i j k + 1 < dimK (tr2 d) ->
     (kitA K (ixK d i j k) = / (t (tr1 d) (coord (tr1 d) i j k) * t (tr2 d) (coord (tr2 d) i j k)))%R)).
  Context (Hie : forall r, r < 3 * N -> (0 <= kieps K r <= / e0)%R) (Him : forall r, r < 3 * N -> (0 < kimu K r <= / m0)%R).
  Context (Hr : forall r, krow K r = 0%R \/ krow K r = 1%R) (Hc : forall r, kcol K r = 0%R \/ kcol K r = 1%R).
  Context (Hw : forall c a i j k, box c i j k -> a < 3 -> a <> c -> ends (dimK a) (coord a i j k) -> kcol K (ixK c i j k) = 0%R).
  Context (Hdt : (kdt K * kdt K * (/ h 0%nat * / h 0%nat + / h 1%nat * / h 1%nat + / h 2%nat * / h 2%nat) <= nu * nu * (e0 * m0))%R).

  Lemma t_pos d i : d < 3 -> i < dimK d -> (0 <= t d i)%R.
  Proof.
    intros Hd Hi. destruct (Nat.eq_dec (i + 1) (dimK d)) as [E|E]; [rewrite (Hz d i Hd E); lra|].
    cbv beta in *. pose proof (Ht d i Hd ltac:(lia)). pose proof (Ph d). lra.
  Qed.
  Lemma l_pos d i : d < 3 -> i < dimK d -> (0 < l d i)%R.
  Proof. intros Hd Hi. pose proof (Hl d i Hd Hi). pose proof (Ph d). lra. Qed.

  (** The field the curl sees, 0 beyond the box. *)
  Definition ec (e : nat -> R) (c i j k : nat) : R :=
    if ((i <? X) && (j <? Y) && (k <? Z))%bool then (kcol K (ixK c i j k) * e (ixK c i j k))%R else 0%R.
  Lemma ec_in e c i j k : i < X -> j < Y -> k < Z -> ec e c i j k = (kcol K (ixK c i j k) * e (ixK c i j k))%R.
  Proof. intros A B C. unfold ec. apply Nat.ltb_lt in A, B, C. rewrite A, B, C. reflexivity. Qed.
  Lemma ec_wall e c a i j k : c < 3 -> a < 3 -> a <> c -> ends (dimK a) (coord a i j k) -> ec e c i j k = 0%R.
  Proof.
    intros Hc0 Ha Hac He. unfold ec. destruct (Nat.ltb_spec i X) as [A|A]; [|reflexivity]. destruct (Nat.ltb_spec j Y) as [B|B]; [|reflexivity].
    destruct (Nat.ltb_spec k Z) as [C|C]; [|reflexivity]. cbn [andb]. rewrite (Hw c a i j k ltac:(repeat split; assumption) Ha Hac He). ring.
  Qed.
  Notation D := (fun a f i j k => match a with 0 => Dx X f i j k | 1 => Dy Y f i j k | _ => Dz Z f i j k end).
  Notation off := (fun a => match a with 0 => 1 | 1 => X | _ => X * Y end).
  Lemma next_cell a i j k : a < 3 -> i < X -> j < Y -> k < Z -> cell X Y i j k + off a < N ->
    exists i' j' k', i' < X /\ j' < Y /\ k' < Z /\ cell X Y i j k + off a = cell X Y i' j' k' /\
      (coord a i j k + 1 < dimK a -> i' = (if a =? 0 then S i else i) /\ j' = (if a =? 1 then S j else j) /\ k' = (if a =? 2 then S k else k)) /\
      (coord a i j k + 1 = dimK a -> coord a i' j' k' = 0).
  Proof.
    intros Ha Hi Hj Hk Hm. unfold kN in Hm. destruct a as [|[|[|a]]]; [..|lia]; cbn [coord dim Nat.eqb] in *; unfold cell in *.
    - destruct (Nat.eq_dec (S i) X) as [E|E]; [|exists (S i), j, k; repeat split; lia]. destruct (Nat.eq_dec (S j) Y) as [F|F].
      + exists 0, 0, (S k). assert (S k < Z) by (rewrite <- E, <- F in Hm; clear - Hm; nia). split; [lia|]. split; [lia|]. split; [assumption|].
        split; [rewrite <- E, <- F; ring|]. split; [lia|reflexivity].
      + exists 0, (S j), k. split; [lia|]. split; [lia|]. split; [lia|]. split; [rewrite <- E; ring|]. split; [lia|reflexivity].
    - destruct (Nat.eq_dec (S j) Y) as [F|F].
      + exists i, 0, (S k). assert (S k < Z) by (rewrite <- F in Hm; clear - Hm Hi; nia). split; [lia|]. split; [lia|]. split; [assumption|].
        split; [rewrite <- F; ring|]. split; [lia|reflexivity].
      + exists i, (S j), k. split; [lia|]. split; [lia|]. split; [lia|]. split; [ring|]. split; [auto|lia].
    - assert (S k < Z) by (clear - Hm Hi; nia). exists i, j, (S k). split; [lia|]. split; [lia|]. split; [assumption|]. split; [ring|]. split; [auto|lia].
  Qed.
  Lemma next_room a i j k : a < 3 -> i < X -> j < Y -> k < Z -> coord a i j k + 1 < dimK a -> cell X Y i j k + off a < N.
  Proof.
    intros Ha Hi Hj Hk H. unfold kN. destruct a as [|[|[|a]]]; [..|lia]; cbn [coord dim] in H.
    - pose proof (cell_lt X Y Z (S i) j k ltac:(lia) Hj Hk). unfold cell in *. lia.
    - pose proof (cell_lt X Y Z i (S j) k Hi ltac:(lia) Hk). unfold cell in *. nia.
    - pose proof (cell_lt X Y Z i j (S k) Hi Hj ltac:(lia)). unfold cell in *. nia.
  Qed.
  Lemma shift_ix e c a i j k : c < 3 -> a < 3 -> a <> c -> i < X -> j < Y -> k < Z ->
    @Sh R Num_R N (off a) (comp N (fun m => (kcol K m * kL K m * e m)%R) c) (cell X Y i j k) = (l c (coord c i j k) * D a (ec e c) i j k)%R.
  Proof.
    intros Hc0 Ha Hac Hi Hj Hk. unfold Sh, ext. cbn [nsub nzero Num_R].
    assert (V : forall i j k, i < X -> j < Y -> k < Z -> comp N (fun m => (kcol K m * kL K m * e m)%R) c (cell X Y i j k) = (l c (coord c i j k) * ec e c i j k)%R).
    { intros i1 j1 k1 A B C. unfold comp. change (c * N + cell X Y i1 j1 k1) with (ixK c i1 j1 k1). rewrite ec_in by assumption.
      rewrite HL by (repeat split; assumption). ring. }
    rewrite V by assumption.
    assert (U : (D a (ec e c) i j k = (if coord a i j k + 1 <? dimK a then ec e c (if a =? 0 then S i else i) (if a =? 1 then S j else j) (if a =? 2 then S k else k) else 0) - ec e c i j k)%R).
    { destruct a as [|[|[|a]]]; [..|lia]; cbn [coord dim Nat.eqb]; unfold Dx, Dy, Dz, nx; rewrite Nat.add_1_r; reflexivity. }
    rewrite U. destruct (Nat.ltb_spec (cell X Y i j k + off a) N) as [L|L].
    - destruct (next_cell a i j k Ha Hi Hj Hk L) as (i' & j' & k' & Hi' & Hj' & Hk' & -> & Q1 & Q2). rewrite V by assumption.
      destruct (Nat.ltb_spec (coord a i j k + 1) (dimK a)) as [M|M].
      + destruct (Q1 M) as (-> & -> & ->). replace (coord c (if a =? 0 then S i else i) (if a =? 1 then S j else j) (if a =? 2 then S k else k)) with (coord c i j k); [ring|].
        destruct a as [|[|[|a]]], c as [|[|[|c]]]; try lia; reflexivity.
      + assert (E : coord a i j k + 1 = dimK a) by (destruct a as [|[|[|a]]]; cbn [coord dim] in *; lia).
        rewrite (ec_wall e c a i' j' k') by (try assumption; left; apply Q2; exact E). rewrite (ec_wall e c a i j k) by (try assumption; right; exact E). ring.
    - destruct (Nat.ltb_spec (coord a i j k + 1) (dimK a)) as [M|M]; [exfalso; pose proof (next_room a i j k Ha Hi Hj Hk M); lia|].
      assert (E : coord a i j k + 1 = dimK a) by (destruct a as [|[|[|a]]]; cbn [coord dim] in *; lia).
      rewrite (ec_wall e c a i j k) by (try assumption; right; exact E). ring.
  Qed.
  Lemma kcurl_ix e d i j k : d < 3 -> i < X -> j < Y -> k < Z -> kcurl K e (ixK d i j k) =
    match d with
    | 0 => (l 2%nat k * Dy Y (ec e 2) i j k - l 1%nat j * Dz Z (ec e 1) i j k)%R
    | 1 => (l 0%nat i * Dz Z (ec e 0) i j k - l 2%nat k * Dx X (ec e 2) i j k)%R
    | _ => (l 1%nat j * Dx X (ec e 1) i j k - l 0%nat i * Dy Y (ec e 0) i j k)%R
    end.
  Proof.
    intros Hd Hi Hj Hk. unfold kcurl. destruct (ix_dec X Y Z d i j k Hi Hj Hk) as [Ed _]. unfold ixd in Ed. fold N in Ed. rewrite Ed.
    replace (ixK d i j k mod N) with (cell X Y i j k) by (apply (Nat.mod_unique _ _ d); [apply cell_lt; assumption|unfold ix, kN; lia]).
    destruct d as [|[|[|d]]]; [..|lia]; unfold curl_at; cbn [nsub nmul Num_R].
    - pose proof (shift_ix e 2 1 i j k ltac:(lia) ltac:(lia) ltac:(lia) Hi Hj Hk) as A. pose proof (shift_ix e 1 2 i j k ltac:(lia) ltac:(lia) ltac:(lia) Hi Hj Hk) as B.
      cbn [coord] in A, B. rewrite A, B. reflexivity.
    - pose proof (shift_ix e 0 2 i j k ltac:(lia) ltac:(lia) ltac:(lia) Hi Hj Hk) as A. pose proof (shift_ix e 2 0 i j k ltac:(lia) ltac:(lia) ltac:(lia) Hi Hj Hk) as B.
      cbn [coord] in A, B. rewrite A, B. reflexivity.
    - pose proof (shift_ix e 1 0 i j k ltac:(lia) ltac:(lia) ltac:(lia) Hi Hj Hk) as A. pose proof (shift_ix e 0 1 i j k ltac:(lia) ltac:(lia) ltac:(lia) Hi Hj Hk) as B.
      cbn [coord] in A, B. rewrite A, B. reflexivity.
  Qed.
  Lemma kcurl_last e d i j k : d < 3 -> i < X -> j < Y -> k < Z -> coord d i j k + 1 = dimK d -> kcurl K e (ixK d i j k) = 0%R.
  Proof.
    intros Hd Hi Hj Hk E. rewrite kcurl_ix by assumption.
    assert (V : forall c, c < 3 -> c <> d -> forall i j k, coord d i j k + 1 = dimK d -> ec e c i j k = 0%R).
    { intros c Hc0 Hcd i1 j1 k1 E1. apply (ec_wall e c d); try assumption; [lia|right; exact E1]. }
    destruct d as [|[|[|d]]]; [..|lia]; cbn [coord dim] in *; unfold Dx, Dy, Dz, nx;
      repeat match goal with |- context [if ?c then _ else _] => destruct c end; rewrite !V by lia; ring.
  Qed.

  (** Sums over the three components. *)
  Lemma SR_box f : SR (3 * N) f = (S3 X Y Z (fun i j k => f (ixK 0 i j k)) + (S3 X Y Z (fun i j k => f (ixK 1 i j k)) + S3 X Y Z (fun i j k => f (ixK 2 i j k))))%R.
  Proof.
    unfold SR at 1, kN. rewrite sum_flat. unfold sum3. change (@sum R Num_R) with SR. unfold SR at 1, sum. cbn [nadd nzero Num_R].
    unfold S3. ring.
  Qed.

  Definition bE (r : nat) : R := if Req_EM_T (kieps K r * kitA K r) 0
    then on_ix (fun c i j k => e0 * (l c (coord c i j k) * (t (tr1 c) (coord (tr1 c) i j k) * t (tr2 c) (coord (tr2 c) i j k))))%R X Y Z r
    else (kL K r / (kieps K r * kitA K r))%R.
  Definition bH (r : nat) : R := (ktL K r / (kiA K r * kimu K r))%R.

  Lemma tr_box d i j k : box d i j k -> tr1 d < 3 /\ tr2 d < 3 /\ coord d i j k < dimK d /\ coord (tr1 d) i j k < dimK (tr1 d) /\ coord (tr2 d) i j k < dimK (tr2 d).
  Proof. intros (Hd & Hi & Hj & Hk). destruct d as [|[|[|d]]]; cbn; lia. Qed.
  Lemma A_pos d i j k : box d i j k -> (0 < kiA K (ixK d i j k))%R.
  Proof.
    intros Hb. rewrite HA by exact Hb. destruct (tr_box d i j k Hb) as (A & B & _ & C & E). apply Rinv_0_lt_compat, Rmult_lt_0_compat; apply l_pos; assumption.
  Qed.
  Lemma ix_in r : r < 3 * N -> exists d i j k, box d i j k /\ r = ixK d i j k.
  Proof. intros H. destruct (ix_surj _ _ _ _ H) as (d & i & j & k & A & B & C & E & F). exists d, i, j, k. split; [repeat split; assumption|exact F]. Qed.
  Lemma ix_lt_box d i j k : box d i j k -> ixK d i j k < 3 * N.
  Proof. intros (A & B & C & E). apply ix_lt; assumption. Qed.
  Lemma live_pos r : r < 3 * N -> (kieps K r * kitA K r <> 0)%R -> (0 < kieps K r * kitA K r)%R.
  Proof.
    intros H Q. destruct (ix_in r H) as (d & i & j & k & Hb & ->). pose proof (proj1 (Hie _ H)) as A. pose proof (proj1 (HtA d i j k Hb)) as B.
    pose proof (Rmult_le_pos _ _ A B). lra.
  Qed.
  Lemma bE_low d i j k : box d i j k -> (e0 * (l d (coord d i j k) * (t (tr1 d) (coord (tr1 d) i j k) * t (tr2 d) (coord (tr2 d) i j k))) <= bE (ixK d i j k))%R /\ (0 <= bE (ixK d i j k))%R.
  Proof.
    intros Hb. pose proof (tr_box d i j k Hb) as (A & B & C0 & C & E). pose proof (ix_lt_box d i j k Hb) as Hlt. pose proof Hb as (Hd & Hi & Hj & Hk).
    pose proof (l_pos d _ Hd C0) as L0. pose proof (t_pos _ _ A C) as T1. pose proof (t_pos _ _ B E) as T2.
    assert (Q : (0 <= e0 * (l d (coord d i j k) * (t (tr1 d) (coord (tr1 d) i j k) * t (tr2 d) (coord (tr2 d) i j k))))%R).
    { apply Rmult_le_pos; [lra|]. apply Rmult_le_pos; [lra|]. apply Rmult_le_pos; assumption. }
    unfold bE. destruct (Req_EM_T _ _) as [F|F].
    - rewrite on_ix_ix by assumption. split; [lra|exact Q].
    - pose proof (live_pos _ Hlt F) as P. rewrite HL by exact Hb.
      assert (P2 : (0 <= l d (coord d i j k) / (kieps K (ixK d i j k) * kitA K (ixK d i j k)))%R) by (left; apply Rdiv_lt_0_compat; assumption). split; [|exact P2].
      destruct (Nat.eq_dec (coord (tr1 d) i j k + 1) (dimK (tr1 d))) as [G1|G1]; [rewrite (Hz _ _ A G1); lra|].
      destruct (Nat.eq_dec (coord (tr2 d) i j k + 1) (dimK (tr2 d))) as [G2|G2]; [rewrite (Hz _ _ B G2); lra|].
      cbv beta in *. assert (I1 : coord (tr1 d) i j k + 1 < dim (tr1 d) X Y Z) by lia. assert (I2 : coord (tr2 d) i j k + 1 < dim (tr2 d) X Y Z) by lia.
      rewrite (proj2 (HtA d i j k Hb) I1 I2) in *.
      pose proof (Ht _ _ A I1) as U1. pose proof (Ht _ _ B I2) as U2. pose proof (Ph (tr1 d)). pose proof (Ph (tr2 d)).
      set (ta := t (tr1 d) (coord (tr1 d) i j k)) in *. set (tb := t (tr2 d) (coord (tr2 d) i j k)) in *. set (ie := kieps K (ixK d i j k)) in *. set (ll := l d (coord d i j k)) in *.
      assert (PT : (0 < ta * tb)%R) by (apply Rmult_lt_0_compat; lra).
      assert (Pi : (0 < ie)%R). { destruct (Rle_lt_or_eq_dec 0 ie (proj1 (Hie _ Hlt))) as [W|W]; [exact W|]. rewrite <- W in P. lra. }
      replace (ll / (ie * / (ta * tb)))%R with (/ ie * (ll * (ta * tb)))%R by (field; lra).
      apply Rmult_le_compat_r; [apply Rmult_le_pos; lra|]. rewrite <- (Rinv_inv e0). apply Rinv_le_contravar; [exact Pi|]. apply (proj2 (Hie _ Hlt)).
  Qed.
  Lemma bE_pos r : r < 3 * N -> (0 <= bE r)%R.
  Proof. intros H. destruct (ix_in r H) as (d & i & j & k & Hb & ->). apply bE_low, Hb. Qed.
  Lemma bH_low d i j k : box d i j k -> (m0 * (ktL K (ixK d i j k) / kiA K (ixK d i j k)) <= bH (ixK d i j k))%R.
  Proof.
    intros Hb. pose proof (A_pos d i j k Hb) as PA. pose proof (proj1 (HtL d i j k Hb)) as PT. destruct (Him _ (ix_lt_box d i j k Hb)) as [M1 M2].
    unfold bH. replace (ktL K (ixK d i j k) / (kiA K (ixK d i j k) * kimu K (ixK d i j k)))%R with (/ kimu K (ixK d i j k) * (ktL K (ixK d i j k) / kiA K (ixK d i j k)))%R by (field; lra).
    apply Rmult_le_compat_r; [apply Rmult_le_pos; [exact PT|left; apply Rinv_0_lt_compat, PA]|]. rewrite <- (Rinv_inv m0). apply Rinv_le_contravar; assumption.
  Qed.
  Lemma bH_pos r : r < 3 * N -> (0 <= bH r)%R.
  Proof.
    intros H. destruct (ix_in r H) as (d & i & j & k & Hb & ->). eapply Rle_trans; [|apply bH_low, Hb]. apply Rmult_le_pos; [lra|].
    apply Rmult_le_pos; [apply HtL, Hb|left; apply Rinv_0_lt_compat, A_pos, Hb].
  Qed.
  Lemma bH_face r : r < 3 * N -> face_ok K bH r.
  Proof.
    intros H. destruct (ix_in r H) as (d & i & j & k & Hb & ->). unfold face_ok, bH. cbn [nmul Num_R].
    pose proof (A_pos d i j k Hb). destruct (Him _ H) as [M1 _]. field. lra.
  Qed.
  Lemma bE_edge e r : r < 3 * N -> (kieps K r * kitA K r = 0 -> kcol K r * e r = 0)%R -> edge_ok K bE e r.
  Proof.
    intros H Q. unfold edge_ok, bE. cbn [nmul nzero Num_R]. destruct (Req_EM_T _ _) as [F|F].
    - right. split; [exact F|]. specialize (Q F). replace (kcol K r * kL K r * e r)%R with (kL K r * (kcol K r * e r))%R by ring. rewrite Q. ring.
    - left. field. split; intros W; apply F; rewrite W; ring.
  Qed.

  (** The mixed term of the energy. *)
  Definition SE (e : nat -> R) : R := SR (3 * N) (fun r => bE r * (e r * e r))%R.
  Definition SH (g : nat -> R) : R := SR (3 * N) (fun r => bH r * (g r * g r))%R.
  Lemma curl_sum e : (SR (3 * N) (fun r => ktL K r * kiA K r * (kcurl K e r * kcurl K e r)) <=
     4 * (/ h 0%nat * / h 0%nat + / h 1%nat * / h 1%nat + / h 2%nat * / h 2%nat) * (/ e0 * SE e))%R.
  Proof.
    pose proof (curl_size X Y Z (l 0) (l 1) (l 2) (t 0) (t 1) (t 2) (h 0) (h 1) (h 2) (Ph 0) (Ph 1) (Ph 2)
      (fun i Hi => Hl 0 i ltac:(lia) Hi) (fun i Hi => Hl 1 i ltac:(lia) Hi) (fun i Hi => Hl 2 i ltac:(lia) Hi)
      (fun i Hi => Ht 0 i ltac:(lia) Hi) (fun i Hi => Ht 1 i ltac:(lia) Hi) (fun i Hi => Ht 2 i ltac:(lia) Hi)
      (fun i Hi => t_pos 0 i ltac:(lia) Hi) (fun i Hi => t_pos 1 i ltac:(lia) Hi) (fun i Hi => t_pos 2 i ltac:(lia) Hi)
      (ec e 0) (ec e 1) (ec e 2)) as C.
    specialize (C ltac:(intros i j k [A|A]; [apply (ec_wall e 0 1)|apply (ec_wall e 0 2)]; first [lia|exact A])).
    specialize (C ltac:(intros i j k [A|A]; [apply (ec_wall e 1 0)|apply (ec_wall e 1 2)]; first [lia|exact A])).
    specialize (C ltac:(intros i j k [A|A]; [apply (ec_wall e 2 0)|apply (ec_wall e 2 1)]; first [lia|exact A])).
    assert (L : (SR (3 * N) (fun r => ktL K r * kiA K r * (kcurl K e r * kcurl K e r)) <= csize X Y Z (l 0%nat) (l 1%nat) (l 2%nat) (t 0%nat) (t 1%nat) (t 2%nat) (ec e 0) (ec e 1) (ec e 2))%R).
    { rewrite SR_box. unfold csize. 
      assert (W : forall d i j k, box d i j k -> (ktL K (ixK d i j k) * kiA K (ixK d i j k) * (kcurl K e (ixK d i j k) * kcurl K e (ixK d i j k)) =
         t d (coord d i j k) / (l (tr1 d) (coord (tr1 d) i j k) * l (tr2 d) (coord (tr2 d) i j k)) * (kcurl K e (ixK d i j k) * kcurl K e (ixK d i j k)))%R).
      { intros d i j k Hb. pose proof Hb as (Hd & Hi & Hj & Hk). destruct (Nat.eq_dec (coord d i j k + 1) (dimK d)) as [E|E].
        - rewrite kcurl_last by assumption. ring.
        - rewrite HA by exact Hb. pose proof (tr_box d i j k Hb) as (_ & _ & Q & _). rewrite (proj2 (HtL d i j k Hb) ltac:(cbv beta in *; lia)). reflexivity. }
      apply Rplus_le_compat; [|apply Rplus_le_compat]; apply S3_le; intros i j k Hi Hj Hk.
      - rewrite W by (repeat split; (lia || assumption)). rewrite kcurl_ix by (lia || assumption). cbn [coord tr1 tr2]. right. reflexivity.
      - rewrite W by (repeat split; (lia || assumption)). rewrite kcurl_ix by (lia || assumption). cbn [coord tr1 tr2]. right. reflexivity.
      - rewrite W by (repeat split; (lia || assumption)). rewrite kcurl_ix by (lia || assumption). cbn [coord tr1 tr2]. right. reflexivity. }
    eapply Rle_trans; [exact L|]. eapply Rle_trans; [exact C|].
    assert (Hs : (0 <= / h 0%nat * / h 0%nat + / h 1%nat * / h 1%nat + / h 2%nat * / h 2%nat)%R) by (pose proof (sq_pos (/ h 0%nat)); pose proof (sq_pos (/ h 1%nat)); pose proof (sq_pos (/ h 2%nat)); lra).
    apply Rmult_le_compat_l; [lra|]. apply (Rmult_le_reg_l e0); [exact P0|]. rewrite <- Rmult_assoc, Rinv_r, Rmult_1_l by lra.
    unfold esize, SE. rewrite SR_box, !Rmult_plus_distr_l, <- !S3_scal.
    assert (V : forall c i j k, box c i j k -> (e0 * (l c (coord c i j k) * (t (tr1 c) (coord (tr1 c) i j k) * t (tr2 c) (coord (tr2 c) i j k)) * (ec e c i j k * ec e c i j k)) <=
       bE (ixK c i j k) * (e (ixK c i j k) * e (ixK c i j k)))%R).
    { intros c i j k Hb. pose proof Hb as (Hc0 & Hi & Hj & Hk). destruct (bE_low c i j k Hb) as [B1 B2]. rewrite ec_in by assumption. rewrite <- Rmult_assoc.
      pose proof (sq_pos (e (ixK c i j k))) as Q. destruct (Hc (ixK c i j k)) as [-> | ->].
      - rewrite Rmult_0_l, !Rmult_0_r. apply Rmult_le_pos; assumption.
      - rewrite Rmult_1_l. apply Rmult_le_compat_r; assumption. }
    apply Rplus_le_compat; [|apply Rplus_le_compat]; apply S3_le; intros i j k Hi Hj Hk.
    - apply (V 0 i j k). repeat split; (lia || assumption).
    - apply (V 1 i j k). repeat split; (lia || assumption).
    - apply (V 2 i j k). repeat split; (lia || assumption).
  Qed.
  Lemma mixed_bound e g c th : (0 < c)%R -> (nu * nu <= c * c * th)%R ->
    (kdt K * SR (3 * N) (fun r => krow K r * ktL K r * g r * kcurl K e r) <= c * (th * SE e + SH g))%R.
  Proof.
    intros Pc Hth. rewrite <- SR_scal. set (q := (kdt K * kdt K / (4 * (c * m0)))%R).
    assert (Pcm : (0 < c * m0)%R) by (apply Rmult_lt_0_compat; assumption).
    assert (Pq : (0 <= q)%R). { unfold q. apply Rmult_le_pos; [apply sq_pos|]. left. apply Rinv_0_lt_compat. lra. }
    assert (Yi : (SR (3 * N) (fun r => kdt K * (krow K r * ktL K r * g r * kcurl K e r)) <=
        SR (3 * N) (fun r => c * (bH r * (g r * g r)) + q * (ktL K r * kiA K r * (kcurl K e r * kcurl K e r))))%R).
    { apply SR_le. intros r Hr0. destruct (ix_in r Hr0) as (d & i & j & k & Hb & ->). set (r := ixK d i j k) in *.
      pose proof (A_pos d i j k Hb) as PA. pose proof (proj1 (HtL d i j k Hb)) as PT. pose proof (bH_low d i j k Hb) as BL. fold r in PA, PT, BL.
      pose proof (sq_pos (g r)) as G2. pose proof (sq_pos (kcurl K e r)) as Y2.
      assert (Q1 : (0 <= q * (ktL K r * kiA K r * (kcurl K e r * kcurl K e r)))%R). { apply Rmult_le_pos; [exact Pq|]. apply Rmult_le_pos; [apply Rmult_le_pos; lra|exact Y2]. }
      assert (Q2 : (c * (m0 * (ktL K r / kiA K r) * (g r * g r)) <= c * (bH r * (g r * g r)))%R). { apply Rmult_le_compat_l; [lra|]. apply Rmult_le_compat_r; assumption. }
      destruct (Hr r) as [-> | ->].
      - pose proof (bH_pos r Hr0) as BP. pose proof (Rmult_le_pos _ _ BP G2) as B3. pose proof (Rmult_le_pos c _ ltac:(lra) B3). lra.
      - assert (E : (c * (m0 * (ktL K r / kiA K r) * (g r * g r)) + q * (ktL K r * kiA K r * (kcurl K e r * kcurl K e r)) - kdt K * (1 * ktL K r * g r * kcurl K e r) =
            ktL K r * (/ (4 * (c * m0) * kiA K r) * ((2 * (c * m0) * g r - kdt K * kiA K r * kcurl K e r) * (2 * (c * m0) * g r - kdt K * kiA K r * kcurl K e r))))%R)
          by (unfold q; field; lra).
        assert (0 <= ktL K r * (/ (4 * (c * m0) * kiA K r) * ((2 * (c * m0) * g r - kdt K * kiA K r * kcurl K e r) * (2 * (c * m0) * g r - kdt K * kiA K r * kcurl K e r))))%R; [|lra].
        apply Rmult_le_pos; [exact PT|]. apply Rmult_le_pos; [|apply sq_pos]. left. apply Rinv_0_lt_compat. apply Rmult_lt_0_compat; lra. }
    rewrite SR_plus, !SR_scal in Yi. fold (SH g) in Yi. pose proof (curl_sum e) as C. 
    set (Hs := (/ h 0%nat * / h 0%nat + / h 1%nat * / h 1%nat + / h 2%nat * / h 2%nat)%R) in *.
    assert (PS : (0 <= SE e)%R). { apply SR_pos. intros r Hr0. apply Rmult_le_pos; [apply bE_pos, Hr0|apply sq_pos]. }
    assert (C2 := Rmult_le_compat_l q _ _ Pq C).
    assert (E : (q * (4 * Hs * (/ e0 * SE e)) <= c * (th * SE e))%R).
    { replace (q * (4 * Hs * (/ e0 * SE e)))%R with (kdt K * kdt K * Hs * (/ (c * (e0 * m0)) * SE e))%R by (unfold q; field; lra).
      assert (Pz : (0 < c * (e0 * m0))%R) by (apply Rmult_lt_0_compat; [exact Pc|apply Rmult_lt_0_compat; assumption]).
      replace (c * (th * SE e))%R with (c * c * th * (e0 * m0) * (/ (c * (e0 * m0)) * SE e))%R by (field; lra).
      apply Rmult_le_compat_r; [apply Rmult_le_pos; [left; apply Rinv_0_lt_compat, Pz|exact PS]|].
      eapply Rle_trans; [exact Hdt|]. apply Rmult_le_compat_r; [left; apply Rmult_lt_0_compat; assumption|exact Hth]. }
    rewrite SR_scal. lra.
  Qed.

  (** Losses: the current of a step is [sg] times the field before it. *)
  Definition sg (r : nat) : R := if kcond K then ksig K r else 0%R.
  Definition ql (r : nat) : R := (kdt K * (kieps K r * sg r))%R.
  Context (Hq : forall r, r < 3 * N -> (0 <= ql r <= 1)%R).
  Definition WL (e g : nat -> R) : R := (kenergy K bE bH e g - SR (3 * N) (fun r => ql r / 2 * (bE r * (e r * e r))))%R.
  Definition quiet (e : nat -> R) : Prop := forall r, r < 3 * N -> (kieps K r * kitA K r = 0 -> kcol K r * e r = 0)%R.

  Lemma energy_loss e g j : (forall r, r < 3 * N -> (j r = sg r * e r)%R) -> quiet e ->
    let g' := kH K e g in let e' := kE K e g' j in
    (kenergy K bE bH e' g' = kenergy K bE bH e g - SR (3 * N) (fun r => ql r * (bE r * (e r * (e r + e' r)))))%R.
  Proof.
    intros Hj Qe g' e'. unfold kenergy. fold g'. cbn [nadd nmul Num_R]. change (@sum R Num_R) with SR.
    assert (S1 : SR (3 * N) (fun r => (bE r * (e' r * e' r))%R) =
      (SR (3 * N) (fun r => bE r * (e r * e r)) + (kdt K * SR (3 * N) (fun r => kcol K r * kL K r * (e r + e' r) * kcurlT K g' r) - SR (3 * N) (fun r => ql r * (bE r * (e r * (e r + e' r))))))%R).
    { unfold Rminus. rewrite <- SR_scal.
      replace (- SR (3 * N) (fun r => ql r * (bE r * (e r * (e r + e' r)))))%R with (SR (3 * N) (fun r => -1 * (ql r * (bE r * (e r * (e r + e' r)))))%R) by (rewrite SR_scal; ring).
      rewrite <- !SR_plus. apply SR_ext. intros r Hr0.
      assert (Ee : e' r = (e r + kdt K * (kieps K r * kitA K r * (kcol K r * kcurlT K g' r)) - ql r * e r)%R).
      { unfold e', kE, ql. cbn [nadd nsub nmul Num_R]. rewrite Hj by exact Hr0. ring. }
      destruct (bE_edge e r Hr0 (Qe r Hr0)) as [Hw0|[Ha Hz0]]; cbn [nmul nzero Num_R] in *.
      - rewrite <- Hw0. rewrite Ee. ring.
      - assert (Ee' : e' r = (e r - ql r * e r)%R) by (rewrite Ee, Ha; ring). 
        replace (kdt K * (kcol K r * kL K r * (e r + e' r) * kcurlT K g' r))%R with (kdt K * ((kcol K r * kL K r * e r) * (2 - ql r) * kcurlT K g' r))%R by (rewrite Ee'; ring).
        rewrite Hz0, Ee'. ring. }
    assert (S2 : SR (3 * N) (fun r => (bH r * (g' r * kH K e' g' r))%R) =
      (SR (3 * N) (fun r => bH r * (g r * g' r)) - kdt K * SR (3 * N) (fun r => krow K r * ktL K r * g' r * kcurl K (fun n => e n + e' n) r))%R).
    { unfold Rminus. replace (- (kdt K * SR (3 * N) (fun r => krow K r * ktL K r * g' r * kcurl K (fun n => e n + e' n) r)))%R with
        (SR (3 * N) (fun r => - kdt K * (krow K r * ktL K r * g' r * kcurl K (fun n => e n + e' n) r))%R) by (rewrite SR_scal; ring).
      rewrite <- SR_plus. apply SR_ext. intros r Hr0.
      pose proof (kcurl_add K e e' r) as CA. cbn [nadd Num_R] in CA. rewrite CA. pose proof (bH_face r Hr0) as Hf. unfold face_ok in Hf. cbn [nmul Num_R] in Hf.
      unfold kH at 1. cbn [nsub nmul Num_R].
      assert (Eh : g r = (g' r + kdt K * (kiA K r * kimu K r * krow K r * kcurl K e r))%R) by (unfold g', kH; cbn [nsub nmul Num_R]; ring).
      rewrite Eh. rewrite <- Hf. ring. }
    rewrite S1, S2. pose proof (k_adjoint K g' (fun n => (e n + e' n)%R) HX HY) as KA. cbn [nadd nmul Num_R] in KA. change (@sum R Num_R) with SR in KA. rewrite KA. ring.
  Qed.
  Lemma loss_step e g j : (forall r, r < 3 * N -> (j r = sg r * e r)%R) -> quiet e ->
    let g' := kH K e g in let e' := kE K e g' j in (WL e' g' <= WL e g)%R.
  Proof.
    intros Hj Qe g' e'. unfold WL. pose proof (energy_loss e g j Hj Qe) as EL. cbv zeta in EL. fold g' in EL. fold e' in EL. rewrite EL.
    assert (A : (SR (3 * N) (fun r => ql r / 2 * (bE r * (e r * e r))) <=
      SR (3 * N) (fun r => ql r * (bE r * (e r * (e r + e' r))) + ql r / 2 * (bE r * (e' r * e' r))))%R).
    { apply SR_le. intros r Hr0. destruct (Hq r Hr0) as [Q0 _]. pose proof (bE_pos r Hr0) as B0. pose proof (sq_pos (e r + e' r)) as S0.
      pose proof (Rmult_le_pos _ _ (Rmult_le_pos _ _ Q0 B0) S0) as M. lra. }
    rewrite SR_plus in A. lra.
  Qed.
  Lemma free_step e g j : (forall r, r < 3 * N -> j r = 0%R) -> quiet e ->
    let g' := kH K e g in let e' := kE K e g' j in kenergy K bE bH e' g' = kenergy K bE bH e g.
  Proof.
    intros Hj Qe. apply (@kenergy_step R Num_R NumLaws_R K bE bH e g j HX HY Hj); [|exact bH_face]. intros r Hr0. apply bE_edge; [exact Hr0|apply Qe, Hr0].
  Qed.

  Context (c ct : R) (Pc : (0 < c < 1)%R) (Pth : (0 < ct)%R) (Hth : (nu * nu <= c * c * ct)%R).
  Context (Hql : forall r, r < 3 * N -> (ct <= 1 - ql r / 2)%R).
  Lemma energy_eq e g : (kenergy K bE bH e g = SE e + SH g - kdt K * SR (3 * N) (fun r => krow K r * ktL K r * g r * kcurl K e r))%R.
  Proof.
    unfold kenergy, SE, SH. cbn [nadd nmul Num_R]. change (@sum R Num_R) with SR.
    assert (E : SR (3 * N) (fun r => (bH r * (g r * kH K e g r))%R) = (SR (3 * N) (fun r => (bH r * (g r * g r))%R) + (- kdt K) * SR (3 * N) (fun r => krow K r * ktL K r * g r * kcurl K e r))%R).
    { rewrite <- SR_scal, <- SR_plus. apply SR_ext. intros r Hr0. pose proof (bH_face r Hr0) as F. unfold face_ok in F. cbn [nmul Num_R] in F. unfold kH. cbn [nsub nmul Num_R]. rewrite <- F. ring. }
    rewrite E. ring.
  Qed.
  Lemma energy_low e g : ((1 - c) * (ct * SE e + SH g) <= WL e g)%R.
  Proof.
    unfold WL. rewrite energy_eq. pose proof (mixed_bound e g c ct (proj1 Pc) Hth) as M.
    assert (A : (ct * SE e <= SE e - SR (3 * N) (fun r => ql r / 2 * (bE r * (e r * e r))))%R).
    { assert (B : (SR (3 * N) (fun r => ct * (bE r * (e r * e r)) + ql r / 2 * (bE r * (e r * e r))) <= SR (3 * N) (fun r => bE r * (e r * e r)))%R).
      { apply SR_le. intros r Hr0. pose proof (Hql r Hr0) as Q. pose proof (Rmult_le_pos _ _ (bE_pos r Hr0) (sq_pos (e r))) as P. nra. }
      rewrite SR_plus, SR_scal in B. unfold SE. lra. }
    lra.
  Qed.
  Lemma energy_high e g : (kenergy K bE bH e g <= (1 + nu) * (SE e + SH g))%R.
  Proof.
    rewrite energy_eq. pose proof (mixed_bound e (fun r => (- g r)%R) nu 1 Pn ltac:(lra)) as M.
    rewrite (SR_ext _ (fun r => (krow K r * ktL K r * - g r * kcurl K e r)%R) (fun r => (-1 * (krow K r * ktL K r * g r * kcurl K e r))%R)) in M by (intros; ring).
    rewrite SR_scal in M. replace (SH (fun r => (- g r)%R)) with (SH g) in M by (apply SR_ext; intros; ring). lra.
  Qed.
  Lemma WL_energy e g : (WL e g <= kenergy K bE bH e g)%R.
  Proof.
    unfold WL. assert (0 <= SR (3 * N) (fun r => ql r / 2 * (bE r * (e r * e r))))%R; [|lra]. apply SR_pos. intros r Hr0.
    pose proof (Hq r Hr0). apply Rmult_le_pos; [lra|]. apply Rmult_le_pos; [apply bE_pos, Hr0|apply sq_pos].
  Qed.
  Lemma WL_ext e e' g g' : (forall r, r < 3 * N -> e r = e' r) -> (forall r, r < 3 * N -> g r = g' r) -> WL e g = WL e' g'.
  Proof.
    intros He Hg. unfold WL. rewrite (kenergy_ext K bE bH e e' g g' He Hg). f_equal. apply SR_ext. intros r Hr0. rewrite He by exact Hr0. reflexivity.
  Qed.
  Lemma quiet_step e g j : quiet e -> (forall r, r < 3 * N -> j r = 0%R \/ (j r = sg r * e r)%R) -> quiet (kE K e g j).
  Proof.
    intros Qe Hj r Hr0 Z0. specialize (Qe r Hr0 Z0). unfold kE. cbn [nadd nsub nmul Num_R]. rewrite Z0.
    destruct (Hj r Hr0) as [-> | ->]; [|replace (kcol K r * (e r + kdt K * (0 * kcol K r * kcurlT K g r - kieps K r * (sg r * e r))))%R with (kcol K r * e r * (1 - ql r))%R by (unfold ql; ring); rewrite Qe; ring].
    replace (kcol K r * (e r + kdt K * (0 * kcol K r * kcurlT K g r - kieps K r * 0)))%R with (kcol K r * e r)%R by ring. exact Qe.
  Qed.

  (** After the first step. *)
  Definition running (a : St R) : Prop := tfresh a = false /\ (forall r, r < 3 * N -> (tj a r = sg r * te a r)%R) /\ quiet (te a).

  Lemma running_step a : running a -> running (kstep K a) /\ (WL (te (kstep K a)) (th (kstep K a)) <= WL (te a) (th a))%R.
  Proof.
    intros (Hf & Hj & Qa). pose proof (kstep_old K a Hf) as So. split.
    - split; [reflexivity|]. split.
      + intros r Hr0. cbn [kstep tj te]. unfold kJ, sg. destruct (kcond K) eqn:E; [reflexivity|]. rewrite Hj by exact Hr0. unfold sg. rewrite E. ring.
      + intros r Hr0 Z0. destruct (So r Hr0) as [_ ->]. apply (quiet_step (te a) _ (tj a) Qa); [|exact Hr0|exact Z0]. intros r' Hr'. right. apply Hj, Hr'.
    - rewrite (WL_ext _ (kE K (te a) (kH K (te a) (th a)) (tj a)) _ (kH K (te a) (th a))) by (intros r Hr0; apply So; exact Hr0).
      apply loss_step; assumption.
  Qed.
  Lemma running_iter n a : running a -> running (Nat.iter n (kstep K) a) /\ (WL (te (Nat.iter n (kstep K) a)) (th (Nat.iter n (kstep K) a)) <= WL (te a) (th a))%R.
  Proof.
    intros Ra. induction n as [|n [IH1 IH2]]; [split; [exact Ra|right; reflexivity]|]. destruct (running_step _ IH1) as [A B].
    split; [exact A|]. eapply Rle_trans; [exact B|exact IH2].
  Qed.
  Lemma eff_quiet a : quiet (te a) -> quiet (effE K a).
  Proof. intros Q r Hr0 Z0. unfold effE. destruct (tfresh a && _)%bool; [cbn [nzero Num_R]; ring|apply Q; assumption]. Qed.
  Lemma first_step a : (forall r, r < 3 * N -> tj a r = 0%R) -> quiet (te a) ->
    running (kstep K a) /\ (WL (te (kstep K a)) (th (kstep K a)) <= (1 + nu) * (SE (te a) + SH (th a)))%R.
  Proof.
    intros Hj Qa. pose proof (eff_quiet a Qa) as Qe. split.
    - split; [reflexivity|]. split.
      + intros r Hr0. cbn [kstep tj te]. unfold kJ, sg. destruct (kcond K); [reflexivity|]. rewrite Hj by exact Hr0. ring.
      + cbn [kstep te]. apply quiet_step; [exact Qe|]. intros r Hr0. left. apply Hj, Hr0.
    - eapply Rle_trans; [apply WL_energy|]. cbn [kstep te th].
      pose proof (free_step (effE K a) (effH K a) (tj a) Hj Qe) as F. cbv zeta in F. rewrite F. eapply Rle_trans; [apply energy_high|].
      apply Rmult_le_compat_l; [lra|]. apply Rplus_le_compat; apply SR_le; intros r Hr0; apply Rmult_le_compat_l; try apply eff_sq; [apply bE_pos|apply bH_pos]; exact Hr0.
  Qed.

  (** Single values. *)
  Lemma term_le M f r : (forall m, m < M -> (0 <= f m)%R) -> r < M -> (f r <= SR M f)%R.
  Proof.
    intros P H. induction M as [|M IH]; [lia|]. rewrite SR_S. destruct (Nat.eq_dec r M) as [-> | E].
    - pose proof (SR_pos M f ltac:(intros; apply P; lia)). lra.
    - pose proof (IH ltac:(intros; apply P; lia) ltac:(lia)). pose proof (P M ltac:(lia)). lra.
  Qed.
  Lemma sq_abs (x b : R) : (0 <= b -> x * x <= b * b -> Rabs x <= b)%R.
  Proof. intros Pb H. apply Rsqr_le_abs_0 in H. rewrite (Rabs_right b) in H by lra. exact H. Qed.
  Lemma weight_bound (w x B : R) : (0 < w -> 0 <= B -> w * (x * x) <= B -> Rabs x <= 1 + B / w)%R.
  Proof.
    intros Pw PB H. assert (Q : (0 <= B / w)%R) by (apply Rmult_le_pos; [exact PB|left; apply Rinv_0_lt_compat, Pw]). apply sq_abs; [lra|].
    assert (x * x <= B / w)%R. { apply (Rmult_le_reg_l w); [exact Pw|]. replace (w * (B / w))%R with B by (field; lra). exact H. }
    nra.
  Qed.
  Lemma gather (f : nat -> nat -> R) M : (forall r, r < M -> exists b, forall n, (Rabs (f n r) <= b)%R) -> exists b, forall n r, r < M -> (Rabs (f n r) <= b)%R.
  Proof.
    induction M as [|M IH]; intros H; [exists 0%R; intros n r L; lia|].
    destruct (IH ltac:(intros r L; apply H; lia)) as [b1 B1]. destruct (H M ltac:(lia)) as [b2 B2]. exists (Rmax b1 b2). intros n r L.
    destruct (Nat.eq_dec r M) as [-> | E].
    - eapply Rle_trans; [apply B2|apply Rmax_r].
    - eapply Rle_trans; [apply B1; lia|apply Rmax_l].
  Qed.
  Lemma dead_edge a r : running a -> r < 3 * N -> (kieps K r * kitA K r = 0)%R -> forall n, (Rabs (te (Nat.iter n (kstep K) a) r) <= Rabs (te a r))%R.
  Proof.
    intros Ra Hr0 Z0 n. induction n as [|n IH]; [right; reflexivity|]. destruct (running_iter n a Ra) as [(Hf & Hj & _) _].
    change (Nat.iter (S n) (kstep K) a) with (kstep K (Nat.iter n (kstep K) a)). destruct (kstep_old K _ Hf r Hr0) as [_ ->].
    unfold kE. cbn [nadd nsub nmul Num_R]. rewrite Z0, Hj by exact Hr0. set (b := Nat.iter n (kstep K) a) in *.
    replace (te b r + kdt K * (0 * kcol K r * kcurlT K (kH K (te b) (th b)) r - kieps K r * (sg r * te b r)))%R with ((1 - ql r) * te b r)%R by (unfold ql; ring).
    rewrite Rabs_mult. pose proof (Hq r Hr0) as Q. rewrite (Rabs_right (1 - ql r)) by lra. pose proof (Rabs_pos (te b r)). nra.
  Qed.
  Lemma dead_face a r : tfresh a = false -> r < 3 * N -> ktL K r = 0%R -> forall n, th (Nat.iter n (kstep K) a) r = th a r.
  Proof.
    intros Hf Hr0 Z0 n. apply (frozen K); try assumption. intros r' e Hr' Z'. destruct (ix_in r' Hr') as (d & i & j & k & Hb & ->).
    pose proof Hb as (Hd & Hi & Hj & Hk). apply kcurl_last; try assumption. destruct (Nat.eq_dec (coord d i j k + 1) (dimK d)) as [E|E]; [exact E|exfalso].
    destruct (tr_box d i j k Hb) as (_ & _ & L & _). cbv beta in *. rewrite (proj2 (HtL d i j k Hb) ltac:(lia)) in Z'. pose proof (Ht d (coord d i j k) Hd ltac:(lia)). pose proof (Ph d). lra.
  Qed.
  Lemma bounded_run a : (forall r, r < 3 * N -> tj a r = 0%R) -> quiet (te a) ->
    exists B, forall n r, r < 3 * N -> (Rabs (te (Nat.iter n (kstep K) a) r) <= B)%R /\ (Rabs (th (Nat.iter n (kstep K) a) r) <= B)%R.
  Proof.
    intros Hj Qa. destruct (first_step a Hj Qa) as [Rs Wb]. set (a1 := kstep K a) in *.
    set (B0 := ((1 + nu) * (SE (te a) + SH (th a)))%R) in *.
    assert (Low : forall n, ((1 - c) * (ct * SE (te (Nat.iter n (kstep K) a1)) + SH (th (Nat.iter n (kstep K) a1))) <= B0)%R).
    { intros n. destruct (running_iter n a1 Rs) as [_ W]. eapply Rle_trans; [apply energy_low|]. lra. }
    assert (PE : forall e, (0 <= SE e)%R) by (intros e; apply SR_pos; intros r Hr0; apply Rmult_le_pos; [apply bE_pos, Hr0|apply sq_pos]).
    assert (PH : forall e, (0 <= SH e)%R) by (intros e; apply SR_pos; intros r Hr0; apply Rmult_le_pos; [apply bH_pos, Hr0|apply sq_pos]).
    assert (PB : (0 <= B0)%R) by (unfold B0; pose proof (PE (te a)); pose proof (PH (th a)); apply Rmult_le_pos; lra).
    assert (GE : forall r, r < 3 * N -> exists b, forall n, (Rabs (te (Nat.iter n (kstep K) a1) r) <= b)%R).
    { intros r Hr0. destruct (Req_EM_T (kieps K r * kitA K r) 0) as [Z0|Z0].
      - exists (Rabs (te a1 r)). apply dead_edge; assumption.
      - pose proof (live_pos r Hr0 Z0) as LP.
        assert (PW : (0 < bE r)%R). { unfold bE. destruct (Req_EM_T _ _); [contradiction|]. destruct (ix_in r Hr0) as (d & i & j & k & Hb & ->). rewrite HL by exact Hb.
          apply Rdiv_lt_0_compat; [|exact LP]. apply l_pos; [apply Hb|apply tr_box, Hb]. }
        exists (1 + B0 / ((1 - c) * ct * bE r))%R. intros n. apply weight_bound; [apply Rmult_lt_0_compat; [apply Rmult_lt_0_compat; lra|exact PW]|exact PB|].
        set (b := Nat.iter n (kstep K) a1). pose proof (Low n) as Ln. fold b in Ln. pose proof (PH (th b)) as P2.
        pose proof (term_le (3 * N) (fun r => (bE r * (te b r * te b r))%R) r ltac:(intros m Hm; apply Rmult_le_pos; [apply bE_pos, Hm|apply sq_pos]) Hr0) as T. cbv beta in T. fold (SE (te b)) in T.
        assert (ct * (bE r * (te b r * te b r)) <= ct * SE (te b))%R by (apply Rmult_le_compat_l; lra).
        assert ((1 - c) * (ct * (bE r * (te b r * te b r))) <= (1 - c) * (ct * SE (te b) + SH (th b)))%R by (apply Rmult_le_compat_l; lra). lra. }
    assert (GH : forall r, r < 3 * N -> exists b, forall n, (Rabs (th (Nat.iter n (kstep K) a1) r) <= b)%R).
    { intros r Hr0. destruct (Req_EM_T (ktL K r) 0) as [Z0|Z0].
      - exists (Rabs (th a1 r)). intros n. rewrite (dead_face a1 r (proj1 Rs) Hr0 Z0). right. reflexivity.
      - assert (PW : (0 < bH r)%R). { destruct (ix_in r Hr0) as (d & i & j & k & Hb & ->). unfold bH. pose proof (A_pos d i j k Hb). pose proof (proj1 (Him _ Hr0)).
          pose proof (proj1 (HtL d i j k Hb)). apply Rdiv_lt_0_compat; [lra|apply Rmult_lt_0_compat; assumption]. }
        exists (1 + B0 / ((1 - c) * bH r))%R. intros n. apply weight_bound; [apply Rmult_lt_0_compat; lra|exact PB|].
        set (b := Nat.iter n (kstep K) a1). pose proof (Low n) as Ln. fold b in Ln. pose proof (PE (te b)) as P2.
        pose proof (term_le (3 * N) (fun r => (bH r * (th b r * th b r))%R) r ltac:(intros m Hm; apply Rmult_le_pos; [apply bH_pos, Hm|apply sq_pos]) Hr0) as T. cbv beta in T. fold (SH (th b)) in T.
        pose proof (Rmult_le_pos ct _ ltac:(lra) P2) as P3.
        assert ((1 - c) * (bH r * (th b r * th b r)) <= (1 - c) * (ct * SE (te b) + SH (th b)))%R by (apply Rmult_le_compat_l; lra). lra. }
    destruct (gather (fun n r => te (Nat.iter n (kstep K) a1) r) (3 * N) GE) as [b1 B1]. destruct (gather (fun n r => th (Nat.iter n (kstep K) a1) r) (3 * N) GH) as [b2 B2].
    destruct (gather (fun _ r => te a r) (3 * N) ltac:(intros r _; exists (Rabs (te a r)); intros _; right; reflexivity)) as [b3 B3].
    destruct (gather (fun _ r => th a r) (3 * N) ltac:(intros r _; exists (Rabs (th a r)); intros _; right; reflexivity)) as [b4 B4].
    exists (Rmax (Rmax b1 b2) (Rmax b3 b4)). intros n r Hr0.
    destruct n as [|n].
    - split; eapply Rle_trans; [apply (B3 0%nat r Hr0)| |apply (B4 0%nat r Hr0)|]; (eapply Rle_trans; [|apply Rmax_r]); [apply Rmax_l|apply Rmax_r].
    - assert (E : Nat.iter (S n) (kstep K) a = Nat.iter n (kstep K) a1) by (unfold a1; clear; induction n as [|n IH]; [reflexivity|]; change (kstep K (Nat.iter (S n) (kstep K) a) = kstep K (Nat.iter n (kstep K) (kstep K a))); rewrite IH; reflexivity). rewrite E.
      split; eapply Rle_trans; [apply (B1 n r Hr0)| |apply (B2 n r Hr0)|]; (eapply Rle_trans; [|apply Rmax_l]); [apply Rmax_l|apply Rmax_r].
  Qed.
End Kernel.
