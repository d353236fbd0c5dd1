(** Lemmas: the leapfrog energy bounds the fields when the time step obeys the Courant bound. *)
From Coq Require Import List Arith Bool Lia Reals Lra.
From Verif Require Import Num Vec Index Matrix FieldModel SolverModel SolverKern SolverEnergy StabSum.
Open Scope nat_scope.

Section Embed.
  Context (P N : nat).
  (** A function on [N] places put on a cycle after [P] zeros. *)
  Definition emb (v : nat -> R) (m : nat) : R := if m <? P then 0%R else v (m - P).
  Lemma Sh_df off v m : off <= P -> m < N -> @Sh R Num_R N off v m = df (P + N) off (emb v) (P + m).
  Proof.
    intros Ho Hm. unfold Sh, ext, df, cy, emb. cbn [nzero nsub Num_R].
    destruct (Nat.ltb_spec (P + m) P); [lia|]. replace (P + m - P) with m by lia.
    destruct (Nat.ltb_spec (m + off) N) as [L|L].
    - rewrite Nat.mod_small by lia. destruct (Nat.ltb_spec (P + m + off) P); [lia|]. replace (P + m + off - P) with (m + off) by lia. reflexivity.
    - replace ((P + m + off) mod (P + N)) with (m + off - N).
      + destruct (Nat.ltb_spec (m + off - N) P); [reflexivity|lia].
      + apply (Nat.mod_unique _ _ 1); lia.
  Qed.
  Lemma ip_emb v : ip (P + N) (emb v) (emb v) = SR N (fun m => (v m * v m)%R).
  Proof.
    unfold ip. rewrite SR_split, (SR_zero P).
    - rewrite (SR_ext N _ (fun m => (v m * v m)%R)); [lra|]. intros m Hm. unfold emb. destruct (Nat.ltb_spec (P + m) P); [lia|].
      replace (P + m - P) with m by lia. reflexivity.
    - intros m Hm. unfold emb. destruct (Nat.ltb_spec m P); [lra|lia].
  Qed.
  Lemma SR_sub f : (forall m, (0 <= f m)%R) -> (SR N (fun m => f (P + m)%nat) <= SR (P + N) f)%R.
  Proof. intros H. rewrite SR_split. pose proof (SR_pos P f ltac:(intros; apply H)). lra. Qed.

  Lemma curl_bound a0 a1 a2 s0 s1 s2 v0 v1 v2 : 0 < N -> s0 <= P -> s1 <= P -> s2 <= P ->
    let w0 m := (a1 * @Sh R Num_R N s1 v2 m - a2 * @Sh R Num_R N s2 v1 m)%R in
    let w1 m := (a2 * @Sh R Num_R N s2 v0 m - a0 * @Sh R Num_R N s0 v2 m)%R in
    let w2 m := (a0 * @Sh R Num_R N s0 v1 m - a1 * @Sh R Num_R N s1 v0 m)%R in
    (SR N (fun m => w0 m * w0 m) + SR N (fun m => w1 m * w1 m) + SR N (fun m => w2 m * w2 m) <=
     4 * (a0 * a0 + a1 * a1 + a2 * a2) * (SR N (fun m => v0 m * v0 m) + SR N (fun m => v1 m * v1 m) + SR N (fun m => v2 m * v2 m)))%R.
  Proof.
    intros HN H0 H1 H2 w0 w1 w2.
    pose proof (curl_norm (P + N) ltac:(lia) a0 a1 a2 s0 s1 s2 (emb v0) (emb v1) (emb v2)) as C. rewrite !ip_emb in C.
    eapply Rle_trans; [|exact C]. clear C. apply Rplus_le_compat; [apply Rplus_le_compat|].
    - eapply Rle_trans; [|apply SR_sub; intros m; apply Rle_0_sqr]. right. apply SR_ext. intros m Hm. unfold w0. rewrite !Sh_df by assumption. reflexivity.
    - eapply Rle_trans; [|apply SR_sub; intros m; apply Rle_0_sqr]. right. apply SR_ext. intros m Hm. unfold w1. rewrite !Sh_df by assumption. reflexivity.
    - eapply Rle_trans; [|apply SR_sub; intros m; apply Rle_0_sqr]. right. apply SR_ext. intros m Hm. unfold w2. rewrite !Sh_df by assumption. reflexivity.
  Qed.
End Embed.

Lemma SR3 N f : SR (3 * N) f = (SR N (fun m => f (0 * N + m)%nat) + SR N (fun m => f (1 * N + m)%nat) + SR N (fun m => f (2 * N + m)%nat))%R.
Proof.
  replace (3 * N) with (N + N + N) by lia. rewrite !SR_split. rewrite (SR_ext N (fun m => f (0 * N + m)) f) by (intros; reflexivity).
  f_equal; [f_equal|]; apply SR_ext; intros m _; f_equal; lia.
Qed.

Section Bound.
  Context (K : Kern R) (dx dy dz eps mu nu : R).
  Notation N := (kN K).
  Definition ds (d : nat) : R := match d with 0 => dx | 1 => dy | _ => dz end.
  Notation V := (dx * dy * dz)%R.
  Context (HX : 0 < kNx K) (HY : 0 < kNy K) (HN : 0 < N).
  Context (Px : (0 < dx)%R) (Py : (0 < dy)%R) (Pz : (0 < dz)%R) (Pe : (0 < eps)%R) (Pm : (0 < mu)%R) (Pn : (0 < nu)%R).
  Context (HL : forall d m, d < 3 -> m < N -> kL K (d * N + m) = ds d).
  Context (HtL : forall d m, d < 3 -> m < N -> ktL K (d * N + m) = ds d \/ ktL K (d * N + m) = 0%R).
  Context (HA : forall d m, d < 3 -> m < N -> (kiA K (d * N + m) * kimu K (d * N + m) = ds d / (V * mu))%R).
  Context (Hr : forall n, n < 3 * N -> krow K n = 0%R \/ krow K n = 1%R) (Hc : forall n, n < 3 * N -> kcol K n = 0%R \/ kcol K n = 1%R).
  Context (Hdt : (kdt K * kdt K * (/ dx * / dx + / dy * / dy + / dz * / dz) <= nu * nu * (eps * mu))%R).

  Definition wE (r : nat) : R := (eps * V)%R.
  Definition wH (r : nat) : R := (mu * V / ds (r / N) * ktL K r)%R.

  Lemma div_mod3 d m : m < N -> (d * N + m) / N = d /\ (d * N + m) mod N = m.
  Proof.
    intros Hm. split; [symmetry; apply (Nat.div_unique _ _ _ m); lia|symmetry; apply (Nat.mod_unique _ _ d); lia].
  Qed.
  Lemma decode3 r : r < 3 * N -> exists d m, d < 3 /\ m < N /\ r = d * N + m.
  Proof.
    intros H. exists (r / N), (r mod N). split; [apply Nat.div_lt_upper_bound; lia|]. split; [apply Nat.mod_upper_bound; lia|].
    rewrite Nat.mul_comm. apply Nat.div_mod. lia.
  Qed.
  Lemma ds_pos d : (0 < ds d)%R.
  Proof. destruct d as [|[|d]]; assumption. Qed.
  Lemma V_pos : (0 < V)%R.
  Proof. repeat apply Rmult_lt_0_compat; assumption. Qed.
  Lemma wH_face d m : d < 3 -> m < N -> face_ok K wH (d * N + m).
  Proof.
    intros Hd Hm. unfold face_ok, wH. destruct (div_mod3 d m Hm) as [-> _]. cbn [nmul Num_R].
    rewrite HA by assumption. pose proof (ds_pos d). pose proof V_pos. field. lra.
  Qed.
  Lemma wH_pos r : r < 3 * N -> (0 <= wH r)%R.
  Proof.
    intros Hr0. destruct (decode3 r Hr0) as (d & m & Hd & Hm & ->). unfold wH. destruct (div_mod3 d m Hm) as [-> _].
    pose proof (ds_pos d) as D. pose proof V_pos as PV. assert (0 < mu * V / ds d)%R by (apply Rdiv_lt_0_compat; [apply Rmult_lt_0_compat|]; assumption).
    destruct (HtL d m Hd Hm) as [-> | ->]; nra.
  Qed.

  (** The mixed term of the energy. *)
  Lemma cross_bound e h :
    (kdt K * SR (3 * N) (fun r => krow K r * ktL K r * h r * kcurl K e r) <=
     nu * (SR (3 * N) (fun r => wE r * (e r * e r)) + SR (3 * N) (fun r => wH r * (h r * h r))))%R.
  Proof.
    pose proof V_pos as PV.
    set (v := fun c m => (kcol K (c * N + m) * e (c * N + m)%nat)%R).
    set (w := fun d m => (kcurl K e (d * N + m) * ds d / V)%R).
    set (y := fun d m => (kcurl K e (d * N + m))).
    set (s1 := @Sh R Num_R N 1). set (s2 := @Sh R Num_R N (kNx K)). set (s3 := @Sh R Num_R N (kNx K * kNy K)).
    (* the curl in physical units *)
    assert (Cmp : forall c m, c < 3 -> m < N -> comp N (fun n => (kcol K n * kL K n * e n)%R) c m = (ds c * v c m)%R).
    { intros c m Hc0 Hm. unfold comp, v. rewrite HL by assumption. ring. }
    assert (ShC : forall off c m, c < 3 -> m < N -> @Sh R Num_R N off (comp N (fun n => (kcol K n * kL K n * e n)%R) c) m = (ds c * @Sh R Num_R N off (v c) m)%R).
    { intros off c m Hc0 Hm. unfold Sh, ext. cbn [nsub nzero Num_R]. destruct (Nat.ltb_spec (m + off) N); rewrite !Cmp by assumption; ring. }
    assert (W0 : forall m, m < N -> w 0 m = (/ dy * s2 (v 2%nat) m - / dz * s3 (v 1%nat) m)%R).
    { intros m Hm. unfold w, kcurl. destruct (div_mod3 0 m Hm) as [-> ->]. unfold curl_at. cbn [nsub nmul Num_R]. rewrite !ShC by (assumption || lia).
      fold s2 s3. cbn [ds]. field. lra. }
    assert (W1 : forall m, m < N -> w 1 m = (/ dz * s3 (v 0%nat) m - / dx * s1 (v 2%nat) m)%R).
    { intros m Hm. unfold w, kcurl. destruct (div_mod3 1 m Hm) as [-> ->]. unfold curl_at. cbn [nsub nmul Num_R]. rewrite !ShC by (assumption || lia).
      fold s1 s3. cbn [ds]. field. lra. }
    assert (W2 : forall m, m < N -> w 2 m = (/ dx * s1 (v 1%nat) m - / dy * s2 (v 0%nat) m)%R).
    { intros m Hm. unfold w, kcurl. destruct (div_mod3 2 m Hm) as [-> ->]. unfold curl_at. cbn [nsub nmul Num_R]. rewrite !ShC by (assumption || lia).
      fold s1 s2. cbn [ds]. field. lra. }
    assert (CB : (SR N (fun m => w 0%nat m * w 0%nat m) + SR N (fun m => w 1%nat m * w 1%nat m) + SR N (fun m => w 2%nat m * w 2%nat m) <=
      4 * (/ dx * / dx + / dy * / dy + / dz * / dz) * (SR N (fun m => v 0%nat m * v 0%nat m) + SR N (fun m => v 1%nat m * v 1%nat m) + SR N (fun m => v 2%nat m * v 2%nat m)))%R).
    { rewrite (SR_ext N (fun m => (w 0%nat m * w 0%nat m)%R) (fun m => ((/ dy * s2 (v 2%nat) m - / dz * s3 (v 1%nat) m) * (/ dy * s2 (v 2%nat) m - / dz * s3 (v 1%nat) m))%R)) by (intros m Hm; rewrite W0 by exact Hm; reflexivity).
      rewrite (SR_ext N (fun m => (w 1%nat m * w 1%nat m)%R) (fun m => ((/ dz * s3 (v 0%nat) m - / dx * s1 (v 2%nat) m) * (/ dz * s3 (v 0%nat) m - / dx * s1 (v 2%nat) m))%R)) by (intros m Hm; rewrite W1 by exact Hm; reflexivity).
      rewrite (SR_ext N (fun m => (w 2%nat m * w 2%nat m)%R) (fun m => ((/ dx * s1 (v 1%nat) m - / dy * s2 (v 0%nat) m) * (/ dx * s1 (v 1%nat) m - / dy * s2 (v 0%nat) m))%R)) by (intros m Hm; rewrite W2 by exact Hm; reflexivity).
      apply (curl_bound (kNx K * kNy K) N (/ dx) (/ dy) (/ dz) 1 (kNx K) (kNx K * kNy K) (v 0) (v 1) (v 2) HN); nia. }
    (* pointwise Young inequality *)
    set (q := (kdt K * kdt K * V / (4 * (nu * mu)))%R).
    assert (Pq : (0 < nu * mu)%R) by (apply Rmult_lt_0_compat; assumption).
    assert (YI : forall d m, d < 3 -> m < N ->
      (kdt K * (krow K (d * N + m) * ktL K (d * N + m) * h (d * N + m)%nat * kcurl K e (d * N + m)) <= nu * (wH (d * N + m) * (h (d * N + m)%nat * h (d * N + m)%nat)) + q * (w d m * w d m))%R).
    { intros d m Hd Hm. assert (Ln : d * N + m < 3 * N) by nia.
      pose proof (ds_pos d) as PD. set (hh := h (d * N + m)). assert (EK : kcurl K e (d * N + m) = (w d m * V / ds d)%R) by (unfold w; field; lra). rewrite EK. unfold wH. destruct (div_mod3 d m Hm) as [-> _].
      assert (Pq2 : (0 <= q)%R). { unfold q. apply Rmult_le_pos; [apply Rmult_le_pos; [apply Rle_0_sqr|lra]|]. left. apply Rinv_0_lt_compat. lra. }
      assert (Q2 : (0 <= w d m * w d m)%R) by apply Rle_0_sqr. assert (H2 : (0 <= hh * hh)%R) by apply Rle_0_sqr.
      assert (Main : (kdt K * (hh * w d m) * V <= nu * mu * V * (hh * hh) + q * (w d m * w d m))%R).
      { assert (E : (nu * mu * V * (hh * hh) + q * (w d m * w d m) - kdt K * (hh * w d m) * V = V / (4 * (nu * mu)) * Rsqr (2 * (nu * mu) * hh - kdt K * w d m))%R)
          by (unfold q, Rsqr; field; lra).
        assert (0 <= V / (4 * (nu * mu)) * Rsqr (2 * (nu * mu) * hh - kdt K * w d m))%R; [|lra].
        apply Rmult_le_pos; [|apply Rle_0_sqr]. left. apply Rdiv_lt_0_compat; lra. }
      assert (Pos : (0 <= q * (w d m * w d m))%R) by (apply Rmult_le_pos; assumption).
      destruct (Hr _ Ln) as [-> | ->], (HtL d m Hd Hm) as [-> | ->].
      - assert (0 <= nu * (mu * V / ds d * ds d * (hh * hh)))%R; [|lra]. replace (mu * V / ds d * ds d)%R with (mu * V)%R by (field; lra).
        apply Rmult_le_pos; [lra|]. apply Rmult_le_pos; [|assumption]. apply Rmult_le_pos; lra.
      - replace (mu * V / ds d * 0)%R with 0%R by ring. lra.
      - replace (kdt K * (1 * ds d * hh * (w d m * V / ds d)))%R with (kdt K * (hh * w d m) * V)%R by (field; lra).
        replace (nu * (mu * V / ds d * ds d * (hh * hh)))%R with (nu * mu * V * (hh * hh))%R by (field; lra). exact Main.
      - replace (mu * V / ds d * 0)%R with 0%R by ring. lra. }
    assert (VB : forall c, c < 3 -> (SR N (fun m => v c m * v c m) <= SR N (fun m => e (c * N + m)%nat * e (c * N + m)%nat))%R).
    { intros c Hc0. apply SR_le. intros m Hm. unfold v. assert (Ln : c * N + m < 3 * N) by nia.
      pose proof (Rle_0_sqr (e (c * N + m)%nat)) as Q. unfold Rsqr in Q. destruct (Hc _ Ln) as [-> | ->]; lra. }
    (* summing up *)
    rewrite <- SR_scal, !SR3.
    assert (B : forall d, d < 3 -> (SR N (fun m => kdt K * (krow K (d * N + m) * ktL K (d * N + m) * h (d * N + m)%nat * kcurl K e (d * N + m))) <=
        nu * SR N (fun m => wH (d * N + m) * (h (d * N + m)%nat * h (d * N + m)%nat)) + q * SR N (fun m => w d m * w d m))%R).
    { intros d Hd. rewrite <- !SR_scal, <- SR_plus. apply SR_le. intros m Hm. apply YI; assumption. }
    pose proof (B 0 ltac:(lia)) as B0. pose proof (B 1 ltac:(lia)) as B1. pose proof (B 2 ltac:(lia)) as B2.
    unfold wE. rewrite SR_scal in B0, B1, B2. rewrite !SR_scal.
    pose proof (VB 0 ltac:(lia)) as V0. pose proof (VB 1 ltac:(lia)) as V1. pose proof (VB 2 ltac:(lia)) as V2.
    set (A := (/ dx * / dx + / dy * / dy + / dz * / dz)%R) in *.
    set (SE := (SR N (fun m => e (0 * N + m)%nat * e (0 * N + m)%nat) + SR N (fun m => e (1 * N + m)%nat * e (1 * N + m)%nat) + SR N (fun m => e (2 * N + m)%nat * e (2 * N + m)%nat))%R).
    assert (Pa : (0 <= A)%R) by (unfold A; pose proof (Rle_0_sqr (/ dx)); pose proof (Rle_0_sqr (/ dy)); pose proof (Rle_0_sqr (/ dz)); unfold Rsqr in *; lra).
    assert (CB2 : (SR N (fun m => w 0%nat m * w 0%nat m) + SR N (fun m => w 1%nat m * w 1%nat m) + SR N (fun m => w 2%nat m * w 2%nat m) <= 4 * A * SE)%R).
    { eapply Rle_trans; [exact CB|]. apply Rmult_le_compat_l; [lra|]. unfold SE. lra. }
    assert (PS : (0 <= SE)%R) by (unfold SE; repeat apply Rplus_le_le_0_compat; apply SR_pos; intros; apply Rle_0_sqr).
    assert (QB : (q * (4 * A * SE) <= nu * (eps * V * SE))%R).
    { unfold q. replace (kdt K * kdt K * V / (4 * (nu * mu)) * (4 * A * SE))%R with (kdt K * kdt K * A * (V * SE / (nu * mu)))%R by (field; lra).
      replace (nu * (eps * V * SE))%R with (nu * nu * (eps * mu) * (V * SE / (nu * mu)))%R by (field; lra).
      apply Rmult_le_compat_r; [|exact Hdt]. apply Rmult_le_pos; [apply Rmult_le_pos; lra|]. left. apply Rinv_0_lt_compat, Pq. }
    assert (Pq2 : (0 <= q)%R). { unfold q. apply Rmult_le_pos; [apply Rmult_le_pos; [apply Rle_0_sqr|lra]|]. left. apply Rinv_0_lt_compat. lra. }
    assert (QC := Rmult_le_compat_l q _ _ Pq2 CB2). unfold SE in *. lra.
  Qed.

  Lemma energy_split e h :
    kenergy K wE wH e h = (SR (3 * N) (fun r => wE r * (e r * e r)) + SR (3 * N) (fun r => wH r * (h r * h r)) -
      kdt K * SR (3 * N) (fun r => krow K r * ktL K r * h r * kcurl K e r))%R.
  Proof.
    unfold kenergy. cbn [nadd nmul Num_R]. 
    assert (X : SR (3 * N) (fun r => (wH r * (h r * kH K e h r))%R) = (SR (3 * N) (fun r => (wH r * (h r * h r))%R) + (- kdt K) * SR (3 * N) (fun r => krow K r * ktL K r * h r * kcurl K e r))%R).
    { rewrite <- SR_scal, <- SR_plus. apply SR_ext. intros r Hr0. destruct (decode3 r Hr0) as (d & m & Hd & Hm & ->).
      pose proof (wH_face d m Hd Hm) as F. unfold face_ok in F. cbn [nmul Num_R] in F. unfold kH. cbn [nsub nmul Num_R]. rewrite <- F. ring. }
    change (@sum R Num_R) with SR. rewrite X. ring.
  Qed.

  Definition bulk (e h : nat -> R) : R := (SR (3 * N) (fun r => wE r * (e r * e r)) + SR (3 * N) (fun r => wH r * (h r * h r)))%R.
  Lemma energy_between e h : ((1 - nu) * bulk e h <= kenergy K wE wH e h <= (1 + nu) * bulk e h)%R.
  Proof.
    rewrite energy_split. pose proof (cross_bound e h) as C1. pose proof (cross_bound e (fun r => (- h r)%R)) as C2. fold (bulk e h) in C1.
    rewrite (SR_ext _ (fun r => (krow K r * ktL K r * - h r * kcurl K e r)%R) (fun r => (-1 * (krow K r * ktL K r * h r * kcurl K e r))%R)) in C2 by (intros; ring).
    rewrite SR_scal in C2.
    rewrite (SR_ext _ (fun r => (wH r * (- h r * - h r))%R) (fun r => (wH r * (h r * h r))%R)) in C2 by (intros; ring). fold (bulk e h) in C2.
    unfold bulk in *. lra.
  Qed.

  Context (Ncond : kcond K = false) (N1 : (nu < 1)%R).
  Lemma wH_face_all r : r < 3 * N -> face_ok K wH r.
  Proof. intros Hr0. destruct (decode3 r Hr0) as (d & m & Hd & Hm & ->). apply wH_face; assumption. Qed.
  Lemma bulk_ext e e' h h' : (forall r, r < 3 * N -> e r = e' r) -> (forall r, r < 3 * N -> h r = h' r) -> bulk e h = bulk e' h'.
  Proof. intros He Hh. unfold bulk. f_equal; apply SR_ext; intros r Hr0; [rewrite He by exact Hr0|rewrite Hh by exact Hr0]; reflexivity. Qed.
  Lemma bulk_pos e h : (0 <= bulk e h)%R.
  Proof.
    pose proof V_pos as PV. unfold bulk. apply Rplus_le_le_0_compat; apply SR_pos; intros r Hr0; apply Rmult_le_pos; try apply Rle_0_sqr.
    - unfold wE. apply Rmult_le_pos; lra.
    - apply wH_pos. exact Hr0.
  Qed.

  Lemma bulk_old n a : tfresh a = false -> (forall r, r < 3 * N -> tj a r = 0%R) -> (forall r, r < 3 * N -> edge_ok K wE (te a) r) ->
    let b := Nat.iter n (kstep K) a in ((1 - nu) * bulk (te b) (th b) <= (1 + nu) * bulk (te a) (th a))%R.
  Proof.
    intros Hf Hj HE b. destruct (kenergy_iter K wE wH HX HY Ncond wH_face_all n a Hf Hj HE) as (EE & _).
    pose proof (energy_between (te b) (th b)) as [B1 _]. pose proof (energy_between (te a) (th a)) as [_ B2].
    fold b in EE. rewrite EE in B1. lra.
  Qed.

  (** The same state after the first step's zeroing of the ghost layers. *)
  Definition unfresh (a : St R) : St R := {| te := effE K a; th := effH K a; tj := tj a; tfresh := false |}.
  Lemma kstep_unfresh a n : 0 < n -> Nat.iter n (kstep K) a = Nat.iter n (kstep K) (unfresh a).
  Proof.
    destruct n as [|n]; [lia|]. intros _. induction n as [|n IH]; [reflexivity|].
    change (kstep K (Nat.iter (S n) (kstep K) a) = kstep K (Nat.iter (S n) (kstep K) (unfresh a))). rewrite IH. reflexivity.
  Qed.
  Lemma eff_sq a r : (effE K a r * effE K a r <= te a r * te a r)%R /\ (effH K a r * effH K a r <= th a r * th a r)%R.
  Proof.
    pose proof (Rle_0_sqr (te a r)). pose proof (Rle_0_sqr (th a r)). unfold Rsqr in *. unfold effE, effH. cbn [nzero Num_R].
    split; match goal with |- context [if ?c then _ else _] => destruct c end; lra.
  Qed.
  Lemma bulk_unfresh a : (bulk (effE K a) (effH K a) <= bulk (te a) (th a))%R.
  Proof.
    pose proof V_pos as PV. unfold bulk. apply Rplus_le_compat; apply SR_le; intros r Hr0; apply Rmult_le_compat_l; try apply eff_sq.
    - unfold wE. apply Rmult_le_pos; lra.
    - apply wH_pos. exact Hr0.
  Qed.
  Lemma edge_unfresh a r : edge_ok K wE (te a) r -> edge_ok K wE (effE K a) r.
  Proof.
    intros [H|[H1 H2]]; [left; exact H|right; split; [exact H1|]]. unfold effE. destruct (tfresh a && _)%bool; [|exact H2]. cbn [nmul nzero Num_R]. ring.
  Qed.

  Lemma bulk_run n a : (forall r, r < 3 * N -> tj a r = 0%R) -> (forall r, r < 3 * N -> edge_ok K wE (te a) r) ->
    let b := Nat.iter n (kstep K) a in ((1 - nu) * bulk (te b) (th b) <= (1 + nu) * bulk (te a) (th a))%R.
  Proof.
    intros Hj HE b. pose proof (bulk_pos (te a) (th a)) as Pb. destruct n as [|n].
    - cbn in b. subst b. nra.
    - subst b. rewrite kstep_unfresh by lia. eapply Rle_trans; [apply (bulk_old (S n) (unfresh a) eq_refl Hj)|].
      + intros r Hr0. apply edge_unfresh, HE, Hr0.
      + apply Rmult_le_compat_l; [lra|]. apply bulk_unfresh.
  Qed.

  (** Faces without dual length never change when the curl vanishes there. *)
  Context (Hz : forall r e, r < 3 * N -> ktL K r = 0%R -> kcurl K e r = 0%R).
  Definition whole (e h : nat -> R) : R := (SR (3 * N) (fun r => eps * V * (e r * e r)) + SR (3 * N) (fun r => mu * V * (h r * h r)))%R.
  Definition rest (h : nat -> R) : R := SR (3 * N) (fun r => (mu * V - wH r) * (h r * h r))%R.
  Lemma whole_split e h : whole e h = (bulk e h + rest h)%R.
  Proof. unfold whole, bulk, rest. rewrite Rplus_assoc. f_equal. rewrite <- SR_plus. apply SR_ext. intros r _. ring. Qed.
  Lemma rest_case r : r < 3 * N -> (mu * V - wH r = 0)%R \/ (ktL K r = 0%R /\ (mu * V - wH r = mu * V)%R).
  Proof.
    intros Hr0. destruct (decode3 r Hr0) as (d & m & Hd & Hm & ->). unfold wH. destruct (div_mod3 d m Hm) as [-> _]. pose proof (ds_pos d).
    destruct (HtL d m Hd Hm) as [-> | ->]; [left; field; lra|right; split; [reflexivity|ring]].
  Qed.
  Lemma frozen n a : tfresh a = false -> forall r, r < 3 * N -> ktL K r = 0%R -> th (Nat.iter n (kstep K) a) r = th a r.
  Proof.
    intros Hf r Hr0 Z. induction n as [|n IH]; [reflexivity|]. cbn [Nat.iter nat_rect]. set (b := Nat.iter n (kstep K) a) in *.
    change (nat_rect _ a (fun _ => kstep K) n) with b. rewrite <- IH.
    assert (F : tfresh b = false) by (unfold b; destruct n; [exact Hf|reflexivity]).
    destruct (kstep_old K b F r Hr0) as [-> _]. unfold kH. rewrite Hz by assumption. cbn [nsub nmul Num_R]. ring.
  Qed.
  Lemma rest_run n a : (rest (th (Nat.iter n (kstep K) a)) <= rest (th a))%R.
  Proof.
    pose proof V_pos as PV. destruct n as [|n]; [right; reflexivity|]. rewrite kstep_unfresh by lia. unfold rest. apply SR_le. intros r Hr0.
    destruct (rest_case r Hr0) as [-> | [Z E]]; [lra|]. rewrite (frozen (S n) (unfresh a) eq_refl r Hr0 Z), E. cbn [unfresh th].
    apply Rmult_le_compat_l; [apply Rmult_le_pos; lra|]. apply eff_sq.
  Qed.
  Lemma whole_run n a : (forall r, r < 3 * N -> tj a r = 0%R) -> (forall r, r < 3 * N -> edge_ok K wE (te a) r) ->
    let b := Nat.iter n (kstep K) a in ((1 - nu) * whole (te b) (th b) <= (1 + nu) * whole (te a) (th a))%R.
  Proof.
    intros Hj HE b. rewrite !whole_split. pose proof (bulk_run n a Hj HE) as B. pose proof (rest_run n a) as Q. fold b in B, Q.
    assert (P0 : (0 <= rest (th a))%R).
    { pose proof V_pos as PV. apply SR_pos. intros r Hr0. destruct (rest_case r Hr0) as [-> | [_ ->]]; [lra|]. apply Rmult_le_pos; [apply Rmult_le_pos; lra|apply Rle_0_sqr]. }
    assert ((1 - nu) * rest (th b) <= (1 - nu) * rest (th a))%R by (apply Rmult_le_compat_l; lra). nra.
  Qed.
End Bound.
