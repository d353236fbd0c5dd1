(** Lemmas: metric, materials and time step of a solver on a graded mesh. *)
From Coq Require Import List Arith Bool Lia Reals Lra String.
From Verif Require Import Num Vec Index Matrix FieldModel FieldSpec FieldProofs FieldProofs2 GridModel GridProofs SolverModel SolverSpec SolverPlanes
  SolverBuild SolverMaterials SolverKern SolverCons SolverEnergy SolverFlux SolverFrozen SolverTime SolverPmlSpec SolverPml SolverPmlR SolverProps4
  StabSum Stab StabGrid StabKern StabGraded StabBox.
Import ListNotations.
Open Scope nat_scope.

Definition axis (g : Grid R) (d : nat) : list R := match d with 0 => gx g | 1 => gy g | _ => gz g end.
(** Cell length, and the distance of neighbouring cell centres, 0 at the last cell. *)
Definition len_at (x : list R) (i : nat) : R := (get x (i + 1) - get x i)%R.
Definition dual_at (x : list R) (i : nat) : R := if i + 2 <? List.length x then ((get x (i + 2) - get x i) / 2)%R else 0%R.

Definition prim_graded (g : Grid R) : Prop :=
  forall d i j k, in_box (gNx g) (gNy g) (gNz g) d i j k ->
    entry (gL g) d i j k = len_at (axis g d) (coord d i j k) /\
    (entry (giA g) d i j k = / (len_at (axis g (tr1 d)) (coord (tr1 d) i j k) * len_at (axis g (tr2 d)) (coord (tr2 d) i j k)))%R.
Definition dual_graded (g : Grid R) : Prop :=
  forall d i j k, in_box (gNx g) (gNy g) (gNz g) d i j k ->
    (0 <= entry (gtL g) d i j k)%R /\
    (coord d i j k + 1 < dim d (gNx g) (gNy g) (gNz g) -> entry (gtL g) d i j k = dual_at (axis g d) (coord d i j k)) /\
    (0 <= entry (gitA g) d i j k)%R /\
    (coord (tr1 d) i j k + 1 < dim (tr1 d) (gNx g) (gNy g) (gNz g) -> coord (tr2 d) i j k + 1 < dim (tr2 d) (gNx g) (gNy g) (gNz g) ->
     (entry (gitA g) d i j k = / (dual_at (axis g (tr1 d)) (coord (tr1 d) i j k) * dual_at (axis g (tr2 d)) (coord (tr2 d) i j k)))%R).

Lemma len_pos x i : increasing x -> i + 1 < List.length x -> (0 < len_at x i)%R.
Proof. intros H Hi. pose proof (H i Hi). unfold len_at. lra. Qed.
Lemma tilde_dual x i : i + 1 < List.length x -> (get (tilde x) (i + 1) - get (tilde x) i)%R = dual_at x i.
Proof.
  intros Hi. unfold tilde, dual_at. rewrite !get_tab by lia. cbn [nadd ndiv Num_R].
  destruct (Nat.ltb_spec (i + 1) (List.length x)); [|lia].
  destruct (Nat.ltb_spec (i + 1 + 1) (List.length x)) as [L|L]; destruct (Nat.ltb_spec (i + 2) (List.length x)) as [L2|L2]; try lia.
  - replace (i + 1 + 1) with (i + 2) by lia. unfold two. cbn [nadd none_ Num_R]. field.
  - replace (List.length x - 2) with i by lia. ring.
Qed.
Lemma dual_pos x i : increasing x -> (0 <= dual_at x i)%R /\ (i + 2 < List.length x -> (0 < dual_at x i)%R).
Proof.
  intros H. unfold dual_at. destruct (Nat.ltb_spec (i + 2) (List.length x)) as [L|L]; [|split; [lra|lia]].
  pose proof (H i ltac:(lia)). pose proof (H (i + 1) ltac:(lia)) as B. replace (i + 1 + 1) with (i + 2) in B by lia. split; [|intros _]; lra.
Qed.

Lemma axes_graded x y z g : compute_grid x y z = Ok g -> (forall d, increasing (axis g d)) -> prim_graded g /\ dual_graded g.
Proof.
  intros E Inc.
  assert (Lx : 2 <= List.length x /\ 2 <= List.length y /\ 2 <= List.length z).
  { unfold compute_grid in E. destruct (2 <=? List.length x) eqn:A; [|discriminate]. destruct (2 <=? List.length y) eqn:B; [|discriminate].
    destruct (2 <=? List.length z) eqn:C; [|discriminate]. apply Nat.leb_le in A, B, C. auto. }
  destruct Lx as (L1 & L2 & L3).
  destruct (compute_grid_spec x y z L1 L2 L3) as (g2 & E2 & Ex & Ey & Ez & _ & _ & _ & _ & V). rewrite E in E2. injection E2 as <-.
  assert (Nx : gNx g = List.length x - 1) by (unfold gNx; rewrite Ex; reflexivity). assert (Ny : gNy g = List.length y - 1) by (unfold gNy; rewrite Ey; reflexivity).
  assert (Nz : gNz g = List.length z - 1) by (unfold gNz; rewrite Ez; reflexivity).
  assert (PL : forall d i j k, in_box (gNx g) (gNy g) (gNz g) d i j k -> entry (gL g) d i j k = len_at (axis g d) (coord d i j k)).
  { intros d i j k (Hd & Hi & Hj & Hk). destruct (V i j k Hi Hj Hk) as (A & B & C & _). cbn [nsub Num_R] in *.
    unfold axis, len_at. rewrite Ex, Ey, Ez. destruct d as [|[|[|d]]]; [assumption..|lia]. }
  assert (DL : forall d i j k, in_box (gNx g) (gNy g) (gNz g) d i j k -> entry (gtL g) d i j k = dual_at (axis g d) (coord d i j k)).
  { intros d i j k (Hd & Hi & Hj & Hk). destruct (V i j k Hi Hj Hk) as (_ & _ & _ & A & B & C & _). cbn [nsub Num_R] in *.
    unfold axis. rewrite Ex, Ey, Ez. destruct d as [|[|[|d]]]; [rewrite A|rewrite B|rewrite C|lia]; cbn [coord]; apply tilde_dual; lia. }
  assert (T1 : forall d, d < 3 -> tr1 d < 3 /\ tr1 d <> d /\ tr2 d < 3 /\ tr2 d <> d) by (intros [|[|[|d]]] Hd; cbn; lia).
  split.
  - intros d i j k Hb. split; [apply PL; exact Hb|]. destruct Hb as (Hd & Hi & Hj & Hk). destruct (V i j k Hi Hj Hk) as (_ & _ & _ & _ & _ & _ & F).
    destruct (F d Hd) as [-> _]. destruct (T1 d Hd) as (A & _ & B & _). rewrite !PL by (repeat split; assumption). cbn [ndiv nmul none_ Num_R]. unfold Rdiv. ring.
  - intros d i j k Hb. rewrite (DL d i j k Hb). split; [apply dual_pos, Inc|]. split; [reflexivity|].
    destruct Hb as (Hd & Hi & Hj & Hk). destruct (V i j k Hi Hj Hk) as (_ & _ & _ & _ & _ & _ & F).
    destruct (F d Hd) as [_ ->]. destruct (T1 d Hd) as (A & A' & B & B').
    assert (Z : forall a b : R, inv_where a b = (if Req_EM_T (a * b) 0 then 0 else / (a * b))%R).
    { intros a b. unfold inv_where. cbn [neqb nmul ndiv none_ nzero Num_R]. destruct (Req_EM_T (a * b) 0); [reflexivity|]. unfold Rdiv. ring. }
    rewrite Z, !DL by (repeat split; assumption).
    set (a := dual_at (axis g (tr1 d)) (coord (tr1 d) i j k)). set (b := dual_at (axis g (tr2 d)) (coord (tr2 d) i j k)).
    assert (Pa : (0 <= a)%R) by (apply dual_pos, Inc). assert (Pb : (0 <= b)%R) by (apply dual_pos, Inc).
    assert (Pab : (0 <= a * b)%R) by (apply Rmult_le_pos; assumption).
    assert (Lt : forall c, c < 3 -> coord c i j k + 1 < dim c (gNx g) (gNy g) (gNz g) -> coord c i j k + 2 < List.length (axis g c)).
    { intros c Hc. unfold axis. rewrite Ex, Ey, Ez. destruct c as [|[|[|c]]]; cbn [coord dim]; lia. }
    split.
    + destruct (Req_EM_T _ _) as [Q|Q]; [lra|]. apply Rlt_le, Rinv_0_lt_compat. lra.
    + intros C1 C2. destruct (Req_EM_T _ _) as [Q|Q]; [exfalso|reflexivity].
      assert (0 < a)%R by (apply dual_pos; [apply Inc|apply Lt; assumption]). assert (0 < b)%R by (apply dual_pos; [apply Inc|apply Lt; assumption]).
      pose proof (Rmult_lt_0_compat a b). lra.
Qed.

Section Wrap.
  Context (Nx Ny Nz : nat).
  Lemma wrapL_inner (w : nat -> bool) (L : Field R) c i j k acc : coord c i j k + 1 < dim c Nx Ny Nz -> wrapL w L Nx Ny Nz c i j k acc = acc.
  Proof.
    intros H. unfold wrapL. destruct (Nat.eqb_spec (coord c i j k) (dim c Nx Ny Nz - 1)); [lia|]. rewrite andb_false_r. reflexivity.
  Qed.
  Lemma wrapA1_inner (w : nat -> bool) (L : Field R) c i j k a acc : (a <> c -> coord a i j k + 1 < dim a Nx Ny Nz) -> wrapA1 w L Nx Ny Nz c i j k a acc = acc.
  Proof.
    intros H. unfold wrapA1. destruct (Nat.eqb_spec c a) as [E|E]; cbn [negb]; [rewrite andb_false_r; reflexivity|].
    destruct (Nat.eqb_spec (coord a i j k) (dim a Nx Ny Nz - 1)); [specialize (H ltac:(congruence)); lia|]. rewrite andb_false_r. reflexivity.
  Qed.
  Lemma wrapA_inner (w : nat -> bool) (L : Field R) c i j k acc : c < 3 -> coord (tr1 c) i j k + 1 < dim (tr1 c) Nx Ny Nz -> coord (tr2 c) i j k + 1 < dim (tr2 c) Nx Ny Nz ->
    wrapA w L Nx Ny Nz c i j k acc = acc.
  Proof.
    intros Hc H1 H2. unfold wrapA. rewrite !wrapA1_inner; [reflexivity|..]; intros N; destruct c as [|[|[|c]]]; try lia; cbn [tr1 tr2] in H1, H2; cbn [coord dim] in *; lia.
  Qed.
  Lemma wrapL_pos (w : nat -> bool) (L : Field R) c i j k acc : i < Nx -> j < Ny -> k < Nz ->
    (forall i j k, i < Nx -> j < Ny -> k < Nz -> (0 <= entry L c i j k)%R) -> (0 <= acc)%R -> (0 <= wrapL w L Nx Ny Nz c i j k acc)%R.
  Proof.
    intros Hi Hj Hk H Ha. unfold wrapL. destruct (_ && _)%bool; [|exact Ha]. destruct c as [|[|c]]; cbn [set_coord entry3]; apply H; lia.
  Qed.
  Lemma wrapA1_pos (w : nat -> bool) (L : Field R) c i j k a acc : i < Nx -> j < Ny -> k < Nz ->
    (forall i j k, i < Nx -> j < Ny -> k < Nz -> (0 <= entry L c i j k)%R) -> (0 <= acc)%R -> (0 <= wrapA1 w L Nx Ny Nz c i j k a acc)%R.
  Proof.
    intros Hi Hj Hk H Ha. unfold wrapA1. destruct (_ && _)%bool; [|exact Ha]. destruct a as [|[|a]]; cbn [set_coord entry3]; apply H; lia.
  Qed.
  Lemma wrapA_pos (w : nat -> bool) (L : Field R) c i j k acc : i < Nx -> j < Ny -> k < Nz ->
    (forall i j k, i < Nx -> j < Ny -> k < Nz -> (0 <= entry L c i j k)%R) -> (0 <= acc)%R -> (0 <= wrapA w L Nx Ny Nz c i j k acc)%R.
  Proof. intros Hi Hj Hk H Ha. unfold wrapA. repeat apply wrapA1_pos; assumption. Qed.
End Wrap.

Lemma axis_len (g : Grid R) d : d < 3 -> dim d (gNx g) (gNy g) (gNz g) = List.length (axis g d) - 1.
Proof. intros Hd. destruct d as [|[|[|d]]]; [reflexivity..|lia]. Qed.

Lemma used_graded env (g : Grid R) ar s g' : grid_ok g -> construct env g ar = Ok (s, g') -> (forall d, increasing (axis g d)) ->
  prim_graded g -> dual_graded g ->
  gx g' = gx g /\ gy g' = gy g /\ gz g' = gz g /\ prim_graded g' /\ dual_graded g'.
Proof.
  intros Hg Hc Inc HP HD.
  destruct (construct_spec env g ar s g' Hg Hc) as
    (bo & M & Hbo & _ & _ & _ & _ & _ & _ & _ & _ & _ & _ & _ & _ & _ & _ & _ & _ & _ & _ & _ & _ & _ & _ & _ & _ & Eg).
  destruct (apply_bc_spec g (sbl s) (sbh s) Hg) as [bo' [Fr [Fc [Hbo' [_ [_ [_ [_ [A _]]]]]]]]].
  rewrite Hbo in Hbo'. injection Hbo' as <-. subst g'. cbn [with_dual gx gy gz]. do 3 (split; [reflexivity|]).
  split; [exact HP|]. intros d i j k Hb. destruct (HD d i j k Hb) as (D1 & D2 & D3 & D4). destruct Hb as (Hd & Hi & Hj & Hk).
  change (gNx (with_dual g (bo_tL bo) (bo_itA bo))) with (gNx g) in *. change (gNy (with_dual g (bo_tL bo) (bo_itA bo))) with (gNy g) in *.
  change (gNz (with_dual g (bo_tL bo) (bo_itA bo))) with (gNz g) in *.
  change (axis (with_dual g (bo_tL bo) (bo_itA bo))) with (axis g).
  cbn [with_dual gtL gitA]. destruct (A d i j k Hd Hi Hj Hk) as (_ & _ & -> & ->).
  assert (Ln : forall d i j k, d < 3 -> i < gNx g -> j < gNy g -> k < gNz g -> (0 < len_at (axis g d) (coord d i j k))%R).
  { intros d0 i0 j0 k0 Hd0 Hi0 Hj0 Hk0. apply len_pos; [apply Inc|]. pose proof (axis_len g d0 Hd0) as E. destruct d0 as [|[|[|d0]]]; cbn [coord dim] in *; lia. }
  assert (PL : forall i j k, i < gNx g -> j < gNy g -> k < gNz g -> (0 <= entry (gL g) d i j k)%R).
  { intros i0 j0 k0 A1 A2 A3. destruct (HP d i0 j0 k0 ltac:(repeat split; assumption)) as [-> _]. apply Rlt_le, Ln; assumption. }
  assert (PA : forall i j k, i < gNx g -> j < gNy g -> k < gNz g -> (0 <= entry (giA g) d i j k)%R).
  { intros i0 j0 k0 A1 A2 A3. destruct (HP d i0 j0 k0 ltac:(repeat split; assumption)) as [_ ->].
    apply Rlt_le, Rinv_0_lt_compat, Rmult_lt_0_compat; apply Ln; try assumption; destruct d as [|[|[|d]]]; cbn; lia. }
  split; [repeat apply wrapL_pos; assumption|]. split; [intros H; rewrite !wrapL_inner by exact H; apply D2, H|].
  split; [repeat apply wrapA_pos; assumption|]. intros H1 H2. rewrite !wrapA_inner by assumption. apply D4; assumption.
Qed.

Lemma grid_graded env (g : Grid R) : grid_obj env g -> (forall d, increasing (axis g d)) -> prim_graded g /\ dual_graded g.
Proof.
  induction 1 as [x y z g E|g ar s g' Hg IH Hc]; [exact (axes_graded x y z g E)|].
  intros Inc. pose proof (grid_obj_ok env g Hg) as Gk.
  assert (Sx : axis g' = axis g).
  { destruct (construct_spec env g ar s g' Gk Hc) as
      (bo & M & _ & _ & _ & _ & _ & _ & _ & _ & _ & _ & _ & _ & _ & _ & _ & _ & _ & _ & _ & _ & _ & _ & _ & _ & _ & ->). reflexivity. }
  rewrite Sx in Inc. destruct (IH Inc) as [P D].
  destruct (used_graded env g ar s g' Gk Hc Inc P D) as (_ & _ & _ & A & B). auto.
Qed.

(** Least cell length of an axis. *)
Lemma least (l : list R) : l <> [] -> exists m, In m l /\ forall x, In x l -> (m <= x)%R.
Proof.
  induction l as [|a l IH]; [congruence|]. intros _. destruct l as [|b l].
  - exists a. split; [left; reflexivity|]. intros x [<- | []]. lra.
  - destruct (IH ltac:(discriminate)) as (m & Hm & H). destruct (Rle_lt_dec a m) as [L|L].
    + exists a. split; [left; reflexivity|]. intros x [<- | Hx]; [lra|]. specialize (H x Hx). lra.
    + exists m. split; [right; exact Hm|]. intros x [<- | Hx]; [lra|]. exact (H x Hx).
Qed.
Lemma len_diff x i : i + 1 < List.length x -> In (len_at x i) (diff x).
Proof. intros H. unfold diff, tab. apply in_map_iff. exists i. split; [reflexivity|]. apply in_seq. lia. Qed.
Lemma diff_len x v : In v (diff x) -> exists i, i + 1 < List.length x /\ v = len_at x i.
Proof. unfold diff, tab. intros H. apply in_map_iff in H. destruct H as (i & <- & Hi). apply in_seq in Hi. exists i. split; [lia|reflexivity]. Qed.
Lemma least_len x : 2 <= List.length x -> increasing x ->
  exists m, In m (diff x) /\ (0 < m)%R /\ (forall i, i + 1 < List.length x -> (m <= len_at x i)%R) /\ (forall i, i + 2 < List.length x -> (m <= dual_at x i)%R).
Proof.
  intros Hl Inc. destruct (least (diff x)) as (m & Hm & H).
  { pose proof (len_diff x 0 ltac:(lia)) as Q. intros E. rewrite E in Q. destruct Q. }
  assert (Hle : forall i, i + 1 < List.length x -> (m <= len_at x i)%R) by (intros i Hi; apply H, len_diff, Hi).
  exists m. split; [exact Hm|]. split; [destruct (diff_len x m Hm) as (i & Hi & ->); apply len_pos; assumption|]. split; [exact Hle|].
  intros i Hi. unfold dual_at. destruct (Nat.ltb_spec (i + 2) (List.length x)); [|lia].
  pose proof (Hle i ltac:(lia)) as A. pose proof (Hle (i + 1) ltac:(lia)) as B. unfold len_at in *. replace (i + 1 + 1) with (i + 2) in B by lia. lra.
Qed.

(** Materials no faster than vacuum: permittivity at least [er] or infinite, permeability at least [mr], no gain. *)
Definition slow (er mr : R) (m : material R) : Prop :=
  forall e, find_material m = Ok e ->
    match me_eps e with Fin x => (er <= x)%R | Inf => True end /\
    match me_mu e with Fin y => (mr <= y)%R | Inf => False end /\
    match me_sigma e with Some s => (0 <= s)%R | None => True end.
Lemma slow_passive er mr m : (0 < er)%R -> slow er mr m -> passive m.
Proof. intros P H e He. destruct (H e He) as (A & _ & B). split; [|exact B]. destruct (me_eps e); [lra|exact I]. Qed.

Definition between (F : Field R) (Nx Ny Nz : nat) (P : R -> Prop) : Prop :=
  forall c i j k, c < 3 -> i < Nx -> j < Ny -> k < Nz -> P (entry F c i j k).
Lemma over_range x e0 er : (0 < e0)%R -> (0 < er)%R -> match x with Fin r => (er <= r)%R | Inf => True end ->
  (0 <= over_ext (none_ : R) x e0 <= / (er * e0))%R.
Proof.
  intros H0 He Hx. assert (0 < er * e0)%R by (apply Rmult_lt_0_compat; assumption). pose proof (Rinv_0_lt_compat _ H).
  destruct x as [r|]; cbn; [|lra]. unfold Rdiv. rewrite Rmult_1_l. assert (er * e0 <= r * e0)%R by (apply Rmult_le_compat_r; lra).
  split; [apply Rlt_le, Rinv_0_lt_compat; lra|apply Rinv_le_contravar; lra].
Qed.
Lemma over_mu x m0 mr : (0 < m0)%R -> (0 < mr)%R -> match x with Fin r => (mr <= r)%R | Inf => False end ->
  (0 < over_ext (none_ : R) x m0 <= / (mr * m0))%R.
Proof.
  intros H0 He Hx. assert (0 < mr * m0)%R by (apply Rmult_lt_0_compat; assumption).
  destruct x as [r|]; [|destruct Hx]. cbn. unfold Rdiv. rewrite Rmult_1_l. assert (mr * m0 <= r * m0)%R by (apply Rmult_le_compat_r; lra).
  split; [apply Rinv_0_lt_compat; lra|apply Rinv_le_contravar; lra].
Qed.
Lemma build_range env Nx Ny Nz bg c0 solids M er mr : (0 < e_eps0 env)%R -> (0 < e_mu0 env)%R -> (0 < er)%R -> (0 < mr)%R -> slow er mr bg ->
  (forall so, In so solids -> slow er mr (so_mat so)) ->
  build_materials env Nx Ny Nz bg c0 solids = Ok M ->
  between (mt_ieps M) Nx Ny Nz (fun v => (0 <= v <= / (er * e_eps0 env))%R) /\ between (mt_imu M) Nx Ny Nz (fun v => (0 < v <= / (mr * e_mu0 env))%R).
Proof.
  intros H0 H0' Pe Pm Hb Hs H. unfold build_materials in H. binv H e He. binv H ie H1. binv H im H2. binv H sgm H3.
  destruct (uniform_field_spec Nx Ny Nz (over_ext (none_ : R) (me_eps e) (e_eps0 env))) as [F1 [E1 [S1 A1]]].
  destruct (uniform_field_spec Nx Ny Nz (over_ext (none_ : R) (me_mu e) (e_mu0 env))) as [F2 [E2 [S2 A2]]].
  destruct (uniform_field_spec Nx Ny Nz (match me_sigma e with Some s => s | None => (nzero : R) end)) as [F3 [E3 [S3 A3]]].
  rewrite H1 in E1. rewrite H2 in E2. rewrite H3 in E3.
  injection E1 as <-. injection E2 as <-. injection E3 as <-.
  set (P := fun M => mats_sized M Nx Ny Nz /\ between (mt_ieps M) Nx Ny Nz (fun v => (0 <= v <= / (er * e_eps0 env))%R) /\
    between (mt_imu M) Nx Ny Nz (fun v => (0 < v <= / (mr * e_mu0 env))%R)).
  assert (G : P M); [|apply G]. revert H. apply (seq_upd_inv P); unfold P.
  - split; [repeat split; first [apply S1|apply S2|apply S3]|]. destruct (Hb e He) as (B1 & B2 & _). split; intros c i j k Hc Hi Hj Hk; cbn [mt_ieps mt_imu].
    + rewrite A1 by assumption. apply over_range; assumption.
    + rewrite A2 by assumption. apply over_mu; assumption.
  - intros M0 so M1 Hin (SM & N1 & N2) E. destruct (apply_solid_spec _ _ _ _ _ _ _ _ SM E) as [S' [e1 [F1 [_ V]]]].
    destruct (Hs so Hin e1 F1) as (B1 & B2 & _).
    split; [exact S'|]. split; intros c i j k Hc Hi Hj Hk; destruct (V c i j k Hc Hi Hj Hk) as (V1 & V2 & _).
    + rewrite V1. destruct (cell_mask _ _ _ _ _ _); [apply over_range; assumption|apply N1; assumption].
    + rewrite V2. destruct (cell_mask _ _ _ _ _ _); [apply over_mu; assumption|apply N2; assumption].
Qed.
Lemma fill_between env n bl bh Nx Ny Nz (P : R -> Prop) ie sg ie' sg' : real_pml env -> 1 <= n ->
  (forall a, a < 3 -> 2 * n + 2 <= dim a Nx Ny Nz) ->
  sized ie Nx Ny Nz -> sized sg Nx Ny Nz -> between ie Nx Ny Nz P ->
  fill_pml env n bl bh ie sg = Ok (ie', sg') -> between ie' Nx Ny Nz P.
Proof.
  intros (Hg & Hlo & Hhi) Hn Hr S1 S2 N1 H.
  assert (Gl : forall a b m, List.length (e_geom env a b m) = m) by (intros; rewrite Hg; apply geomspace_length).
  destruct (fill_spec env n bl bh Nx Ny Nz Gl Hn Hr ie sg S1 S2) as (i1 & s1 & E & _ & _ & A).
  rewrite H in E. injection E as <- <-.
  intros c i j k Hc Hi Hj Hk. destruct (A c i j k Hc Hi Hj Hk) as [A1 A2].
  destruct (all_faces_dec n bl bh Nx Ny Nz i j k) as [Ho|[f Hd]].
  - destruct (A1 Ho) as [-> _]. apply N1; assumption.
  - destruct (A2 f Hd) as [-> _]. destruct (decided_depth _ _ _ _ _ _ _ _ _ _ Hd) as [Dp Hin].
    assert (Hs : snd f < 3) by (cbn in Hin; repeat (destruct Hin as [<- | Hin]; [cbn; lia|]); destruct Hin).
    pose proof (ref_outside n bl bh Nx Ny Nz Hn Hr f f Hs Hs) as Rf.
    destruct (ref_cell n Nx Ny Nz f) as [[ri rj] rk]. destruct Rf as (Ri & Rj & Rk & _). cbn [entry3]. apply N1; assumption.
Qed.
Lemma made_range env g g' ar (s : Solver R) er mr : made env g g' ar s -> (0 < e_eps0 env)%R -> (0 < e_mu0 env)%R -> (0 < er)%R -> (0 < mr)%R -> slow er mr (ar_bg ar) ->
  (forall so, In so (ar_solids ar) -> slow er mr (so_mat so)) -> (spml s = true -> layers_fit env g ar) ->
  between (sieps s) (gNx g) (gNy g) (gNz g) (fun v => (0 <= v <= / (er * e_eps0 env))%R) /\
  between (simu s) (gNx g) (gNy g) (gNz g) (fun v => (0 < v <= / (mr * e_mu0 env))%R).
Proof.
  intros Hm H0 H1 Pe Pm Hb Hs Hp. destruct (made_conf _ _ _ _ _ Hm) as (s0 & Hg & Hco & A1 & A2 & A3 & _ & _ & A6 & A7 & A8 & _).
  destruct (construct_spec env g ar s0 g' (grid_obj_ok env g Hg) Hco) as
    (bo & M & Hbo & Hbc & HM & (S1 & _ & S3) & Hms & _ & _ & _ & _ & _ & _ & _ & Emu & _ & _ & _ & _ & Ep & Sie & _ & Ssg & _).
  destruct (build_range _ _ _ _ _ _ _ _ er mr H0 H1 Pe Pm Hb Hs HM) as [N1 N2]. rewrite A1, A2. rewrite A8, Ep in Hp.
  split; [|rewrite Emu; exact N2]. destruct (bo_pml bo).
  - destruct (Hp eq_refl) as (Rp & Hn & Hr). exact (fill_between _ _ _ _ _ _ _ _ _ _ _ _ Rp Hn Hr S1 S3 N1 Hms).
  - injection Hms as Q _. rewrite <- Q. exact N1.
Qed.
