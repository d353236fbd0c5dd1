(** Properties C128 and C129: how far an absorbing wall of the two-dimensional solver reaches, and conductors at it. *)
From Coq Require Import List Arith ZArith Bool String Lia Ring Field QArith Qcanon Reals Lra.
From Verif Require Import Num Vec FieldModel GridModel SolverModel WakeModel WakeNum Grid2DModel Grid2DArea Solver2DModel Solver2DProofs Solver2DRuns Solver2DProps Pml2DModel Pml2DProofs Pml2DProps.
Import ListNotations.
Open Scope nat_scope.

(** ** C128 *)
(** Edges and cells at least [n] away from the absorbing walls, along one axis of [m] cells; [lo], [hi] say which of its
    two walls are absorbing.  Cell [i] lies between the edges [i] and [i + 1]. *)
Definition deep (lo hi : bool) (m n i : nat) : Prop := (lo = true -> n <= i) /\ (hi = true -> i + n <= m).
Definition deep_cell (lo hi : bool) (m n i : nat) : Prop := (lo = true -> n <= S i) /\ (hi = true -> i + n <= m).
(** After [n] steps the fields at that depth are the ones of the run in a box of electric walls. *)
Definition untouched {T} (p : @par2 T) (w : walls) (n : nat) (s s' : @em2 T) : Prop := forall i j,
  (deep (w_lx w) (w_rx w) (p_nx p) n i -> deep_cell (w_ly w) (w_ry w) (p_ny p) n j -> ey s i j = ey s' i j) /\
  (deep_cell (w_lx w) (w_rx w) (p_nx p) n i -> deep (w_ly w) (w_ry w) (p_ny p) n j -> ex s i j = ex s' i j) /\
  (deep_cell (w_lx w) (w_rx w) (p_nx p) n i -> deep_cell (w_ly w) (w_ry w) (p_ny p) n j -> hz s i j = hz s' i j).

Lemma build2_has : forall w nx ny a b c d, match build2 w nx ny a b c d with
  | Ok s => (has s Lx, has s Rx, has s Ly, has s Ry) = (w_lx w, w_rx w, w_ly w, w_ry w) | Err _ => True end.
Proof. intros [a b c d] nx ny n1 n2 n3 n4. destruct a, b, c, d; vm_compute; try exact I; reflexivity. Qed.
Lemma new_conf_has {T} {NT : Num T} (p : @par2 T) c w l k : new_conf p c w l = Ok k ->
  k_p k = p /\ has (k_pm k) Lx = w_lx w /\ has (k_pm k) Rx = w_rx w /\ has (k_pm k) Ly = w_ly w /\ has (k_pm k) Ry = w_ry w.
Proof.
  unfold new_conf. pose proof (build2_has w (p_nx p) (p_ny p) (l_lx l) (l_rx l) (l_ly l) (l_ry l)) as B. destruct (build2 _ _ _ _ _ _ _) as [s|]; [|discriminate].
  cbn. intros E. injection E as <-. cbn. injection B as B1 B2 B3 B4. auto.
Qed.
Section Reach.
  Context {T : Type} {NT : Num T} {OT : NumOrd T} (log_ : T -> T) (p : @par2 T) (c : T) (w : walls) (l : lay) (k : @conf T) (Hk : new_conf p c w l = Ok k).
  Context (hs : @em2 T -> @em2 T) (es : (nat -> nat -> T) -> (nat -> nat -> T) -> @em2 T -> @em2 T) (c4 c5 : T).
  Context (H1 : forall m i j, ex (hs m) i j = ex m i j /\ ey (hs m) i j = ey m i j)
          (H2 : forall m m' i j, hz m i j = hz m' i j -> ex m i j = ex m' i j -> ex m i (S j) = ex m' i (S j) -> ey m i j = ey m' i j -> ey m (S i) j = ey m' (S i) j ->
                hz (hs m) i j = hz (hs m') i j)
          (E1 : forall jx jy m i j, hz (es jx jy m) i j = hz m i j)
          (E2 : forall jx jy m m' i j, ex m i j = ex m' i j -> (1 <= j -> i < p_nx p -> j < p_ny p -> hz m i j = hz m' i j /\ hz m i (j - 1) = hz m' i (j - 1)) -> ex (es jx jy m) i j = ex (es jx jy m') i j)
          (E3 : forall jx jy m m' i j, ey m i j = ey m' i j -> (1 <= i -> i < p_nx p -> j < p_ny p -> hz m i j = hz m' i j /\ hz m (i - 1) j = hz m' (i - 1) j) -> ey (es jx jy m) i j = ey (es jx jy m') i j).
  Lemma reach_step n jx jy s s' : untouched p w n (mn s) s' -> untouched p w (S n) (mn (step_blocks log_ k hs (es jx jy) c4 c5 jx jy s)) (es jx jy (hs s')).
  Proof.
    intros U. destruct (new_conf_has p c w l k Hk) as (Kp & K1 & K2 & K3 & K4).
    assert (Hzz : forall i j, deep_cell (w_lx w) (w_rx w) (p_nx p) (S n) i -> deep_cell (w_ly w) (w_ry w) (p_ny p) (S n) j -> hz (hs (mn s)) i j = hz (hs s') i j).
    { unfold deep_cell. intros i j [A1 A2] [B1 B2]. apply H2; [apply (U i j)|apply (U i j)|apply (U i (S j))|apply (U i j)|apply (U (S i) j)]; unfold deep, deep_cell; split; intros F; try (specialize (A1 F)); try (specialize (A2 F)); try (specialize (B1 F)); try (specialize (B2 F)); clear - A1 A2 B1 B2; lia. }
    intros i j. unfold step_blocks. cbn [mn]. unfold m_bound. cbn [ex ey hz mn]. rewrite Kp, K1, K2, K3, K4. split; [|split].
    - intros [A1 A2] [B1 B2].
      replace ((i =? 0) && (j <? p_ny p) && w_lx w) with false; [replace ((i =? p_nx p) && (j <? p_ny p) && w_rx w) with false|].
      + apply E3.
        * rewrite (proj2 (H1 _ _ _)), (proj2 (H1 _ _ _)). apply (U i j); split; intros F; [specialize (A1 F)|specialize (A2 F)|specialize (B1 F)|specialize (B2 F)]; clear - A1 A2 B1 B2; lia.
        * intros L1 L2 L3. split; apply Hzz; split; intros F; try (specialize (A1 F)); try (specialize (A2 F)); try (specialize (B1 F)); try (specialize (B2 F)); clear - A1 A2 B1 B2 L1 L2 L3; lia.
      + symmetry. destruct (w_rx w); [|apply andb_false_r]. specialize (A2 eq_refl). replace (i =? p_nx p) with false; [reflexivity|]. symmetry. apply Nat.eqb_neq. clear - A2. lia.
      + symmetry. destruct (w_lx w); [|apply andb_false_r]. specialize (A1 eq_refl). replace (i =? 0) with false; [reflexivity|]. symmetry. apply Nat.eqb_neq. clear - A1. lia.
    - intros [A1 A2] [B1 B2].
      replace ((i <? p_nx p) && (j =? 0) && w_ly w) with false; [replace ((i <? p_nx p) && (j =? p_ny p) && w_ry w) with false|].
      + apply E2.
        * rewrite (proj1 (H1 _ _ _)), (proj1 (H1 _ _ _)). apply (U i j); split; intros F; [specialize (A1 F)|specialize (A2 F)|specialize (B1 F)|specialize (B2 F)]; clear - A1 A2 B1 B2; lia.
        * intros L1 L2 L3. split; apply Hzz; split; intros F; try (specialize (A1 F)); try (specialize (A2 F)); try (specialize (B1 F)); try (specialize (B2 F)); clear - A1 A2 B1 B2 L1 L2 L3; lia.
      + symmetry. destruct (w_ry w); [|apply andb_false_r]. specialize (B2 eq_refl). replace (j =? p_ny p) with false; [rewrite andb_false_r; reflexivity|]. symmetry. apply Nat.eqb_neq. clear - B2. lia.
      + symmetry. destruct (w_ly w); [|apply andb_false_r]. specialize (B1 eq_refl). replace (j =? 0) with false; [rewrite andb_false_r; reflexivity|]. symmetry. apply Nat.eqb_neq. clear - B1. lia.
    - intros A B. rewrite !E1. apply Hzz; assumption.
  Qed.
  Lemma reach_run js : forall n s s', untouched p w n (mn s) s' ->
    untouched p w (List.length js + n) (mn (run_b (fun jx jy => step_blocks log_ k hs (es jx jy) c4 c5 jx jy) js s)) (run2 (fun jx jy s => es jx jy (hs s)) js s').
  Proof.
    induction js as [|[jx jy] js IH]; intros n s s' U; [exact U|]. cbn [List.length run_b run2 fold_left fst snd]. replace (S (List.length js) + n) with (List.length js + S n) by (clear; lia).
    apply IH. apply reach_step. exact U.
  Qed.
End Reach.
Section Reach2.
  Context {T : Type} {NT : Num T} {OT : NumOrd T} (p : @par2 T).
  Lemma fd_h m m' i j : hz m i j = hz m' i j -> ex m i j = ex m' i j -> ex m i (S j) = ex m' i (S j) -> ey m i j = ey m' i j -> ey m (S i) j = ey m' (S i) j ->
    hz (h_fdtd p m) i j = hz (h_fdtd p m') i j.
  Proof. intros A B C D E. cbn [hz h_fdtd]. rewrite A, B, C, D, E. reflexivity. Qed.
  Lemma dm_h m m' i j : hz m i j = hz m' i j -> ex m i j = ex m' i j -> ex m i (S j) = ex m' i (S j) -> ey m i j = ey m' i j -> ey m (S i) j = ey m' (S i) j ->
    hz (h_dm p m) i j = hz (h_dm p m') i j.
  Proof. intros A B C D E. cbn [hz h_dm]. unfold circ. rewrite A, B, C, D, E. reflexivity. Qed.
  Ltac grd := match goal with A : _ = _, B : _ -> _ -> _ -> _ /\ _ |- (if ?c then _ else _) = _ => let M := fresh in destruct c eqn:M; [|exact A];
    rewrite !andb_true_iff, !Nat.ltb_lt, Nat.leb_le in M; destruct B as [-> ->]; [apply M|apply M|apply M|]; rewrite A; reflexivity end.
  Lemma fd_x jx jy m m' i j : ex m i j = ex m' i j -> (1 <= j -> i < p_nx p -> j < p_ny p -> hz m i j = hz m' i j /\ hz m i (j - 1) = hz m' i (j - 1)) -> ex (e_fdtd p jx jy m) i j = ex (e_fdtd p jx jy m') i j.
  Proof. intros A B. cbn [ex e_fdtd]. grd. Qed.
  Lemma fd_y jx jy m m' i j : ey m i j = ey m' i j -> (1 <= i -> i < p_nx p -> j < p_ny p -> hz m i j = hz m' i j /\ hz m (i - 1) j = hz m' (i - 1) j) -> ey (e_fdtd p jx jy m) i j = ey (e_fdtd p jx jy m') i j.
  Proof. intros A B. cbn [ey e_fdtd]. grd. Qed.
  Lemma dm_x jx jy m m' i j : ex m i j = ex m' i j -> (1 <= j -> i < p_nx p -> j < p_ny p -> hz m i j = hz m' i j /\ hz m i (j - 1) = hz m' i (j - 1)) -> ex (e_dm p jx jy m) i j = ex (e_dm p jx jy m') i j.
  Proof. intros A B. cbn [ex e_dm]. grd. Qed.
  Lemma dm_y jx jy m m' i j : ey m i j = ey m' i j -> (1 <= i -> i < p_nx p -> j < p_ny p -> hz m i j = hz m' i j /\ hz m (i - 1) j = hz m' (i - 1) j) -> ey (e_dm p jx jy m) i j = ey (e_dm p jx jy m') i j.
  Proof. intros A B. cbn [ey e_dm]. grd. Qed.
  Lemma untouched_refl w (s : @em2 T) n : untouched p w n s s.
  Proof. intros i j. repeat split; reflexivity. Qed.
End Reach2.
(** Every choice of absorbing walls that can be built, every number of layers and every conductor, for both schemes. *)
Theorem C128_reach : forall (T : Type) (NT : Num T) (OT : NumOrd T) (log_ : T -> T) (p : @par2 T) c w l k js, new_conf p c w l = Ok k ->
  untouched p w (List.length js) (mn (run_b (step_fdtd_b log_ k) js zero_st)) (run2 (step_fdtd p) js zero2) /\
  untouched p w (List.length js) (mn (run_b (step_dm_b log_ k) js zero_st)) (run2 (step_dm p) js zero2).
Proof.
  intros T NT OT log_ p c w l k js Hk. destruct (new_conf_has p c w l k Hk) as (Kp & _). split.
  - pose proof (reach_run log_ p c w l k Hk (h_fdtd p) (e_fdtd p) (p_dt p / (p_dy p * p_eps p))%num (p_dt p / (p_dx p * p_eps p))%num ltac:(intros; split; reflexivity) (fd_h p) ltac:(reflexivity) (fd_x p) (fd_y p) js 0 zero_st zero2) as R.
    rewrite Nat.add_0_r in R. unfold step_fdtd_b. rewrite Kp. apply R. apply untouched_refl.
  - pose proof (reach_run log_ p c w l k Hk (h_dm p) (e_dm p) (p_dt p / (p_eps p * p_dy p))%num (p_dt p / (p_eps p * p_dy p))%num ltac:(intros; split; reflexivity) (dm_h p) ltac:(reflexivity) (dm_x p) (dm_y p) js 0 zero_st zero2) as R.
    rewrite Nat.add_0_r in R. unfold step_dm_b. rewrite Kp. apply R. apply untouched_refl.
Qed.
Print Assumptions C128_reach.
(** After three steps: the same field at depth 3, another one at depth 1. *)
Example C128_case : let z := Q2Qc 0 in let u := Q2Qc 1 in
  let p := {| p_g := base_grid (no_conductor (Q2Qc (1000 # 1))) (Q2Qc (1 # 1000)) u u z z; p_nx := 6; p_ny := 1; p_dx := u; p_dy := u; p_eps := u; p_mu := u; p_dt := Q2Qc (1 # 2) |} in
  let w := {| w_lx := true; w_rx := false; w_ly := false; w_ry := false |} in
  let j := (fun _ _ : nat => z, fun i j => if Nat.eqb i 1 then u else z) in
  match new_conf p u w {| l_lx := 2; l_rx := 2; l_ly := 2; l_ry := 2 |} with
  | Ok k => let r n := mn (run_b (step_fdtd_b (fun _ => Q2Qc (-7 # 1)) k) (j :: repeat off n) zero_st) in let e n := run2 (step_fdtd p) (j :: repeat off n) zero2 in
      (this (ey (r 2) 3 0), this (ey (e 2) 3 0), this (ey (r 2) 1 0), this (ey (e 2) 1 0)) = (-1 # 32, -1 # 32, 1 # 16, 3 # 32)%Q
  | Err _ => False
  end.
Proof. vm_compute. reflexivity. Qed.

(** ** C129 *)
Section Metal.
  Context {T : Type} {NT : Num T} {OT : NumOrd T} (p : @par2 T) (w : walls).
  (** inside the conductors: edges without free length, cells without free area; the edges on the absorbing walls apart *)
  Definition dead (s : @em2 T) : Prop :=
    (forall i j, g_int (p_g p) i j = false -> hz s i j = nzero) /\
    (forall i j, nltb nzero (g_lx (p_g p) i j) = false -> (j = 0 -> w_ly w = false) -> (j = p_ny p -> w_ry w = false) -> ex s i j = nzero) /\
    (forall i j, nltb nzero (g_ly (p_g p) i j) = false -> (i = 0 -> w_lx w = false) -> (i = p_nx p -> w_rx w = false) -> ey s i j = nzero).
  Lemma dead_zero : dead zero2. Proof. repeat split. Qed.
End Metal.
Lemma dead_step {T} {NT : Num T} {OT : NumOrd T} (log_ : T -> T) (p : @par2 T) c w l k hs es c4 c5 jx jy s : new_conf p c w l = Ok k ->
  (forall m, dead p w m -> dead p w (hs m)) -> (forall m, dead p w m -> dead p w (es m)) -> dead p w (mn s) -> dead p w (mn (step_blocks log_ k hs es c4 c5 jx jy s)).
Proof.
  intros Hk H E D. destruct (new_conf_has p c w l k Hk) as (Kp & K1 & K2 & K3 & K4). apply H, E in D. destruct D as (D1 & D2 & D3).
  unfold step_blocks. cbn [mn]. unfold m_bound. repeat split; cbn [ex ey hz mn]; rewrite ?Kp, ?K1, ?K2, ?K3, ?K4.
  - exact D1.
  - intros i j L A B. replace ((i <? p_nx p) && (j =? 0) && w_ly w) with false; [replace ((i <? p_nx p) && (j =? p_ny p) && w_ry w) with false; [apply D2; assumption|]|].
    + symmetry. destruct (j =? p_ny p) eqn:Q; [|rewrite andb_false_r; reflexivity]. apply Nat.eqb_eq in Q. rewrite (B Q). apply andb_false_r.
    + symmetry. destruct (j =? 0) eqn:Q; [|rewrite andb_false_r; reflexivity]. apply Nat.eqb_eq in Q. rewrite (A Q). apply andb_false_r.
  - intros i j L A B. replace ((i =? 0) && (j <? p_ny p) && w_lx w) with false; [replace ((i =? p_nx p) && (j <? p_ny p) && w_rx w) with false; [apply D3; assumption|]|].
    + symmetry. destruct (i =? p_nx p) eqn:Q; [|reflexivity]. apply Nat.eqb_eq in Q. rewrite (B Q). apply andb_false_r.
    + symmetry. destruct (i =? 0) eqn:Q; [|reflexivity]. apply Nat.eqb_eq in Q. rewrite (A Q). apply andb_false_r.
Qed.
Theorem C129_inside_partial : forall (T : Type) (NT : Num T) (OT : NumOrd T) (log_ : T -> T) (p : @par2 T) c w l k js, new_conf p c w l = Ok k ->
  dead p w (mn (run_b (step_fdtd_b log_ k) js zero_st)) /\ dead p w (mn (run_b (step_dm_b log_ k) js zero_st)).
Proof.
  intros T NT OT log_ p c w l k js Hk. destruct (new_conf_has p c w l k Hk) as (Kp & _).
  assert (G : forall st, (forall jx jy s, dead p w (mn s) -> dead p w (mn (st jx jy s))) -> forall s, dead p w (mn s) -> dead p w (mn (run_b st js s))).
  { intros st Hst. induction js as [|[jx jy] js IH]; intros s D; [exact D|]. cbn. apply IH, Hst, D. }
  split; apply G; try apply dead_zero; intros jx jy s D; [unfold step_fdtd_b|unfold step_dm_b]; rewrite Kp; eapply dead_step; try exact Hk; try exact D; intros m (D1 & D2 & D3); repeat split; cbn [ex ey hz h_fdtd h_dm e_fdtd e_dm]; try assumption.
  - intros i j L. rewrite L, !andb_false_r. apply D1, L.
  - intros i j L A B. rewrite L, !andb_false_r. apply D2; assumption.
  - intros i j L A B. rewrite L, !andb_false_r. apply D3; assumption.
  - intros i j L. rewrite L, !andb_false_r. apply D1, L.
  - intros i j L A B. rewrite L, !andb_false_r. apply D2; assumption.
  - intros i j L A B. rewrite L, !andb_false_r. apply D3; assumption.
Qed.
Print Assumptions C129_inside_partial.
(** np.log(0.001) to six decimals. *)
Definition qlog (_ : Qc) : Qc := Q2Qc (-6907755 # 1000000).
(** A conductor above y = 2 that ends at an absorbing low x wall: four steps after a pulse below it there is a field on an
    edge of the wall inside the conductor. *)
Definition pm : @par2 Qc := let z := Q2Qc 0 in let u := Q2Qc 1 in
  {| p_g := base_grid (plane z (Q2Qc (2 # 1)) z true) (Q2Qc (1 # 1000)) u u z z; p_nx := 1; p_ny := 3; p_dx := u; p_dy := u; p_eps := u; p_mu := u; p_dt := Q2Qc (1 # 2) |}.
Theorem C129_wall_refuted : exists (p : @par2 Qc) c w l k js i j, good_walls w = true /\ new_conf p c w l = Ok k /\ sizes p w l /\ (forall a, In a js -> calm p w a) /\
  (i <= p_nx p)%nat /\ (j < p_ny p)%nat /\ g_ly (p_g p) i j = Q2Qc 0 /\ g_int (p_g p) i j = false /\ ey (mn (run_b (step_fdtd_b qlog k) js zero_st)) i j <> Q2Qc 0.
Proof.
  set (jx := fun i j : nat => if Nat.eqb i 0 && Nat.eqb j 1 then Q2Qc 1 else Q2Qc 0).
  set (w := {| w_lx := true; w_rx := false; w_ly := false; w_ry := false |}). set (l := {| l_lx := 10; l_rx := 0; l_ly := 0; l_ry := 0 |}).
  assert (B : match new_conf pm (Q2Qc 1) w l with Ok k => negb (neqb (ey (mn (run_b (step_fdtd_b qlog k) ((jx, fun _ _ => Q2Qc 0) :: repeat off 3) zero_st)) 0 2) (Q2Qc 0)) = true | Err _ => False end) by (vm_compute; reflexivity).
  destruct (new_conf pm (Q2Qc 1) w l) as [k|] eqn:K; [|contradiction].
  exists pm, (Q2Qc 1), w, l, k, ((jx, fun _ _ => Q2Qc 0) :: repeat off 3), 0, 2. split; [reflexivity|]. split; [exact K|].
  split; [unfold sizes; cbn; repeat split; intros; try lia; discriminate|].
  split; [intros a [<-|I] n; [|repeat (destruct I as [<-|I]); [..|destruct I]]; cbn; repeat split; intros; try discriminate; reflexivity|].
  split; [cbn; lia|]. split; [cbn; lia|]. split; [vm_compute; reflexivity|]. split; [vm_compute; reflexivity|].
  intros E. rewrite E in B. vm_compute in B. discriminate.
Qed.
Print Assumptions C129_wall_refuted.
