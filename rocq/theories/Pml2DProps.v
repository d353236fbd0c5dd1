(** Property C127: the fields on the two sides of an absorbing wall of the two-dimensional solver. *)
From Coq Require Import List Arith ZArith Bool String Lia Ring Field QArith Qcanon Reals Lra.
From Verif Require Import Num Vec FieldModel GridModel SolverModel WakeModel WakeNum Grid2DModel Grid2DArea Solver2DModel Solver2DProofs Solver2DRuns Solver2DProps Pml2DModel Pml2DProofs.
Import ListNotations.
Open Scope nat_scope.

(** The grid and the blocks: where they lie (C112), how large they are, and their fields. *)
Definition at_ (a : who) : Z * Z := match a with Main => (0, 0)%Z | Blk b => pos b end.
Definition there (w : walls) (a : who) : Prop := match a with Main => True | Blk b => needed w b = true end.
Definition wide {T} (p : @par2 T) (l : lay) (a : who) : nat := width (l_lx l) (p_nx p) (l_rx l) (fst (at_ a)).
Definition high {T} (p : @par2 T) (l : lay) (a : who) : nat := width (l_ly l) (p_ny p) (l_ry l) (snd (at_ a)).
Definition area_ex {T} {NT : Num T} (s : @st2 T) (a : who) : nat -> nat -> T := match a with Main => ex (mn s) | Blk b => b_ex (bl s b) end.
Definition area_ey {T} {NT : Num T} (s : @st2 T) (a : who) : nat -> nat -> T := match a with Main => ey (mn s) | Blk b => b_ey (bl s b) end.
(** Two areas beside each other hold the same field on their common edges. *)
Definition joined {T} {NT : Num T} (p : @par2 T) (w : walls) (l : lay) (s : @st2 T) : Prop := forall a b, there w a -> there w b ->
  (at_ b = (fst (at_ a) + 1, snd (at_ a))%Z -> forall j, j < high p l a -> area_ey s a (wide p l a) j = area_ey s b 0 j) /\
  (at_ b = (fst (at_ a), snd (at_ a) + 1)%Z -> forall i, i < wide p l a -> area_ex s a i (high p l a) = area_ex s b i 0).
(** No current along the absorbing walls. *)
Definition calm {T} {NT : Num T} (p : @par2 T) (w : walls) (j : (nat -> nat -> T) * (nat -> nat -> T)) : Prop := forall n,
  (w_lx w = true -> snd j 0 n = nzero) /\ (w_rx w = true -> snd j (p_nx p) n = nzero) /\
  (w_ly w = true -> fst j n 0 = nzero) /\ (w_ry w = true -> fst j n (p_ny p) = nzero).
(** The sizes that matter: a grid of at least one cell, at least one layer in every absorbing wall. *)
Definition sizes {T} (p : @par2 T) (w : walls) (l : lay) : Prop := 0 < p_nx p /\ 0 < p_ny p /\
  (w_lx w = true -> 0 < l_lx l) /\ (w_rx w = true -> 0 < l_rx l) /\ (w_ly w = true -> 0 < l_ly l) /\ (w_ry w = true -> 0 < l_ry l).
Definition positive (p : @par2 R) : Prop := (0 < p_dx p)%R /\ (0 < p_dy p)%R /\ (0 < p_eps p)%R.

Lemma new_conf_ok {T} {NT : Num T} (p : @par2 T) c w l k : good_walls w = true -> new_conf p c w l = Ok k ->
  k_p k = p /\ k_c k = c /\ k_w k = w /\ k_l k = l /\ complete w (p_nx p) (p_ny p) (l_lx l) (l_rx l) (l_ly l) (l_ry l) (k_pm k).
Proof.
  intros G H. destruct (C112_complete_partial w (p_nx p) (p_ny p) (l_lx l) (l_rx l) (l_ly l) (l_ry l) G) as (s & B & C).
  unfold new_conf in H. rewrite B in H. cbn in H. injection H as <-. cbn. auto.
Qed.
Section Step.
  Context (log_ : R -> R) (p : @par2 R) (c : R) (w : walls) (l : lay) (k : @conf R) (G : good_walls w = true) (Hk : new_conf p c w l = Ok k)
    (Hs : sizes p w l) (Hp : positive p).
  Context (hs es : @em2 R -> @em2 R) (c4 c5 : R) (jx jy : nat -> nat -> R) (Hj : calm p w (jx, jy)).
  Context (Hh : forall m i j, ex (hs m) i j = ex m i j /\ ey (hs m) i j = ey m i j)
          (Hz : forall m i j, hz (es m) i j = hz m i j)
          (Hey : forall m i j, i = 0 \/ i = p_nx p -> ey (es m) i j = ey m i j)
          (Hex : forall m i j, j = 0 \/ j = p_ny p -> ex (es m) i j = ex m i j).
  Context (Hc4 : c4 = (p_dt p / (p_dy p * p_eps p))%R) (Hc5 : c5 = (p_dt p / (p_dx p * p_eps p))%R).
  Lemma Kp : k_p k = p. Proof. exact (proj1 (new_conf_ok p c w l k G Hk)). Qed.
  Lemma Kc : complete w (p_nx p) (p_ny p) (l_lx l) (l_rx l) (l_ly l) (l_ry l) (k_pm k).
  Proof. apply (new_conf_ok p c w l k G Hk). Qed.
  Lemma Khas b : needed w b = true -> has (k_pm k) b = true.
  Proof. intros N. unfold has. rewrite (proj1 Kc b), N. reflexivity. Qed.
  Lemma Kon b : needed w b = true -> b_coef (k_pm k) b = true.
  Proof. intros N. apply (proj1 (proj2 Kc) b N). Qed.
  Lemma Kn b : needed w b = true -> Bn log_ k b = wide p l (Blk b).
  Proof. intros N. unfold Bn, bparam. cbn [q_nx]. rewrite (proj1 Kc b), N. reflexivity. Qed.
  Lemma Km b : needed w b = true -> Bm log_ k b = high p l (Blk b).
  Proof. intros N. unfold Bm, bparam. cbn [q_ny]. rewrite (proj1 Kc b), N. reflexivity. Qed.
  Lemma Klink b d a : needed w b = true -> there w a -> at_ a = (fst (pos b) + fst (dir d), snd (pos b) + snd (dir d))%Z -> b_link (k_pm k) b d = Some a.
  Proof.
    intros N Ta E. destruct (proj2 (proj2 Kc) b d N) as [M1 M2]. destruct a as [|b']; cbn [at_] in E.
    - apply M1. injection E as E1 E2. split; symmetry; assumption.
    - apply M2. split; [exact E|exact Ta].
  Qed.
  Lemma wide_pos a : there w a -> 0 < wide p l a.
  Proof.
    destruct Hs as (S1 & S2 & S3 & S4 & S5 & S6). destruct a as [|x]; [intros _; unfold wide, width; cbn; assumption|]. cbn [there]. unfold needed, wide, width.
    destruct x; cbn [at_ pos fst snd Z.ltb Z.eqb Z.compare orb andb]; rewrite ?orb_false_r, ?andb_true_r, ?andb_true_iff; intros H; try assumption; intuition.
  Qed.
  Lemma high_pos a : there w a -> 0 < high p l a.
  Proof.
    destruct Hs as (S1 & S2 & S3 & S4 & S5 & S6). destruct a as [|x]; [intros _; unfold high, width; cbn; assumption|]. cbn [there]. unfold needed, high, width.
    destruct x; cbn [at_ pos fst snd Z.ltb Z.eqb Z.compare orb andb]; rewrite ?orb_false_r, ?andb_true_r, ?andb_true_iff; intros H; try assumption; intuition.
  Qed.
  Lemma sx_right b : needed w b = true -> (fst (pos b) < 1)%Z -> q_sx (bparam log_ k b) (wide p l (Blk b) - 1) = 0%R.
  Proof.
    intros N F. cbn [bparam q_sx]. destruct (new_conf_ok p c w l k G Hk) as (-> & -> & -> & -> & _).
    destruct b; cbn [pos fst] in F; try lia; unfold wide, sx, width; cbn [at_ pos fst Z.ltb]; try reflexivity; rewrite Nat.sub_diag, layer0; destruct (w_ly w), (w_ry w); reflexivity.
  Qed.
  Lemma sx_left b : needed w b = true -> (-1 < fst (pos b))%Z -> q_sx (bparam log_ k b) 0 = 0%R.
  Proof.
    intros N F. cbn [bparam q_sx]. destruct b; cbn [pos fst] in F; try lia; unfold sx; try reflexivity; rewrite (layer0 _ (l_rx _)); try reflexivity; destruct (w_ly (k_w k)), (w_ry (k_w k)); reflexivity.
  Qed.
  Lemma sy_top b : needed w b = true -> (snd (pos b) < 1)%Z -> q_sy (bparam log_ k b) (high p l (Blk b) - 1) = 0%R.
  Proof.
    intros N F. cbn [bparam q_sy]. destruct (new_conf_ok p c w l k G Hk) as (-> & -> & -> & -> & _).
    destruct b; cbn [pos snd] in F; try lia; unfold high, sy, width; cbn [at_ pos snd Z.ltb]; try reflexivity; rewrite Nat.sub_diag, layer0; destruct (w_ly w), (w_lx w), (w_rx w); reflexivity.
  Qed.
  Lemma sy_bottom b : needed w b = true -> (-1 < snd (pos b))%Z -> q_sy (bparam log_ k b) 0 = 0%R.
  Proof.
    intros N F. cbn [bparam q_sy]. destruct b; cbn [pos snd] in F; try lia; unfold sy; try reflexivity; rewrite (layer0 _ (l_ry _)); try reflexivity; destruct (w_lx (k_w k)), (w_rx (k_w k)), (w_ry (k_w k)); reflexivity.
  Qed.

  Notation nx_ := (nxt log_ k hs es c4 c5 jx jy).
  Notation hm s a := (w_hz (mid log_ k hs s) a).
  Lemma right_gen s a b j : there w a -> there w b -> at_ b = (fst (at_ a) + 1, snd (at_ a))%Z -> j < high p l a ->
    area_ey (nx_ s) a (wide p l a) j = (area_ey s a (wide p l a) j - p_dt p / (p_dx p * p_eps p) * (hm s b 0 j - hm s a (wide p l a - 1) j))%R.
  Proof.
    intros Ta Tb E Hlt. destruct Hp as (Hx & Hy & He). pose proof Kp as K. destruct a as [|x].
    - destruct b as [|[]]; try discriminate E. cbn [area_ey wide at_ fst width Z.ltb]. unfold wide, width. cbn [at_ fst Z.ltb]. rewrite <- K.
      rewrite (main_right log_ k hs es c4 c5 jx jy) by (rewrite ?K; first [assumption | apply (Khas Rx); exact Tb | apply Hs | exact Hlt]).
      rewrite Hc5. destruct (Hj j) as (_ & J & _). rewrite K. cbn [snd] in J. rewrite J; [rewrite ?K; cbn; ring|]. cbn in Tb. unfold needed in Tb. cbn in Tb. rewrite ?andb_true_r in Tb. exact Tb.
    - cbn [area_ey]. rewrite <- (Kn x Ta). rewrite <- K.
      rewrite (blk_right log_ k) with (c := b); rewrite ?K; try assumption.
      + reflexivity.
      + apply Khas, Ta.
      + apply (Klink x SRx b Ta Tb). rewrite E. cbn. f_equal. ring.
      + apply Kon, Ta.
      + rewrite (Kn x Ta). apply sx_right; [exact Ta|]. destruct x; cbn in *; try lia; destruct b as [|[]]; discriminate E.
      + rewrite (Kn x Ta). apply wide_pos, Ta.
      + rewrite (Km x Ta). exact Hlt.
  Qed.
  Lemma Kw a : there w a -> Wn log_ k a = wide p l a.
  Proof. intros Ta. destruct a as [|x]; [unfold Wn; cbn; rewrite Kp; reflexivity|]. apply (Kn x Ta). Qed.
  Lemma Kv a : there w a -> Wm log_ k a = high p l a.
  Proof. intros Ta. destruct a as [|x]; [unfold Wm; cbn; rewrite Kp; reflexivity|]. apply (Km x Ta). Qed.
  Lemma left_gen s a b j : there w a -> there w b -> at_ b = (fst (at_ a) + 1, snd (at_ a))%Z -> j < high p l b ->
    area_ey (nx_ s) b 0 j = (area_ey s b 0 j - p_dt p / (p_dx p * p_eps p) * (hm s b 0 j - hm s a (wide p l a - 1) j))%R.
  Proof.
    intros Ta Tb E Hlt. destruct Hp as (Hx & Hy & He). pose proof Kp as K. destruct b as [|x].
    - destruct a as [|[]]; try discriminate E. cbn [area_ey]. rewrite <- (Kn Lx Ta). rewrite <- K.
      rewrite (main_left log_ k hs es c4 c5 jx jy) by (rewrite ?K; first [assumption | apply (Khas Lx); exact Ta | exact Hlt]).
      rewrite Hc5. destruct (Hj j) as (J & _). cbn [snd] in J. rewrite J; [rewrite ?K; cbn; ring|]. cbn in Ta. unfold needed in Ta. cbn in Ta. rewrite ?andb_true_r, ?orb_false_r in Ta. exact Ta.
    - cbn [area_ey]. rewrite <- (Kw a Ta). rewrite <- K.
      rewrite (blk_left log_ k) with (c := a); rewrite ?K; try assumption.
      + reflexivity.
      + apply Khas, Tb.
      + apply (Klink x SLx a Tb Ta). cbn [at_] in E. rewrite E. cbn. destruct (at_ a). cbn. f_equal; ring.
      + apply Kon, Tb.
      + apply sx_left; [exact Tb|]. cbn [at_] in E. destruct x; cbn in *; try lia; destruct a as [|[]]; discriminate E.
      + rewrite (Km x Tb). exact Hlt.
  Qed.
  Lemma top_gen s a b i : there w a -> there w b -> at_ b = (fst (at_ a), snd (at_ a) + 1)%Z -> i < wide p l a ->
    area_ex (nx_ s) a i (high p l a) = (area_ex s a i (high p l a) + p_dt p / (p_dy p * p_eps p) * (hm s b i 0 - hm s a i (high p l a - 1)))%R.
  Proof.
    intros Ta Tb E Hlt. destruct Hp as (Hx & Hy & He). pose proof Kp as K. destruct a as [|x].
    - destruct b as [|[]]; try discriminate E. cbn [area_ex]. unfold high, width. cbn [at_ snd Z.ltb]. rewrite <- K.
      rewrite (main_top log_ k hs es c4 c5 jx jy) by (rewrite ?K; first [assumption | apply (Khas Ry); exact Tb | apply Hs | exact Hlt]).
      rewrite Hc4. destruct (Hj i) as (_ & _ & _ & J). rewrite K. cbn [fst] in J. rewrite J; [rewrite ?K; cbn; ring|]. cbn in Tb. unfold needed in Tb. cbn in Tb. exact Tb.
    - cbn [area_ex]. rewrite <- (Km x Ta). rewrite <- K.
      rewrite (blk_top log_ k) with (c := b); rewrite ?K; try assumption.
      + reflexivity.
      + apply Khas, Ta.
      + apply (Klink x SRy b Ta Tb). rewrite E. cbn. f_equal. ring.
      + apply Kon, Ta.
      + rewrite (Km x Ta). apply sy_top; [exact Ta|]. destruct x; cbn in *; try lia; destruct b as [|[]]; discriminate E.
      + rewrite (Km x Ta). apply high_pos, Ta.
      + rewrite (Kn x Ta). exact Hlt.
  Qed.
  Lemma bottom_gen s a b i : there w a -> there w b -> at_ b = (fst (at_ a), snd (at_ a) + 1)%Z -> i < wide p l b ->
    area_ex (nx_ s) b i 0 = (area_ex s b i 0 + p_dt p / (p_dy p * p_eps p) * (hm s b i 0 - hm s a i (high p l a - 1)))%R.
  Proof.
    intros Ta Tb E Hlt. destruct Hp as (Hx & Hy & He). pose proof Kp as K. destruct b as [|x].
    - destruct a as [|[]]; try discriminate E. cbn [area_ex]. rewrite <- (Km Ly Ta). rewrite <- K.
      rewrite (main_bottom log_ k hs es c4 c5 jx jy) by (rewrite ?K; first [assumption | apply (Khas Ly); exact Ta | exact Hlt]).
      rewrite Hc4. destruct (Hj i) as (_ & _ & J & _). cbn [fst] in J. rewrite J; [rewrite ?K; cbn; ring|]. cbn in Ta. unfold needed in Ta. cbn in Ta. rewrite ?orb_false_r in Ta. exact Ta.
    - cbn [area_ex]. rewrite <- (Kv a Ta). rewrite <- K.
      rewrite (blk_bottom log_ k) with (c := a); rewrite ?K; try assumption.
      + reflexivity.
      + apply Khas, Tb.
      + apply (Klink x SLy a Tb Ta). cbn [at_] in E. rewrite E. cbn. destruct (at_ a). cbn. f_equal; ring.
      + apply Kon, Tb.
      + apply sy_bottom; [exact Tb|]. cbn [at_] in E. destruct x; cbn in *; try lia; destruct a as [|[]]; discriminate E.
      + rewrite (Kn x Tb). exact Hlt.
  Qed.
  Lemma joined_step s : joined p w l s -> joined p w l (nx_ s).
  Proof.
    intros J a b Ta Tb. destruct (J a b Ta Tb) as [J1 J2]. split; intros E n Hn.
    - assert (Hh' : high p l b = high p l a) by (unfold high; rewrite E; reflexivity).
      rewrite (right_gen s a b n Ta Tb E Hn), (left_gen s a b n Ta Tb E) by (rewrite Hh'; exact Hn). rewrite (J1 E n Hn). reflexivity.
    - assert (Hh' : wide p l b = wide p l a) by (unfold wide; rewrite E; reflexivity).
      rewrite (top_gen s a b n Ta Tb E Hn), (bottom_gen s a b n Ta Tb E) by (rewrite Hh'; exact Hn). rewrite (J2 E n Hn). reflexivity.
  Qed.
End Step.

(** ** C127 *)
Section Edges.
  Context (p : @par2 R).
  Lemma fdtd_edge jx jy m i j : i = 0 \/ i = p_nx p -> ey (e_fdtd p jx jy m) i j = ey m i j.
  Proof. intros H. cbn [ey e_fdtd]. replace ((1 <=? i) && (i <? p_nx p)) with false; [reflexivity|]. symmetry. apply andb_false_iff. rewrite Nat.leb_gt, Nat.ltb_ge. lia. Qed.
  Lemma fdtd_edgex jx jy m i j : j = 0 \/ j = p_ny p -> ex (e_fdtd p jx jy m) i j = ex m i j.
  Proof.
    intros H. cbn [ex e_fdtd]. replace ((i <? p_nx p) && (1 <=? j) && (j <? p_ny p)) with false; [reflexivity|]. symmetry. rewrite <- andb_assoc. apply andb_false_iff. right.
    apply andb_false_iff. rewrite Nat.leb_gt, Nat.ltb_ge. lia.
  Qed.
  Lemma dm_edge jx jy m i j : i = 0 \/ i = p_nx p -> ey (e_dm p jx jy m) i j = ey m i j.
  Proof. intros H. cbn [ey e_dm]. replace ((1 <=? i) && (i <? p_nx p)) with false; [reflexivity|]. symmetry. apply andb_false_iff. rewrite Nat.leb_gt, Nat.ltb_ge. lia. Qed.
  Lemma dm_edgex jx jy m i j : j = 0 \/ j = p_ny p -> ex (e_dm p jx jy m) i j = ex m i j.
  Proof.
    intros H. cbn [ex e_dm]. replace ((i <? p_nx p) && (1 <=? j) && (j <? p_ny p)) with false; [reflexivity|]. symmetry. rewrite <- andb_assoc. apply andb_false_iff. right.
    apply andb_false_iff. rewrite Nat.leb_gt, Nat.ltb_ge. lia.
  Qed.
End Edges.
Section Runs.
  Context (log_ : R -> R) (p : @par2 R) (c : R) (w : walls) (l : lay) (k : @conf R) (G : good_walls w = true) (Hk : new_conf p c w l = Ok k)
    (Hs : sizes p w l) (Hp : positive p).
  Lemma joined_zero : joined p w l (@zero_st R _).
  Proof. intros a b _ _. split; intros E n Hn; destruct a, b; cbn; unfold b_ey, b_ex; cbn; ring. Qed.
  Lemma joined_fdtd js s : (forall j, In j js -> calm p w j) -> joined p w l s -> joined p w l (run_b (step_fdtd_b log_ k) js s).
  Proof.
    revert s. induction js as [|[jx jy] js IH]; intros s Hj J; [exact J|]. cbn. apply IH; [intros j I; apply Hj; right; exact I|].
    assert (K : k_p k = p) by apply (new_conf_ok p c w l k G Hk). unfold step_fdtd_b. rewrite K.
    refine (joined_step log_ p c w l k G Hk Hs Hp (h_fdtd p) (e_fdtd p jx jy) _ _ jx jy (Hj (jx, jy) (or_introl eq_refl)) _ _ _ _ eq_refl eq_refl s J).
    - intros; split; reflexivity.
    - reflexivity.
    - intros; apply fdtd_edge; assumption.
    - intros; apply fdtd_edgex; assumption.
  Qed.
  Lemma joined_dm js s : p_dx p = p_dy p -> (forall j, In j js -> calm p w j) -> joined p w l s -> joined p w l (run_b (step_dm_b log_ k) js s).
  Proof.
    intros Hd. revert s. induction js as [|[jx jy] js IH]; intros s Hj J; [exact J|]. cbn. apply IH; [intros j I; apply Hj; right; exact I|].
    assert (K : k_p k = p) by apply (new_conf_ok p c w l k G Hk). unfold step_dm_b. rewrite K. destruct Hp as (Hx & Hy & He).
    refine (joined_step log_ p c w l k G Hk Hs Hp (h_dm p) (e_dm p jx jy) _ _ jx jy (Hj (jx, jy) (or_introl eq_refl)) _ _ _ _ _ _ s J).
    - intros; split; reflexivity.
    - reflexivity.
    - intros; apply dm_edge; assumption.
    - intros; apply dm_edgex; assumption.
    - cbn. field. lra.
    - rewrite Hd. cbn. field. lra.
  Qed.
End Runs.
(** 'FDTD': whatever the conductors, the layers, the sizes and the currents off the walls. *)
Theorem C127_fdtd_partial : forall (log_ : R -> R) (p : @par2 R) c w l k js, good_walls w = true -> new_conf p c w l = Ok k -> sizes p w l -> positive p ->
  (forall j, In j js -> calm p w j) -> joined p w l (run_b (step_fdtd_b log_ k) js zero_st).
Proof. intros log_ p c w l k js G Hk Hs Hp Hj. apply (joined_fdtd log_ p c w l k G Hk Hs Hp js); [exact Hj|]. apply joined_zero. Qed.
Print Assumptions C127_fdtd_partial.
(** 'DM' with square cells. *)
Theorem C127_dm_partial : forall (log_ : R -> R) (p : @par2 R) c w l k js, good_walls w = true -> new_conf p c w l = Ok k -> sizes p w l -> positive p ->
  p_dx p = p_dy p -> (forall j, In j js -> calm p w j) -> joined p w l (run_b (step_dm_b log_ k) js zero_st).
Proof. intros log_ p c w l k js G Hk Hs Hp Hd Hj. apply (joined_dm log_ p c w l k G Hk Hs Hp js); [exact Hd|exact Hj|]. apply joined_zero. Qed.
Print Assumptions C127_dm_partial.

(** A grid without conductors, one cell wide and two high, with cells of 1 x 2 and an absorbing low x wall of ten layers. *)
Definition pj : @par2 R := {| p_g := base_grid (no_conductor 1000%R) (/ 1000)%R 1%R 2%R 0%R 0%R; p_nx := 1; p_ny := 2; p_dx := 1%R; p_dy := 2%R; p_eps := 1%R; p_mu := 1%R; p_dt := dt2 sqrt (1 / 2)%R 1%R 1%R 2%R |}.
Definition wj : walls := {| w_lx := true; w_rx := false; w_ly := false; w_ry := false |}.
Definition lj : lay := {| l_lx := 10; l_rx := 0; l_ly := 0; l_ry := 0 |}.
Lemma pj_dt : (0 < p_dt pj)%R.
Proof.
  cbn [p_dt pj]. unfold dt2. cbn [nadd nmul ndiv none_ Num_R]. set (q := (1 / (1 * 1) + 1 / (2 * 2))%R). assert (K : (0 < sqrt q)%R) by (apply sqrt_lt_R0; unfold q; lra). apply Rdiv_lt_0_compat; lra.
Qed.
Lemma pj_ok : exists k, new_conf pj 1%R wj lj = Ok k.
Proof. unfold new_conf. destruct (C112_complete_partial wj 1 2 10 0 0 0 eq_refl) as (s & B & _). cbn [p_nx p_ny pj l_lx l_rx l_ly l_ry lj]. rewrite B. eexists. reflexivity. Qed.
Lemma pj_sizes : sizes pj wj lj. Proof. unfold sizes; cbn. repeat split; intros; try lia; discriminate. Qed.
Lemma pj_pos : positive pj. Proof. unfold positive; cbn. lra. Qed.
(** A current on the wall enters the field of the grid but not the one of the block. *)
Theorem C127_current_refuted : exists (p : @par2 R) c cfln w l k js, good_walls w = true /\ new_conf p c w l = Ok k /\ sizes p w l /\ positive p /\ (0 < cfln < 1)%R /\
  p_dt p = dt2 sqrt cfln c (p_dx p) (p_dy p) /\ ~ joined p w l (run_b (step_fdtd_b ln k) js zero_st).
Proof.
  destruct pj_ok as [k Hk]. exists pj, 1%R, (1 / 2)%R, wj, lj, k, [((fun _ _ => 0%R), (fun _ _ => 1%R))].
  split; [reflexivity|]. split; [exact Hk|]. split; [apply pj_sizes|]. split; [apply pj_pos|]. split; [lra|]. split; [reflexivity|].
  intros J. destruct (J (Blk Lx) Main eq_refl I) as [J1 _]. specialize (J1 eq_refl 0 ltac:(cbn; lia)).
  cbn [run_b fold_left fst snd] in J1. unfold step_fdtd_b in J1. assert (K : k_p k = pj) by apply (new_conf_ok pj 1%R wj lj k eq_refl Hk). rewrite K in J1.
  match type of J1 with area_ey ?s _ _ _ = _ => change s with (nxt ln k (h_fdtd pj) (e_fdtd pj (fun _ _ => 0%R) (fun _ _ => 1%R)) (p_dt pj / (p_dy pj * p_eps pj))%R (p_dt pj / (p_dx pj * p_eps pj))%R (fun _ _ => 0%R) (fun _ _ => 1%R) zero_st) in J1 end.
  assert (Z : forall i j, hz (h_fdtd pj (@zero2 R _)) i j = 0%R) by (intros i j; cbn -[Nat.ltb g_int]; destruct (_ && _ && _); cbn; ring).
  assert (Zz : forall a i j, w_hz (mid ln k (h_fdtd pj) zero_st) a i j = 0%R) by (intros; apply mid_zero; exact Z).
  cbn [area_ey] in J1. pose proof (blk_zero ln k (h_fdtd pj) (e_fdtd pj (fun _ _ => 0%R) (fun _ _ => 1%R)) (p_dt pj / (p_dy pj * p_eps pj))%R (p_dt pj / (p_dx pj * p_eps pj))%R (fun _ _ => 0%R) (fun _ _ => 1%R)
    ltac:(intros; reflexivity) Lx Z (wide pj lj (Blk Lx)) 0) as (_ & _ & B1 & B2 & _). unfold b_ey in J1. rewrite B1, B2 in J1.
  rewrite (main_left ln k) in J1; [|intros; split; reflexivity|reflexivity| |apply (Khas pj 1%R wj lj k eq_refl Hk); reflexivity|rewrite K; cbn; lia].
  - rewrite !Zz, K in J1. change (p_eps pj) with 1%R in J1. pose proof pj_dt. cbn [zero_st mn zero2 ey nadd nzero Num_R] in J1. lra.
  - intros. apply fdtd_edge. rewrite <- K. assumption.
Qed.
Print Assumptions C127_current_refuted.
(** 'DM' divides by dy in x as well: with cells of 1 x 2 the field of the grid on the wall takes half of the change. *)
Theorem C127_dm_refuted : exists (p : @par2 R) c cfln w l k js, good_walls w = true /\ new_conf p c w l = Ok k /\ sizes p w l /\ positive p /\ (0 < cfln < 1)%R /\
  p_dt p = dt2 sqrt cfln c (p_dx p) (p_dy p) /\ (forall j, In j js -> calm p w j) /\ ~ joined p w l (run_b (step_dm_b ln k) js zero_st).
Proof.
  destruct pj_ok as [k Hk]. set (jx := fun i j : nat => if (i =? 0) && (j =? 1) then 1%R else 0%R). set (jo := fun _ _ : nat => 0%R).
  exists pj, 1%R, (1 / 2)%R, wj, lj, k, [(jx, jo); (jo, jo)].
  split; [reflexivity|]. split; [exact Hk|]. split; [apply pj_sizes|]. split; [apply pj_pos|]. split; [lra|]. split; [reflexivity|].
  split. { intros j [<-|[<-|[]]] n; cbn; repeat split; intros; try discriminate; reflexivity. }
  intros J. destruct (J (Blk Lx) Main eq_refl I) as [J1 _]. specialize (J1 eq_refl 0 ltac:(cbn; lia)).
  cbn [run_b fold_left fst snd] in J1. unfold step_dm_b in J1. assert (K : k_p k = pj) by apply (new_conf_ok pj 1%R wj lj k eq_refl Hk). rewrite K in J1.
  set (c4 := (p_dt pj / (p_eps pj * p_dy pj))%R). set (nx a := nxt ln k (h_dm pj) (e_dm pj a jo) c4 c4 a jo).
  match type of J1 with area_ey ?s _ _ _ = _ => change s with (nx jo (nx jx zero_st)) in J1 end.
  assert (Z : forall i j, hz (h_dm pj (@zero2 R _)) i j = 0%R) by (intros i j; cbn [hz h_dm]; destruct (_ && _ && _); [unfold circ|]; cbn; ring).
  assert (Zz : forall a i j, w_hz (mid ln k (h_dm pj) zero_st) a i j = 0%R) by (intros; apply mid_zero; exact Z).
  assert (Bz : forall b i j, b_ex (bl (nx jx zero_st) b) i j = 0%R /\ b_ey (bl (nx jx zero_st) b) i j = 0%R /\ zx (bl (nx jx zero_st) b) i j = 0%R /\ zy (bl (nx jx zero_st) b) i j = 0%R).
  { intros b i j. pose proof (blk_zero ln k (h_dm pj) (e_dm pj jx jo) c4 c4 jx jo ltac:(intros; reflexivity) b Z i j) as (B1 & B2 & B3 & B4 & B5 & B6).
    unfold b_ex, b_ey. change (nxt ln k (h_dm pj) (e_dm pj jx jo) c4 c4 jx jo zero_st) with (nx jx zero_st) in *. rewrite B1, B2, B3, B4, B5, B6. cbn. repeat split; ring. }
  assert (Hl : has (k_pm k) Lx = true) by (apply (Khas pj 1%R wj lj k eq_refl Hk); reflexivity).
  assert (No : forall b, needed wj b = false -> has (k_pm k) b = false) by (intros b N; unfold has; rewrite (proj1 (Kc pj 1%R wj lj k eq_refl Hk) b), N; reflexivity).
  assert (Dm : forall a m i j, i = 0 \/ i = p_nx (k_p k) -> ey (e_dm pj a jo m) i j = ey m i j) by (intros; apply dm_edge; rewrite <- K; assumption).
  assert (W : Bn ln k Lx = 10) by (rewrite (Kn ln pj 1%R wj lj k eq_refl Hk Lx eq_refl); reflexivity).
  assert (Hb : w_hz (mid ln k (h_dm pj) (nx jx zero_st)) (Blk Lx) 9 0 = 0%R).
  { cbn [w_hz mid bl]. unfold each. rewrite Hl. unfold b_hz. cbn [zx zy b_adv_h]. destruct (Bz Lx 9 0) as (B1 & B2 & B3 & B4). rewrite B1, B2, B3, B4.
    rewrite (proj1 (proj2 (Bz Lx 10 0))), (proj1 (Bz Lx 9 1)). destruct (_ && _); cbn; ring. }
  assert (G : forall i j, g_lx (p_g pj) i j = 1%R /\ g_ly (p_g pj) i j = 2%R /\ g_S (p_g pj) i j = 1%R /\ g_int (p_g pj) i j = true) by (intros; apply free_grid; lra).
  assert (Hm : w_hz (mid ln k (h_dm pj) (nx jx zero_st)) Main 0 0 = (- (p_dt pj * p_dt pj))%R).
  { cbn [w_hz mid mn hz h_dm]. destruct (G 0 0) as (_ & _ & S1 & I1). rewrite I1. cbn [p_nx p_ny pj Nat.ltb Nat.leb andb]. unfold circ. rewrite S1.
    rewrite (proj1 (G 0 0)), (proj1 (G 0 1)).
    assert (E0 : ey (mn (nx jx zero_st)) 0 0 = 0%R).
    { unfold nx. rewrite (main_left ln k); [|intros; split; reflexivity|reflexivity|intros; apply Dm; assumption|exact Hl|rewrite K; cbn; lia]. rewrite !Zz. cbn. unfold jo. ring. }
    assert (E1 : ey (mn (nx jx zero_st)) 1 0 = 0%R).
    { unfold nx. rewrite nxt_eq. cbn [mn]. unfold m_bound. cbn [ey]. rewrite K, (No Rx eq_refl), !andb_false_r. cbn [andb Nat.eqb]. cbn [sec mn mid]. rewrite Dm by (right; rewrite K; reflexivity). reflexivity. }
    assert (X0 : ex (mn (nx jx zero_st)) 0 0 = 0%R).
    { unfold nx. rewrite nxt_eq. cbn [mn]. unfold m_bound. cbn [ex]. rewrite K, (No Ly eq_refl), (No Ry eq_refl), !andb_false_r. reflexivity. }
    assert (X1 : ex (mn (nx jx zero_st)) 0 1 = (- p_dt pj)%R).
    { unfold nx. rewrite nxt_eq. cbn [mn]. unfold m_bound. cbn [ex]. rewrite K, (No Ly eq_refl), (No Ry eq_refl), !andb_false_r. cbn [sec mn mid ex e_dm].
      rewrite (proj1 (G 0 1)). replace (nltb nzero 1%R) with true by (symmetry; apply R_ltb; cbn; lra). cbn [zero_st mn p_nx p_ny pj Nat.ltb Nat.leb andb]. change (1 - 1) with 0. rewrite !Z. cbn [h_dm ex zero2]. unfold jx. cbn [Nat.eqb andb].
      change (p_eps pj) with 1%R. change (p_dy pj) with 2%R. set (t := p_dt pj). cbn [nadd nsub nmul ndiv nzero Num_R]. clearbody t. field. }
    rewrite E0, E1, X0, X1. assert (H0 : hz (mn (nx jx zero_st)) 0 0 = 0%R) by (unfold nx; rewrite nxt_eq; apply Z). rewrite H0.
    change (p_mu pj) with 1%R. set (t := p_dt pj). set (l1 := g_ly (p_g pj) 1 0). set (l2 := g_ly (p_g pj) 0 0). cbn [nadd nsub nmul ndiv nzero Num_R]. clearbody t l1 l2. field. }
  cbn [area_ey] in J1. change (wide pj lj (Blk Lx)) with 10 in J1. set (s1 := nx jx zero_st) in *.
  assert (E0 : ey (mn s1) 0 0 = 0%R).
  { unfold s1, nx. rewrite (main_left ln k); [|intros; split; reflexivity|reflexivity|intros; apply Dm; assumption|exact Hl|rewrite K; cbn; lia]. rewrite !Zz. cbn. unfold jo. ring. }
  assert (EM : ey (mn (nx jo s1)) 0 0 = (0 - p_dt pj / 1 * 0 - c4 * (- (p_dt pj * p_dt pj) - 0))%R).
  { unfold nx. rewrite (main_left ln k); [|intros; split; reflexivity|reflexivity|intros; apply Dm; assumption|exact Hl|rewrite K; cbn; lia].
    rewrite W. change (10 - 1) with 9. rewrite Hb, Hm, E0, K. reflexivity. }
  assert (EB : b_ey (bl (nx jo s1) Lx) 10 0 = (0 - p_dt pj / (1 * 1) * (- (p_dt pj * p_dt pj) - 0))%R).
  { unfold nx. rewrite <- W. rewrite (blk_right ln k) with (c := Main).
    - rewrite W. change (10 - 1) with 9. rewrite Hb, Hm, (proj1 (proj2 (Bz Lx 10 0))), K. reflexivity.
    - rewrite K; cbn; lra.
    - rewrite K; cbn; lra.
    - reflexivity.
    - exact Hl.
    - apply (Klink pj 1%R wj lj k eq_refl Hk Lx SRx Main eq_refl I). reflexivity.
    - apply (Kon pj 1%R wj lj k eq_refl Hk Lx eq_refl).
    - rewrite W. apply (sx_right ln pj 1%R wj lj k eq_refl Hk Lx eq_refl). cbn. lia.
    - rewrite W. lia.
    - rewrite (Km ln pj 1%R wj lj k eq_refl Hk Lx eq_refl). cbn. lia. }
  rewrite EM, EB in J1. unfold c4 in J1. change (p_eps pj) with 1%R in J1. change (p_dy pj) with 2%R in J1. pose proof pj_dt as P. set (t := p_dt pj) in *. clearbody t. clear - J1 P.
  assert (Q : (t * (t * t) = 0)%R) by (cbn in J1; lra). assert (0 < t * (t * t))%R by (repeat apply Rmult_lt_0_compat; exact P). lra.
Qed.
Print Assumptions C127_dm_refuted.
(** A run with four absorbing walls of two layers: a pulse on a 2 x 2 grid reaches the wall. *)
Example C127_case : let z := Q2Qc 0 in let u := Q2Qc 1 in
  let p := {| p_g := base_grid (no_conductor (Q2Qc (1000 # 1))) (Q2Qc (1 # 1000)) u u z z; p_nx := 2; p_ny := 2; p_dx := u; p_dy := u; p_eps := u; p_mu := u; p_dt := Q2Qc (1 # 2) |} in
  let w := {| w_lx := true; w_rx := true; w_ly := true; w_ry := true |} in
  let j := (fun i j => if Nat.eqb i 1 && Nat.eqb j 1 then u else z, fun _ _ : nat => z) in
  match new_conf p u w {| l_lx := 2; l_rx := 2; l_ly := 2; l_ry := 2 |} with
  | Ok k => let s := run_b (step_fdtd_b (fun _ => Q2Qc (-7 # 1)) k) [j; off; off] zero_st in
      (good_walls w, this (ey (mn s) 2 1), this (b_ey (bl s Rx) 0 1), this (ey (mn s) 1 1), this (b_ex (bl s Ly) 1 2), this (ex (mn s) 1 0)) = (true, 3 # 16, 3 # 16, -3 # 16, -3 # 16, -3 # 16)%Q
  | Err _ => False
  end.
Proof. vm_compute. reflexivity. Qed.
