(** Property C132: grid and absorbing blocks of the two-dimensional solver are one larger grid. *)
From Coq Require Import List Arith ZArith Bool String Lia Ring Field QArith Qcanon Reals Lra.
From Verif Require Import Num Vec FieldModel GridModel GridProofs2 SolverModel WakeModel WakeNum Grid2DModel Grid2DArea Solver2DModel Solver2DProofs Solver2DRuns Solver2DProps Pml2DModel Pml2DProofs Pml2DProps Pml2DFlat Pml2DProps3 Pml2DOne.
Import ListNotations.
Open Scope nat_scope.

(** At least two layers behind every absorbing wall. *)
Definition thick (w : walls) (l : lay) : Prop := (w_lx w = true -> 2 <= l_lx l) /\ (w_rx w = true -> 2 <= l_rx l) /\ (w_ly w = true -> 2 <= l_ly l) /\ (w_ry w = true -> 2 <= l_ry l).
(** One step from [g] to [g'] on the rectangle of grid and layers: Berenger's split equations, centred in time, with the
    conductivities SX, SY of the layers (zero in the grid) and the same decay for Hz; the currents of the grid; electric walls
    at the outer sides; nothing moves inside the conductors of the grid. *)
Definition split_eqs (log_ : R -> R) (p : @par2 R) (c : R) (w : walls) (l : lay) (a : (nat -> nat -> R) * (nat -> nat -> R)) (g g' : big) : Prop := forall i j,
  (i < NX p w l -> j < NY p w l -> if mC p w l i j then
      (p_mu p * (bzx g' i j - bzx g i j) / p_dt p + SX log_ p c w l i * p_mu p / p_eps p * (bzx g' i j + bzx g i j) / 2 = - (by_ g (S i) j - by_ g i j) / p_dx p)%R /\
      (p_mu p * (bzy g' i j - bzy g i j) / p_dt p + SY log_ p c w l j * p_mu p / p_eps p * (bzy g' i j + bzy g i j) / 2 = (bx g i (S j) - bx g i j) / p_dy p)%R
    else bhz g' i j = bhz g i j) /\
  (0 < i < NX p w l -> j < NY p w l -> if mY p w l i j then
      (p_eps p * (by_ g' i j - by_ g i j) / p_dt p + SX log_ p c w l i * (by_ g' i j + by_ g i j) / 2 = - (bhz g' i j - bhz g' (i - 1) j) / p_dx p - JY p w l (snd a) i j)%R
    else by_ g' i j = by_ g i j) /\
  (i < NX p w l -> 0 < j < NY p w l -> if mX p w l i j then
      (p_eps p * (bx g' i j - bx g i j) / p_dt p + SY log_ p c w l j * (bx g' i j + bx g i j) / 2 = (bhz g' i j - bhz g' i (j - 1)) / p_dy p - JX p w l (fst a) i j)%R
    else bx g' i j = bx g i j) /\
  (i = 0 \/ i = NX p w l -> by_ g' i j = by_ g i j) /\ (j = 0 \/ j = NY p w l -> bx g' i j = bx g i j).
Section Eqs.
  Context (p : @par2 R) (c : R) (w : walls) (l : lay) (Hp : positive p) (Hm : (0 < p_mu p)%R) (Ht : (0 < p_dt p)%R) (Hc : (0 < c)%R) (Hl : thick w l).
  Lemma SX_pos i : i < NX p w l -> (0 <= SX ln p c w l i)%R.
  Proof.
    destruct Hp as (Hx & Hy & He). destruct Hl as (H1 & H2 & _). unfold NX, SX, lw. destruct (w_lx w), (w_rx w); intros Hi; repeat match goal with |- context [i <? ?x] => destruct (i <? x) eqn:? end; try lra;
    repeat match goal with H : (_ <? _) = false |- _ => apply Nat.ltb_ge in H | H : (_ <? _) = true |- _ => apply Nat.ltb_lt in H end; try lia;
    try specialize (H1 eq_refl); try specialize (H2 eq_refl); (apply layer_pos; [apply sig_pos; assumption|lia]).
  Qed.
  Lemma SY_pos i : i < NY p w l -> (0 <= SY ln p c w l i)%R.
  Proof.
    destruct Hp as (Hx & Hy & He). destruct Hl as (_ & _ & H1 & H2). unfold NY, SY, bw. destruct (w_ly w), (w_ry w); intros Hi; repeat match goal with |- context [i <? ?x] => destruct (i <? x) eqn:? end; try lra;
    repeat match goal with H : (_ <? _) = false |- _ => apply Nat.ltb_ge in H | H : (_ <? _) = true |- _ => apply Nat.ltb_lt in H end; try lia;
    try specialize (H1 eq_refl); try specialize (H2 eq_refl); (apply layer_pos; [apply sig_pos; assumption|lia]).
  Qed.
  Lemma JY_SX u i j : JY p w l u i j <> 0%R -> SX ln p c w l i = 0%R.
  Proof.
    unfold JY, SX. destruct ((lw w l <? i) && (i <? lw w l + p_nx p) && iny p w l j) eqn:E; [|congruence]. intros _. apply andb_true_iff in E as [E _]. apply andb_true_iff in E as [E1 E2]. rewrite E2.
    apply Nat.ltb_lt in E1. rewrite (proj2 (Nat.ltb_ge i (lw w l))) by lia. reflexivity.
  Qed.
  Lemma JX_SY u i j : JX p w l u i j <> 0%R -> SY ln p c w l j = 0%R.
  Proof.
    unfold JX, SY. destruct (inx p w l i && ((bw w l <? j) && (j <? bw w l + p_ny p))) eqn:E; [|congruence]. intros _. apply andb_true_iff in E as [_ E]. apply andb_true_iff in E as [E1 E2]. rewrite E2.
    apply Nat.ltb_lt in E1. rewrite (proj2 (Nat.ltb_ge j (bw w l))) by lia. reflexivity.
  Qed.
  Lemma big_eqs a g : split_eqs ln p c w l a g (big_e ln p c w l (fst a) (snd a) (big_h ln p c w l g)).
  Proof.
    destruct Hp as (Hx & Hy & He). assert (N2 : @ntwo R Num_R = 2%R) by (unfold ntwo; cbn; lra). intros i j.
    assert (P1 : forall s, (0 <= s)%R -> (0 < 2 * p_eps p + p_dt p * s)%R) by (intros s Hs; pose proof (Rmult_le_pos _ _ (Rlt_le _ _ Ht) Hs); lra).
    assert (P2 : forall s, (0 <= s)%R -> (0 < 2 * p_mu p + p_dt p * (s * p_mu p / p_eps p))%R).
    { intros s Hs. assert (0 <= s * p_mu p / p_eps p)%R by (apply Rmult_le_pos; [apply Rmult_le_pos; lra|left; apply Rinv_0_lt_compat, He]). pose proof (Rmult_le_pos _ _ (Rlt_le _ _ Ht) H). lra. }
    split; [|split; [|split; [|split]]].
    - intros Hi Hj. pose proof (SX_pos i Hi) as S1. pose proof (SY_pos j Hj) as S2. unfold bhz. cbn [bzx bzy big_e big_h]. rewrite (proj2 (Nat.ltb_lt _ _) Hi), (proj2 (Nat.ltb_lt _ _) Hj). cbn [andb].
      destruct (mC p w l i j); [|reflexivity]. pose proof (P2 _ S1) as Q1. pose proof (P2 _ S2) as Q2. unfold cC, cD, star. rewrite N2. set (s1 := SX ln p c w l i) in *. set (s2 := SY ln p c w l j) in *. cbn [nadd nsub nmul ndiv Num_R]. clearbody s1 s2.
      assert (D : forall s : R, (0 < 2 * p_mu p + p_dt p * (s * p_mu p / p_eps p))%R -> (2 * p_mu p * p_eps p + p_dt p * (s * p_mu p))%R <> 0%R).
      { intros s Q Z. apply (Rmult_lt_compat_r (p_eps p)) in Q; [|exact He]. replace ((2 * p_mu p + p_dt p * (s * p_mu p / p_eps p)) * p_eps p)%R with (2 * p_mu p * p_eps p + p_dt p * (s * p_mu p))%R in Q by (field; lra). lra. }
      apply D in Q1. apply D in Q2. split; field; repeat split; try lra; intros Z; first [apply Q1; lra | apply Q2; lra].
    - intros Hi Hj. pose proof (SX_pos i (proj2 Hi)) as S1. cbn [by_ big_e]. rewrite (proj2 (Nat.leb_le 1 i)), (proj2 (Nat.ltb_lt _ _) (proj2 Hi)), (proj2 (Nat.ltb_lt _ _) Hj) by lia. cbn [andb].
      destruct (mY p w l i j); [|reflexivity]. pose proof (P1 _ S1) as Q1. pose proof (JY_SX (snd a) i j) as J. set (h := bhz (big_h ln p c w l g)) in *.
      change (bhz (big_e ln p c w l (fst a) (snd a) (big_h ln p c w l g))) with h. change (by_ (big_h ln p c w l g)) with (by_ g). unfold cA, cB. rewrite N2. set (s1 := SX ln p c w l i) in *. set (cu := JY p w l (snd a) i j) in *. clearbody h s1 cu. cbn [nadd nsub nmul ndiv Num_R].
      destruct (Req_EM_T cu 0) as [-> | Z]; [field; lra|]. rewrite (J Z). field. lra.
    - intros Hi Hj. pose proof (SY_pos j (proj2 Hj)) as S1. cbn [bx big_e]. rewrite (proj2 (Nat.leb_le 1 j)), (proj2 (Nat.ltb_lt _ _) (proj2 Hj)), (proj2 (Nat.ltb_lt _ _) Hi) by lia. cbn [andb].
      destruct (mX p w l i j); [|reflexivity]. pose proof (P1 _ S1) as Q1. pose proof (JX_SY (fst a) i j) as J. set (h := bhz (big_h ln p c w l g)) in *.
      change (bhz (big_e ln p c w l (fst a) (snd a) (big_h ln p c w l g))) with h. change (bx (big_h ln p c w l g)) with (bx g). unfold cA, cB. rewrite N2. set (s1 := SY ln p c w l j) in *. set (cu := JX p w l (fst a) i j) in *. clearbody h s1 cu. cbn [nadd nsub nmul ndiv Num_R].
      destruct (Req_EM_T cu 0) as [-> | Z]; [field; lra|]. rewrite (J Z). field. lra.
    - intros H. cbn [by_ big_e]. replace ((1 <=? i) && (i <? NX p w l)) with false; [reflexivity|]. symmetry. apply andb_false_iff. rewrite Nat.leb_gt, Nat.ltb_ge. lia.
    - intros H. cbn [bx big_e]. replace ((1 <=? j) && (j <? NY p w l)) with false; [rewrite andb_false_r; reflexivity|]. symmetry. apply andb_false_iff. rewrite Nat.leb_gt, Nat.ltb_ge. lia.
  Qed.
End Eqs.
(** Every choice of walls that can be built, every conductor, layers, sizes and currents off the absorbing walls, 'FDTD':
    there are fields on the rectangle of grid and layers that follow the split equations from zero, and after every step the
    grid and each block hold their part of them. *)
Theorem C132_one_grid : forall (p : @par2 R) c w l k js, good_walls w = true -> new_conf p c w l = Ok k -> 0 < p_nx p -> 0 < p_ny p -> thick w l -> positive p ->
  (0 < p_mu p)%R -> (0 < p_dt p)%R -> (0 < c)%R -> (forall a, In a js -> calm p w a) ->
  exists gs : nat -> big, gs 0 = zero_big /\ (forall n a, nth_error js n = Some a -> split_eqs ln p c w l a (gs n) (gs (S n))) /\
    forall n, n <= List.length js -> glued p w l (run_b (step_fdtd_b ln k) (firstn n js) zero_st) (gs n).
Proof.
  intros p c w l k js G Hk Nx Ny Hl Hp Hm Ht Hc Hj.
  set (st := fun (g : big) (a : (nat -> nat -> R) * (nat -> nat -> R)) => big_e ln p c w l (fst a) (snd a) (big_h ln p c w l g)).
  assert (Sz : sizes p w l) by (unfold sizes; destruct Hl as (L1 & L2 & L3 & L4); repeat split; try assumption; intros E; [specialize (L1 E)|specialize (L2 E)|specialize (L3 E)|specialize (L4 E)]; lia).
  exists (fun n => fold_left st (firstn n js) zero_big). split; [reflexivity|].
  assert (FS : forall n a (q : list ((nat -> nat -> R) * (nat -> nat -> R))), nth_error q n = Some a -> firstn (S n) q = firstn n q ++ [a]).
  { induction n as [|n IH]; intros a [|x q] E; try discriminate; [cbn in E; injection E as <-; reflexivity|]. cbn [firstn app]. f_equal. apply IH, E. }
  split.
  - intros n a E. rewrite (FS n a js E), fold_left_app. cbn [fold_left]. apply big_eqs; assumption.
  - intros n Hn. enough (X : glued p w l (run_b (step_fdtd_b ln k) (firstn n js) zero_st) (fold_left st (firstn n js) zero_big) /\ plain (run_b (step_fdtd_b ln k) (firstn n js) zero_st)) by apply X.
    induction n as [|n IH]; [split; [|intros b i j; split; reflexivity]|].
    + intros a T i j. destruct a as [|b]; cbn; repeat split; intros; cbn; unfold bhz; cbn; unfold b_ex, b_ey; cbn; ring.
    + destruct (nth_error js n) as [a|] eqn:E; [|apply nth_error_None in E; lia]. specialize (IH ltac:(lia)). destruct IH as [I1 I2].
      rewrite (FS n a js E). unfold run_b in *. rewrite !fold_left_app. cbn [fold_left]. set (s := fold_left _ (firstn n js) zero_st) in *. set (g := fold_left st (firstn n js) zero_big) in *.
      assert (K : k_p k = p) by exact (Kp p c w l k G Hk). assert (Ha : calm p w (fst a, snd a)) by (destruct a; apply Hj, (nth_error_In js n), E).
      assert (St : step_fdtd_b ln k (fst a) (snd a) s = nxt ln k (h_fdtd p) (e_fdtd p (fst a) (snd a)) (p_dt p / (p_dy p * p_eps p))%R (p_dt p / (p_dx p * p_eps p))%R (fst a) (snd a) s) by (unfold step_fdtd_b; rewrite K; reflexivity).
      rewrite St. split; [apply (glued_step ln p c w l k G Hk Sz Hp Hm (fst a) (snd a) Ha s g I1 I2)|apply plain_step, I2].
Qed.
Print Assumptions C132_one_grid.
(** All four walls absorbing, ten layers each: the hypotheses hold, and the rectangle has 23 by 21 cells. *)
Definition all4 : walls := {| w_lx := true; w_rx := true; w_ly := true; w_ry := true |}.
Definition l10 : lay := {| l_lx := 10; l_rx := 10; l_ly := 10; l_ry := 10 |}.
Example C132_case : (exists k, new_conf p131 1%R all4 l10 = Ok k) /\ thick all4 l10 /\ positive p131 /\ calm p131 all4 j131 /\ NX p131 all4 l10 = 23 /\ NY p131 all4 l10 = 21.
Proof.
  split.
  - destruct (C112_complete_partial all4 3 1 10 10 10 10 eq_refl) as (s & B & _). unfold new_conf. cbn [p_nx p_ny p131 l_lx l_rx l_ly l_ry l10]. rewrite B. eexists. reflexivity.
  - split; [unfold thick; cbn; repeat split; intros; lia|]. split; [unfold positive; cbn; lra|]. split; [|split; reflexivity]. intros q. cbn. repeat split; reflexivity.
Qed.
(** Without conductivity the blocks are plain cells: four walls of two layers around 2 x 2 cells against a grid of 6 x 6. *)
Example C132_plain_case : let z := Q2Qc 0 in let u := Q2Qc 1 in
  let p n := {| p_g := base_grid (no_conductor (Q2Qc (1000 # 1))) (Q2Qc (1 # 1000)) u u z z; p_nx := n; p_ny := n; p_dx := u; p_dy := u; p_eps := u; p_mu := u; p_dt := Q2Qc (1 # 2) |} in
  let j a b := (fun _ _ : nat => z, fun x y => if Nat.eqb x a && Nat.eqb y b then u else z) in
  match new_conf (p 2) u all4 {| l_lx := 2; l_rx := 2; l_ly := 2; l_ry := 2 |} with
  | Ok k => let r := run_b (step_fdtd_b (fun _ => z) k) (j 1 0 :: repeat off 3) zero_st in let e := run2 (step_fdtd (p 6)) (j 3 2 :: repeat off 3) zero2 in
      forallb (fun x => forallb (fun y => neqb (hz (mn r) x y) (hz e (2 + x) (2 + y))) [0; 1] && forallb (fun y => neqb (b_hz (bl r Lx) x y) (hz e x (2 + y))) [0; 1] &&
        forallb (fun y => neqb (b_hz (bl r LxLy) x y) (hz e x y)) [0; 1] && forallb (fun y => neqb (b_hz (bl r RxRy) x y) (hz e (4 + x) (4 + y))) [0; 1] &&
        forallb (fun y => neqb (b_ey (bl r RxLy) x y) (ey e (4 + x) y)) [0; 1] && forallb (fun y => neqb (b_ex (bl r Ry) x y) (ex e (2 + x) (4 + y))) [0; 1; 2]) [0; 1] = true /\ this (b_hz (bl r LxLy) 1 1) <> 0%Q
  | Err _ => False
  end.
Proof. vm_compute. split; [reflexivity|discriminate]. Qed.
