(** Properties C130 and C131: whether the absorbing walls of the two-dimensional solver are mirror images, and whether they
    only take energy out. *)
From Coq Require Import List Arith ZArith Bool String Lia Ring Field QArith Qcanon Reals Lra Psatz.
From Verif Require Import Num Vec FieldModel GridModel GridProofs2 SolverModel WakeModel WakeNum StabSum Grid2DModel Grid2DArea Solver2DModel Solver2DProofs Solver2DRuns Solver2DProps Pml2DModel Pml2DProofs Pml2DProps Pml2DProps2 Pml2DLine Pml2DFlat.
Import ListNotations.
Open Scope nat_scope.

(** ** C131 *)
(** The squares of the fields of one row of cells, over the grid and the layers of the low x wall; the edges between the
    two are counted once. *)
Definition row_energy (p : @par2 R) (l : lay) (s : @st2 R) (j : nat) : R :=
  (p_eps p * (sum (l_lx l) (fun i => b_ey (bl s Lx) i j * b_ey (bl s Lx) i j) + sum (S (p_nx p)) (fun i => ey (mn s) i j * ey (mn s) i j)) +
   p_mu p * (sum (l_lx l) (fun i => b_hz (bl s Lx) i j * b_hz (bl s Lx) i j) + sum (p_nx p) (fun i => hz (mn s) i j * hz (mn s) i j)))%R.
(** Currents along y that do not vary along y. *)
Definition along (p : @par2 R) (a : (nat -> nat -> R) * (nat -> nat -> R)) : Prop := fst a = (fun _ _ => 0%R) /\ forall i j, j < p_ny p -> snd a i j = snd a i 0.
Lemma sig_pos (eps c h : R) n : (0 < eps)%R -> (0 < c)%R -> (0 < h)%R -> 2 <= n -> (0 < sig_m ln eps c h n)%R.
Proof.
  intros He Hc Hh Hn. unfold sig_m. assert (L : (ln (@r0 R Num_R) < 0)%R).
  { rewrite <- ln_1. apply ln_increasing; unfold r0; rewrite nofnat_INR; cbn [INR ndiv nmul none_ Num_R]; lra. }
  set (x := ln (@r0 R Num_R)) in *. clearbody x. rewrite nofnat_INR.
  assert (P : (0 < INR (n - 1))%R) by (apply lt_0_INR; lia). set (y := INR (n - 1)) in *. clearbody y. unfold n4, ntwo. cbn [nadd nsub nmul ndiv nopp none_ nzero Num_R].
  match goal with |- (0 < ?t)%R => replace t with (2 * eps * c / (y * h) * - x)%R by (field; lra) end.
  apply Rmult_lt_0_compat; [|lra]. apply Rdiv_lt_0_compat; [|apply Rmult_lt_0_compat; lra]. apply Rmult_lt_0_compat; [|lra]. lra.
Qed.
Lemma layer_pos (sm : R) n i : (0 < sm)%R -> 0 < n -> (0 <= layer sm n i)%R.
Proof.
  intros H N. unfold layer. rewrite !nofnat_INR. cbn [nmul ndiv Num_R]. assert (A : (0 <= INR i)%R) by apply pos_INR. assert (B : (0 < INR n)%R) by (apply lt_0_INR; lia).
  assert (C : (0 <= INR i / INR n)%R) by (apply Rmult_le_pos; [exact A|left; apply Rinv_0_lt_compat; exact B]).
  apply Rmult_le_pos; [left; exact H|]. apply Rmult_le_pos; [apply Rmult_le_pos|]; exact C.
Qed.
Section C131.
  Context (p : @par2 R) (cfln c : R) (l : lay) (k : @conf R) (far tol xmin ymin : R) (Hk : new_conf p c only_lx l = Ok k)
    (Hf : free_par far tol xmin ymin p) (Nx : 0 < p_nx p) (Ny : 0 < p_ny p) (Nl : 2 <= l_lx l)
    (Hc : (0 < c)%R) (Hl : (c * c * (p_eps p * p_mu p) = 1)%R) (Hn : (0 < cfln < 1)%R) (Hd : p_dt p = dt2 sqrt cfln c (p_dx p) (p_dy p)).
  Let n := l_lx l.
  Lemma h_sizes : sizes p only_lx l. Proof. unfold sizes. cbn. repeat split; try assumption; intros; try discriminate; lia. Qed.
  Lemma h_free i j : g_int (p_g p) i j = true /\ nltb nzero (g_lx (p_g p) i j) = true /\ nltb nzero (g_ly (p_g p) i j) = true.
  Proof.
    destruct Hf as (Ht & -> & Hx & Hy & _). destruct (free_grid far tol (p_dx p) (p_dy p) xmin ymin i j Ht Hx Hy) as (-> & -> & _ & ->).
    repeat split; apply R_ltb; assumption.
  Qed.
  Lemma h_dt : (0 < p_dt p)%R /\ (p_dt p / p_dx p * (p_dt p / p_dx p) <= cfln * cfln * (p_eps p * p_mu p))%R.
  Proof.
    destruct Hf as (_ & _ & Hx & Hy & He & Hm).
    set (k2 := (1 / (p_dx p * p_dx p) + 1 / (p_dy p * p_dy p))%R).
    assert (K : (0 < k2)%R) by (unfold k2; apply Rplus_lt_0_compat; apply Rdiv_lt_0_compat; nra).
    assert (S0 : (0 < sqrt k2)%R) by (apply sqrt_lt_R0; exact K).
    assert (D : p_dt p = (cfln / (c * sqrt k2))%R) by exact Hd.
    assert (Dp : (0 < p_dt p)%R) by (rewrite D; apply Rdiv_lt_0_compat; nra).
    assert (Dc : (p_dt p * p_dt p * k2 = cfln * cfln * (p_eps p * p_mu p))%R).
    { rewrite D. replace (cfln / (c * sqrt k2) * (cfln / (c * sqrt k2)) * k2)%R with (cfln * cfln * k2 / (c * c * (sqrt k2 * sqrt k2)))%R by (field; lra).
      rewrite sqrt_sqrt by lra. replace (p_eps p * p_mu p)%R with (/ (c * c))%R; [field; lra|]. apply (Rmult_eq_reg_l (c * c)); [|nra]. rewrite Hl. field. lra. }
    split; [exact Dp|]. rewrite <- Dc. unfold k2. replace (p_dt p / p_dx p * (p_dt p / p_dx p))%R with (p_dt p * p_dt p * (1 / (p_dx p * p_dx p)))%R by (field; lra).
    assert (0 < 1 / (p_dy p * p_dy p))%R by (apply Rdiv_lt_0_compat; nra). apply Rmult_le_compat_l; [nra|]. lra.
  Qed.
  Let st := step_fdtd_b ln k.
  Lemma st_flat a s : along p a -> flat p s -> flat p (st (fst a) (snd a) s).
  Proof.
    destruct a as [jx jy]. intros [A1 A2] F. cbn [fst snd] in *. destruct Hf as (_ & _ & Hx & Hy & He & Hm). subst jx.
    exact (flat_step ln p c l k Hk h_sizes Hx He h_free jy A2 s F).
  Qed.
  Lemma run_flat js s : (forall a, In a js -> along p a) -> flat p s -> flat p (run_b st js s).
  Proof.
    revert s. induction js as [|a js IH]; intros s H F; [exact F|]. cbn. apply IH; [intros b I; apply H; right; exact I|]. apply st_flat; [apply H; left; reflexivity|exact F].
  Qed.
  (** the line of one row *)
  Definition le (s : @st2 R) (j i : nat) : R := if i <? n then yx (bl s Lx) i j else ey (mn s) (i - n) j.
  Definition lh (s : @st2 R) (j i : nat) : R := if i <? n then zx (bl s Lx) i j else hz (mn s) (i - n) j.
  Definition sE (i : nat) : R := if i <? n then sg ln p c l i else 0%R.
  Definition sH (i : nat) : R := if i <? n then star p (sg ln p c l i) else 0%R.
  Lemma sg_pos i : (0 <= sg ln p c l i)%R.
  Proof. destruct Hf as (_ & _ & Hx & Hy & He & Hm). unfold sg, sx. apply layer_pos; [apply sig_pos; assumption|lia]. Qed.
  Lemma star_pos i : (0 <= star p (sg ln p c l i))%R.
  Proof.
    pose proof (sg_pos i) as S. destruct Hf as (_ & _ & Hx & Hy & He & Hm). unfold star. cbn [nmul ndiv Num_R]. apply Rmult_le_pos; [apply Rmult_le_pos; lra|]. left. apply Rinv_0_lt_compat, He.
  Qed.
  Lemma sE_pos i : (0 <= sE i)%R. Proof. unfold sE. destruct (i <? n); [apply sg_pos|lra]. Qed.
  Lemma sH_pos i : (0 <= sH i)%R. Proof. unfold sH. destruct (i <? n); [apply star_pos|lra]. Qed.
  Lemma row_QQ s j : flat p s -> row_energy p l s j = QQ (n + p_nx p) (p_eps p) (p_mu p) (le s j) (lh s j).
  Proof.
    intros (_ & _ & F & _). unfold row_energy, QQ, esq, hsq. rewrite <- Nat.add_succ_r. rewrite !SR_split. fold n.
    assert (A : forall m (f g : nat -> R), (forall i, i < m -> f i = g i) -> sum m f = SR m g) by (intros; apply SR_ext; assumption).
    rewrite (A n (fun i => (b_ey (bl s Lx) i j * b_ey (bl s Lx) i j)%R) (fun m => (le s j m * le s j m)%R)).
    2: { intros i Hi. unfold le, b_ey. rewrite (proj2 (Nat.ltb_lt i n) Hi), (proj2 (proj2 (proj2 (F i j)))). cbn. ring. }
    rewrite (A n (fun i => (b_hz (bl s Lx) i j * b_hz (bl s Lx) i j)%R) (fun m => (lh s j m * lh s j m)%R)).
    2: { intros i Hi. unfold lh, b_hz. rewrite (proj2 (Nat.ltb_lt i n) Hi), (proj1 (proj2 (proj2 (F i j)))). cbn. ring. }
    rewrite (A (S (p_nx p)) (fun i => (ey (mn s) i j * ey (mn s) i j)%R) (fun m => (le s j (n + m) * le s j (n + m))%R)).
    2: { intros i Hi. unfold le. rewrite (proj2 (Nat.ltb_ge (n + i) n)) by lia. replace (n + i - n) with i by lia. reflexivity. }
    rewrite (A (p_nx p) (fun i => (hz (mn s) i j * hz (mn s) i j)%R) (fun m => (lh s j (n + m) * lh s j (n + m))%R)).
    2: { intros i Hi. unfold lh. rewrite (proj2 (Nat.ltb_ge (n + i) n)) by lia. replace (n + i - n) with i by lia. reflexivity. }
    reflexivity.
  Qed.
  Lemma row_step s j : flat p s -> j < p_ny p -> (b_ey (bl s Lx) n j = ey (mn s) 0 j) ->
    line_step (n + p_nx p) (p_eps p) (p_mu p) (p_dt p) (p_dx p) sH sE (le s j) (lh s j) (le (st (fst off) (snd off) s) j) (lh (st (fst off) (snd off) s) j).
  Proof.
    intros F L J. destruct Hf as (_ & _ & Hx & Hy & He & Hm). destruct h_dt as [Ht _].
    pose proof (st_by ln p c l k Hk h_sizes Hx He h_free (snd off) ltac:(reflexivity) s) as Eby. pose proof (st_ey ln p c l k Hk h_sizes h_free (snd off) ltac:(reflexivity) s) as Eey.
    pose proof (st_bz ln p c l k Hk (snd off) s) as Ebz. pose proof (st_hz ln p c l k Hk h_free (snd off) s) as Ehz.
    pose proof (st_flat off s ltac:(split; reflexivity) F) as (_ & _ & _ & _ & G5).
    change (fst_ ln k (snd off) s) with (st (fst off) (snd off) s) in *. set (s' := st (fst off) (snd off) s) in *.
    pose proof F as (_ & _ & F3 & _ & F5).
    assert (J' : yx (bl s Lx) n j = ey (mn s) 0 j). { revert J. unfold b_ey. rewrite (proj2 (proj2 (proj2 (F3 n j)))). cbn [nadd Num_R]. rewrite Rplus_0_r. auto. }
    assert (LL : (j <? p_ny p) = true) by (apply Nat.ltb_lt, L).
    assert (H1 : forall i, i < n -> lh s' j i = hbl ln p c l s i j).
    { intros i Hi. unfold lh. rewrite (proj2 (Nat.ltb_lt i n) Hi), (proj1 (Ebz i j F)). fold n. rewrite (proj2 (Nat.ltb_lt i n) Hi), LL. reflexivity. }
    assert (H2 : forall i, i < p_nx p -> lh s' j (n + i) = hmn p s i j).
    { intros i Hi. unfold lh. rewrite (proj2 (Nat.ltb_ge (n + i) n)) by lia. replace (n + i - n) with i by lia. rewrite (Ehz i j F), (proj2 (Nat.ltb_lt i (p_nx p)) Hi), LL. reflexivity. }
    assert (P1 : forall i, (0 < 2 * p_mu p + p_dt p * star p (sg ln p c l i))%R).
    { intros i. pose proof (Rmult_le_pos _ _ (Rlt_le _ _ Ht) (star_pos i)). lra. }
    assert (P2 : forall i, (0 < 2 * p_eps p + p_dt p * sg ln p c l i)%R).
    { intros i. pose proof (Rmult_le_pos _ _ (Rlt_le _ _ Ht) (sg_pos i)). lra. }
    assert (N2 : @ntwo R Num_R = 2%R) by (unfold ntwo; cbn; lra).
    split; [|split; [|split; [|split; [|split]]]].
    - intros i Hi. destruct (Nat.lt_ge_cases i n) as [Q|Q].
      + rewrite (H1 i Q). unfold le, lh, sH. rewrite (proj2 (Nat.ltb_lt i n) Q).
        replace (if S i <? n then yx (bl s Lx) (S i) j else ey (mn s) (S i - n) j) with (yx (bl s Lx) (S i) j).
        2: { destruct (S i <? n) eqn:W; [reflexivity|]. apply Nat.ltb_ge in W. replace (S i) with n by lia. rewrite Nat.sub_diag. exact J'. }
        unfold hbl, cC, cD. rewrite N2. specialize (P1 i). set (q := star p (sg ln p c l i)) in *. cbn [nadd nsub nmul ndiv Num_R]. clearbody q. field. lra.
      + replace i with (n + (i - n)) by lia. set (m := i - n). rewrite (H2 m) by lia. unfold le, lh, sH. rewrite <- Nat.add_succ_r, (proj2 (Nat.ltb_ge (n + m) n)), (proj2 (Nat.ltb_ge (n + S m) n)) by lia.
        replace (n + m - n) with m by lia. replace (n + S m - n) with (S m) by lia. unfold hmn. field. lra.
    - intros i Hi. destruct (Nat.lt_ge_cases i n) as [Q|Q].
      + rewrite (H1 i Q), (H1 (i - 1)) by lia. unfold le, sE. rewrite (proj2 (Nat.ltb_lt i n) Q), (proj2 (Eby i j F L)). fold n. rewrite (proj2 (Nat.ltb_lt i n) Q), (proj2 (Nat.eqb_neq i 0)) by lia.
        unfold cA, cB. rewrite N2. specialize (P2 i). set (q := sg ln p c l i) in *. cbn [nadd nsub nmul ndiv Num_R]. clearbody q. field. lra.
      + unfold le, sE. rewrite (proj2 (Nat.ltb_ge i n)), Eey by (assumption || lia). fold n.
        assert (C : i = n \/ n < i) by lia. destruct C as [-> | C].
        * replace (n - n) with 0 by lia. cbn [Nat.eqb]. rewrite (H1 (n - 1)) by lia. pose proof (H2 0 Nx) as H20. rewrite Nat.add_0_r in H20. rewrite H20. cbn [snd off nzero Num_R]. field. lra.
        * assert (A1 : lh s' j i = hmn p s (i - n) j) by (replace i with (n + (i - n)) at 1 by lia; apply H2; lia). assert (A2 : lh s' j (i - 1) = hmn p s (i - n - 1) j) by (replace (i - 1) with (n + (i - n - 1)) by lia; apply H2; lia). rewrite A1, A2. rewrite (proj2 (Nat.eqb_neq (i - n) 0)), (proj2 (Nat.ltb_lt (i - n) (p_nx p))) by lia. cbn [snd off nzero Num_R]. field. lra.
    - unfold le. rewrite (proj2 (Nat.ltb_lt 0 n)) by lia. apply F5, L.
    - unfold le. rewrite (proj2 (Nat.ltb_ge (n + p_nx p) n)) by lia. replace (n + p_nx p - n) with (p_nx p) by lia. apply F5, L.
    - unfold le. rewrite (proj2 (Nat.ltb_lt 0 n)) by lia. apply G5, L.
    - unfold le. rewrite (proj2 (Nat.ltb_ge (n + p_nx p) n)) by lia. replace (n + p_nx p - n) with (p_nx p) by lia. apply G5, L.
  Qed.
  Lemma joint s j : joined p only_lx l s -> j < p_ny p -> b_ey (bl s Lx) n j = ey (mn s) 0 j.
  Proof. intros J L. destruct (J (Blk Lx) Main eq_refl I) as [J1 _]. exact (J1 eq_refl j L). Qed.
  Lemma decay m s j : flat p s -> joined p only_lx l s -> j < p_ny p ->
    let s' := run_b st (repeat off m) s in
    flat p s' /\ (WW (n + p_nx p) (p_eps p) (p_mu p) (p_dt p) (p_dx p) (le s' j) (lh s' j) <= WW (n + p_nx p) (p_eps p) (p_mu p) (p_dt p) (p_dx p) (le s j) (lh s j))%R.
  Proof.
    revert s. induction m as [|m IH]; intros s F J L; [split; [exact F|apply Rle_refl]|].
    destruct Hf as (_ & _ & Hx & Hy & He & Hm). destruct h_dt as [Ht Hq]. pose proof (row_step s j F L (joint s j J L)) as R.
    pose proof (st_flat off s ltac:(split; reflexivity) F) as F'.
    assert (J' : joined p only_lx l (st (fst off) (snd off) s)).
    { apply (joined_fdtd ln p c only_lx l k eq_refl Hk h_sizes (conj Hx (conj Hy He)) [off]); [|exact J]. intros a [<-|[]]. intros q. repeat split; intros; reflexivity. }
    destruct (IH _ F' J' L) as [G1 G2]. split; [exact G1|]. eapply Rle_trans; [exact G2|].
    apply (line_decay (n + p_nx p) (p_eps p) (p_mu p) (p_dt p) (p_dx p) Ht sH sE sH_pos sE_pos _ _ _ _ R).
  Qed.
  Lemma bounded s m j : flat p s -> joined p only_lx l s -> j < p_ny p ->
    (row_energy p l (run_b st (repeat off m) s) j <= (1 + cfln) / (1 - cfln) * row_energy p l s j)%R.
  Proof.
    intros F J L. destruct Hf as (_ & _ & Hx & Hy & He & Hm). destruct h_dt as [Ht Hq]. destruct (decay m s j F J L) as [F' D]. set (s' := run_b st (repeat off m) s) in *.
    rewrite (row_QQ s' j F'), (row_QQ s j F).
    pose proof (cross_bound (n + p_nx p) (p_eps p) (p_mu p) (p_dt p) (p_dx p) cfln He Hm Ht Hx (proj1 Hn) Hq (lh s' j) (le s' j)) as B1.
    pose proof (cross_bound (n + p_nx p) (p_eps p) (p_mu p) (p_dt p) (p_dx p) cfln He Hm Ht Hx (proj1 Hn) Hq (lh s j) (le s j)) as B2.
    assert (Ab : forall x y : R, (Rabs x <= y)%R -> (- y <= x <= y)%R) by (intros x y; unfold Rabs; destruct (Rcase_abs x); lra). apply Ab in B1, B2. unfold WW in D. unfold QQ in *.
    set (a1 := (p_dt p / p_dx p * cross (n + p_nx p) (lh s' j) (le s' j))%R) in *. set (a2 := (p_dt p / p_dx p * cross (n + p_nx p) (lh s j) (le s j))%R) in *.
    set (q1 := (p_eps p * esq (n + p_nx p) (le s' j) + p_mu p * hsq (n + p_nx p) (lh s' j))%R) in *. set (q2 := (p_eps p * esq (n + p_nx p) (le s j) + p_mu p * hsq (n + p_nx p) (lh s j))%R) in *.
    apply (Rmult_le_reg_l (1 - cfln)); [lra|]. replace ((1 - cfln) * ((1 + cfln) / (1 - cfln) * q2))%R with ((1 + cfln) * q2)%R by (field; lra). lra.
  Qed.
End C131.
(** One absorbing low x wall of at least two layers, no conductors, the time step of the solver and cfln < 1; currents along y
    that do not vary along y and stay off the wall.  Once they are off, the squares of the fields of grid and layers never
    exceed (1 + cfln) / (1 - cfln) times those at that time, however long the run.
    Not shown: fields that vary along the wall, other walls, conductors, and how fast the layers absorb. *)
Theorem C131_uniform_partial : forall (p : @par2 R) (cfln c : R) l k far tol xmin ymin js m j, new_conf p c only_lx l = Ok k -> free_par far tol xmin ymin p ->
  0 < p_nx p -> j < p_ny p -> 2 <= l_lx l -> (0 < c)%R -> (c * c * (p_eps p * p_mu p) = 1)%R -> (0 < cfln < 1)%R -> p_dt p = dt2 sqrt cfln c (p_dx p) (p_dy p) ->
  (forall a, In a js -> along p a /\ calm p only_lx a) ->
  let s := run_b (step_fdtd_b ln k) js zero_st in let s' := run_b (step_fdtd_b ln k) (repeat off m) s in
  (forall i' j', ex (mn s') i' j' = 0%R /\ b_ex (bl s' Lx) i' j' = 0%R) /\ (row_energy p l s' j <= (1 + cfln) / (1 - cfln) * row_energy p l s j)%R.
Proof.
  intros p cfln c l k far tol xmin ymin js m j Hk Hf Nx L Nl Hc Hl Hn Hd Hj s s'. assert (Ny : 0 < p_ny p) by lia.
  assert (F : flat p s) by (apply (run_flat p c l k far tol xmin ymin Hk Hf Nx Ny Nl); [intros a I; apply (Hj a I)|apply flat_zero]).
  assert (J : joined p only_lx l s).
  { destruct Hf as (_ & _ & Hx & Hy & He & _). apply C127_fdtd_partial with (c := c); [reflexivity|exact Hk|apply (h_sizes p l Nx Ny Nl)|repeat split; assumption|intros a I; apply (Hj a I)]. }
  split.
  - assert (F' : flat p s') by (apply (run_flat p c l k far tol xmin ymin Hk Hf Nx Ny Nl); [intros a I; apply repeat_spec in I; subst a; split; reflexivity|exact F]).
    intros i' j'. destruct F' as (F1 & _ & F3 & _). split; [apply F1|]. unfold b_ex. rewrite (proj1 (F3 i' j')), (proj1 (proj2 (F3 i' j'))). cbn. ring.
  - apply (bounded p cfln c l k far tol xmin ymin Hk Hf Nx Ny Nl Hc Hl Hn Hd s m j F J L).
Qed.
Print Assumptions C131_uniform_partial.
(** Three cells of 1 x 1 behind ten layers, a current along y on the second row of edges: a field is left behind. *)
Definition p131 : @par2 R := {| p_g := base_grid (no_conductor 1000%R) (/ 1000)%R 1%R 1%R 0%R 0%R; p_nx := 3; p_ny := 1; p_dx := 1%R; p_dy := 1%R; p_eps := 1%R; p_mu := 1%R; p_dt := dt2 sqrt (1 / 2)%R 1%R 1%R 1%R |}.
Definition j131 : (nat -> nat -> R) * (nat -> nat -> R) := (fun _ _ => 0%R, fun i _ => if i =? 1 then 1%R else 0%R).
Example C131_case : exists k, new_conf p131 1%R only_lx lj = Ok k /\ free_par 1000%R (/ 1000)%R 0%R 0%R p131 /\ along p131 j131 /\ calm p131 only_lx j131 /\
  (0 < row_energy p131 lj (run_b (step_fdtd_b ln k) [j131] zero_st) 0)%R.
Proof.
  destruct (C112_complete_partial only_lx 3 1 10 0 0 0 eq_refl) as (s & B & _).
  assert (Hk : exists k, new_conf p131 1%R only_lx lj = Ok k) by (unfold new_conf; cbn [p_nx p_ny p131 l_lx l_rx l_ly l_ry lj]; rewrite B; eexists; reflexivity).
  destruct Hk as [k Hk]. exists k.
  assert (Hf : free_par 1000%R (/ 1000)%R 0%R 0%R p131) by (unfold free_par; cbn; repeat split; lra).
  assert (A : along p131 j131) by (split; reflexivity). assert (C : calm p131 only_lx j131) by (intros q; cbn; repeat split; intros; try discriminate; reflexivity).
  split; [exact Hk|]. split; [exact Hf|]. split; [exact A|]. split; [exact C|].
  assert (Hs : sizes p131 only_lx lj) by (unfold sizes; cbn; repeat split; intros; try lia; discriminate).
  pose proof (st_ey ln p131 1%R lj k Hk Hs (h_free p131 1000%R (/ 1000)%R 0%R 0%R Hf) (snd j131) (proj2 A) zero_st 1 0 (flat_zero p131) ltac:(cbn; lia)) as E.
  change (fst_ ln k (snd j131) zero_st) with (run_b (step_fdtd_b ln k) [j131] zero_st) in E. set (s1 := run_b (step_fdtd_b ln k) [j131] zero_st) in *. clearbody s1.
  assert (D : (0 < p_dt p131)%R).
  { cbn [p_dt p131]. unfold dt2. cbn [nadd nmul ndiv none_ Num_R]. set (q := (1 / (1 * 1) + 1 / (1 * 1))%R). assert (K : (0 < sqrt q)%R) by (apply sqrt_lt_R0; unfold q; lra). apply Rdiv_lt_0_compat; lra. }
  assert (E1 : ey (mn s1) 1 0 = (- p_dt p131)%R).
  { rewrite E. unfold hmn. cbn [Nat.eqb p_nx p131 Nat.ltb Nat.leb snd j131 Nat.sub zero_st mn zero2 ey hz nzero Num_R]. change (p_eps p131) with 1%R. change (p_mu p131) with 1%R. change (p_dx p131) with 1%R. set (t := p_dt p131). clearbody t. field. }
  unfold row_energy. change (p_eps p131) with 1%R. change (p_mu p131) with 1%R. change (p_nx p131) with 3. change (l_lx lj) with 10.
  assert (P : forall m (f : nat -> R), (0 <= sum m (fun i => f i * f i))%R) by (intros; apply SR_pos; intros; apply Rle_0_sqr).
  pose proof (P 10 (fun i => b_ey (bl s1 Lx) i 0)) as P1. pose proof (P 10 (fun i => b_hz (bl s1 Lx) i 0)) as P2. pose proof (P 3 (fun i => hz (mn s1) i 0)) as P3. cbv beta in P1, P2, P3.
  assert (P4 : (0 < sum 4 (fun i => ey (mn s1) i 0 * ey (mn s1) i 0))%R).
  { cbn [sum]. cbn [nadd nzero Num_R]. rewrite E1. pose proof (Rle_0_sqr (ey (mn s1) 0 0)). pose proof (Rle_0_sqr (ey (mn s1) 2 0)). pose proof (Rle_0_sqr (ey (mn s1) 3 0)). unfold Rsqr in *. assert (0 < - p_dt p131 * - p_dt p131)%R by nra. lra. }
  lra.
Qed.

(** ** C130 *)
(** The run mirrored in x: y components keep their sign, x components change it. *)
Definition mirrored {T} {NT : Num T} (p : @par2 T) (a b : (nat -> nat -> T) * (nat -> nat -> T)) : Prop :=
  (forall i j, i < p_nx p -> j <= p_ny p -> fst b (p_nx p - 1 - i) j = nopp (fst a i j)) /\ (forall i j, i <= p_nx p -> j < p_ny p -> snd b (p_nx p - i) j = snd a i j).
Definition only_rx : walls := {| w_lx := false; w_rx := true; w_ly := false; w_ry := false |}.
Definition p130 : @par2 Qc := let z := Q2Qc 0 in let u := Q2Qc 1 in
  {| p_g := base_grid (no_conductor (Q2Qc (1000 # 1))) (Q2Qc (1 # 1000)) u u z z; p_nx := 2; p_ny := 1; p_dx := u; p_dy := u; p_eps := u; p_mu := u; p_dt := Q2Qc (1 # 2) |}.
(** Square cells, no conductors, ten layers on the one absorbing wall, a pulse in the middle: after four steps the field on
    the low wall of one run is not the field on the high wall of the other. *)
Theorem C130_refuted : exists (p : @par2 Qc) c n k k' js js' j, p_dx p = p_dy p /\ new_conf p c only_lx {| l_lx := n; l_rx := 0; l_ly := 0; l_ry := 0 |} = Ok k /\
  new_conf p c only_rx {| l_lx := 0; l_rx := n; l_ly := 0; l_ry := 0 |} = Ok k' /\ Forall2 (mirrored p) js js' /\ (forall a, In a js -> calm p only_lx a) /\ (forall a, In a js' -> calm p only_rx a) /\
  (forall i j, g_int (p_g p) i j = true) /\ j < p_ny p /\ ey (mn (run_b (step_fdtd_b qlog k) js zero_st)) 0 j <> ey (mn (run_b (step_fdtd_b qlog k') js' zero_st)) (p_nx p) j.
Proof.
  set (a := (fun _ _ : nat => Q2Qc 0, fun i _ : nat => if Nat.eqb i 1 then Q2Qc 1 else Q2Qc 0)). set (js := a :: repeat off 3).
  assert (B : match new_conf p130 (Q2Qc 1) only_lx {| l_lx := 10; l_rx := 0; l_ly := 0; l_ry := 0 |}, new_conf p130 (Q2Qc 1) only_rx {| l_lx := 0; l_rx := 10; l_ly := 0; l_ry := 0 |} with
    | Ok k, Ok k' => neqb (ey (mn (run_b (step_fdtd_b qlog k) js zero_st)) 0 0) (ey (mn (run_b (step_fdtd_b qlog k') js zero_st)) 2 0) = false | _, _ => False end) by (vm_compute; reflexivity).
  destruct (new_conf p130 (Q2Qc 1) only_lx _) as [k|] eqn:K1; [|contradiction]. destruct (new_conf p130 (Q2Qc 1) only_rx _) as [k'|] eqn:K2; [|contradiction].
  exists p130, (Q2Qc 1), 10, k, k', js, js, 0. split; [reflexivity|]. split; [exact K1|]. split; [exact K2|].
  assert (Ma : mirrored p130 a a). { split; cbn; intros i j Hi Hj; [apply Qc_is_canon; reflexivity|]. destruct i as [|[|[|i]]]; try reflexivity; lia. }
  assert (Mo : mirrored p130 off off). { split; cbn; intros i j Hi Hj; [apply Qc_is_canon; reflexivity|reflexivity]. }
  split; [repeat (constructor; [assumption|]); constructor|].
  split; [intros x I q; repeat (destruct I as [<-|I]); [..|destruct I]; cbn; repeat split; intros; try discriminate; reflexivity|].
  split; [intros x I q; repeat (destruct I as [<-|I]); [..|destruct I]; cbn; repeat split; intros; try discriminate; reflexivity|].
  split; [intros; vm_compute; reflexivity|]. split; [cbn; lia|]. change (p_nx p130) with 2. apply neqb_neq. exact B.
Qed.
Print Assumptions C130_refuted.
(** What the layers hold, for every number of layers: cells at the same depth have the same conductivity up to dx against dy;
    on the edges behind the first one the high wall has more, at every depth: the edge at depth d takes the value of the
    layer in front of it on the low wall, and of the layer behind it on the high wall. *)
Theorem C130_layers_partial : forall (p : @par2 R) c w l n, l_lx l = n -> l_rx l = n -> 2 <= n -> (0 < p_dx p)%R -> (0 < p_dy p)%R -> (0 < p_eps p)%R -> (0 < c)%R ->
  (forall d, d < n -> (sx ln p c w l Rx d * p_dy p = sx ln p c w l Lx (n - 1 - d) * p_dx p)%R) /\
  (forall d, 1 <= d < n -> (sx ln p c w l Lx (n - d) * p_dx p < sx ln p c w l Rx d * p_dy p)%R) /\ sx ln p c w l Lx (n - 1) = 0%R /\ sx ln p c w l Rx 0 = 0%R.
Proof.
  intros p c w l n El Er Hn Hx Hy He Hc. unfold sx. rewrite El, Er.
  assert (P : forall h, (0 < h)%R -> (sig_m ln (p_eps p) c h n * h = sig_m ln (p_eps p) c 1 n)%R).
  { intros h Hh. unfold sig_m. set (x := ln (@r0 R Num_R)). clearbody x. rewrite nofnat_INR. assert (Q : (0 < INR (n - 1))%R) by (apply lt_0_INR; lia). set (y := INR (n - 1)) in *. clearbody y.
    unfold n4, ntwo. cbn [nadd nsub nmul ndiv nopp none_ nzero Num_R]. field. repeat split; lra. }
  assert (Q : forall h d, (0 < h)%R -> (layer (sig_m ln (p_eps p) c h n) n d * h = sig_m ln (p_eps p) c 1 n * (INR d / INR n * (INR d / INR n) * (INR d / INR n)))%R).
  { intros h d Hh. rewrite <- (P h Hh). unfold layer. rewrite !nofnat_INR. cbn [nmul ndiv Num_R]. ring. }
  pose proof (sig_pos (p_eps p) c 1%R n He Hc Rlt_0_1 Hn) as Sp. set (sm := sig_m ln (p_eps p) c 1%R n) in *. clearbody sm.
  assert (Np : (0 < INR n)%R) by (apply lt_0_INR; lia).
  split; [|split; [|split]].
  - intros d Hd. replace (n - 1 - (n - 1 - d)) with d by lia. rewrite !Q by assumption. reflexivity.
  - intros d Hd. replace (n - 1 - (n - d)) with (d - 1) by lia. rewrite !Q by assumption. apply Rmult_lt_compat_l; [exact Sp|].
    assert (A : (0 <= INR (d - 1) / INR n)%R) by (apply Rmult_le_pos; [apply pos_INR|left; apply Rinv_0_lt_compat; exact Np]).
    assert (B : (INR (d - 1) / INR n < INR d / INR n)%R) by (apply Rmult_lt_compat_r; [apply Rinv_0_lt_compat; exact Np|apply lt_INR; lia]).
    set (x := (INR (d - 1) / INR n)%R) in *. set (y := (INR d / INR n)%R) in *. clearbody x y.
    assert (x * x <= y * y)%R by (apply Rmult_le_compat; lra). assert (0 < y * y)%R by (apply Rmult_lt_0_compat; lra).
    apply Rle_lt_trans with (y * y * x)%R; [apply Rmult_le_compat_r; lra|apply Rmult_lt_compat_l; lra].
  - rewrite Nat.sub_diag. apply layer0.
  - apply layer0.
Qed.
Print Assumptions C130_layers_partial.
Example C130_case : let p := p130 in let l := {| l_lx := 4; l_rx := 4; l_ly := 0; l_ry := 0 |} in
  (map (fun d => nltb (Q2Qc (1 # 2)) (sx qlog p (Q2Qc 1) only_lx l Lx (4 - d))) [1; 2; 3], map (fun d => nltb (Q2Qc (1 # 2)) (sx qlog p (Q2Qc 1) only_rx l Rx d)) [1; 2; 3]) = ([false; false; true], [false; true; true]).
Proof. vm_compute. reflexivity. Qed.
