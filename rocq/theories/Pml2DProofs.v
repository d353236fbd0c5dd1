(** The absorbing blocks of the two-dimensional solver: one step at the common edges of two areas. *)
From Coq Require Import List Arith ZArith Bool String Lia Ring Field Reals Lra.
From Verif Require Import Num Vec FieldModel GridModel SolverModel WakeModel Grid2DModel Solver2DModel Pml2DModel.
Import ListNotations.
Open Scope nat_scope.

Section Pml.
  Context (log_ : R -> R) (k : @conf R).
  Let p := k_p k.
  Context (Hx : (0 < p_dx p)%R) (Hy : (0 < p_dy p)%R) (He : (0 < p_eps p)%R).
  Lemma cA0 : cA p true 0%R = 1%R.
  Proof. unfold cA, ntwo. cbn. field. lra. Qed.
  Lemma cB0 h : (0 < h)%R -> (cB p true 0 / h = p_dt p / (h * p_eps p))%R.
  Proof. intros H. unfold cB, ntwo. cbn. field. lra. Qed.
  Lemma layer0 sm n : @layer R _ sm n 0 = 0%R.
  Proof. unfold layer. cbn. unfold Rdiv. ring. Qed.
  Context (hs es : @em2 R -> @em2 R) (c4 c5 : R) (jx jy : nat -> nat -> R).
  Context (Hh : forall m i j, ex (hs m) i j = ex m i j /\ ey (hs m) i j = ey m i j)
          (Hz : forall m i j, hz (es m) i j = hz m i j)
          (Hey : forall m i j, i = 0 \/ i = p_nx p -> ey (es m) i j = ey m i j)
          (Hex : forall m i j, j = 0 \/ j = p_ny p -> ex (es m) i j = ex m i j).
  (** the fields after the magnetic half step *)
  Definition mid (s : @st2 R) : @st2 R := {| mn := hs (mn s); bl := each k (fun b => b_adv_h p (bparam log_ k b)) (bl s) |}.
  Definition nxt (s : @st2 R) : @st2 R := step_blocks log_ k hs es c4 c5 jx jy s.
  Definition Bn (b : blk) : nat := q_nx (bparam log_ k b).
  Definition Bm (b : blk) : nat := q_ny (bparam log_ k b).
  Definition Wn (a : who) : nat := w_nx log_ k a.
  Definition Wm (a : who) : nat := w_ny log_ k a.
  Notation hzm s a := (w_hz (mid s) a).

  Definition sec (s : @st2 R) : @st2 R := {| mn := es (mn (mid s)); bl := each k (fun b => b_adv_e p (bparam log_ k b)) (bl (mid s)) |}.
  Lemma nxt_eq s : nxt s = {| mn := m_bound log_ k c4 c5 jx jy (sec s); bl := each k (fun b => b_bound p (bparam log_ k b) (neigh log_ k (sec s) b)) (bl (sec s)) |}.
  Proof. reflexivity. Qed.
  Lemma hz_sec s a i j : w_hz (sec s) a i j = hzm s a i j.
  Proof. destruct a as [|b]; cbn; [apply Hz|]. unfold each. destruct (has (k_pm k) b); reflexivity. Qed.
  Lemma sec_y s b i j : i = 0 \/ Bn b <= i -> yx (bl (sec s) b) i j = yx (bl s b) i j /\ yz (bl (sec s) b) i j = yz (bl s b) i j.
  Proof.
    intros H. cbn [sec mid bl]. unfold each. destruct (has (k_pm k) b); [|split; reflexivity]. cbn [yx yz b_adv_e b_adv_h]. fold (Bn b).
    replace ((1 <=? i) && (i <? Bn b)) with false; [split; reflexivity|]. symmetry. apply andb_false_iff. rewrite Nat.leb_gt, Nat.ltb_ge. lia.
  Qed.
  Lemma sec_x s b i j : j = 0 \/ Bm b <= j -> xy (bl (sec s) b) i j = xy (bl s b) i j /\ xz (bl (sec s) b) i j = xz (bl s b) i j.
  Proof.
    intros H. cbn [sec mid bl]. unfold each. destruct (has (k_pm k) b); [|split; reflexivity]. cbn [xy xz b_adv_e b_adv_h]. fold (Bm b).
    replace ((i <? q_nx (bparam log_ k b)) && (1 <=? j) && (j <? Bm b)) with false; [split; reflexivity|]. symmetry. rewrite <- andb_assoc. apply andb_false_iff. right. apply andb_false_iff. rewrite Nat.leb_gt, Nat.ltb_ge. lia.
  Qed.
  Ltac bool_nat := repeat match goal with
    | |- context [(?a <? ?b)%nat] => first [rewrite (proj2 (Nat.ltb_lt a b)) by lia | rewrite (proj2 (Nat.ltb_ge a b)) by lia]
    | |- context [(?a =? ?b)%nat] => first [rewrite (proj2 (Nat.eqb_eq a b)) by lia | rewrite (proj2 (Nat.eqb_neq a b)) by lia]
    end.
  Ltac prep s b Hb Hl Ho := rewrite <- !hz_sec, nxt_eq; cbn [bl mn]; unfold each; rewrite Hb; unfold b_ey, b_ex; cbn [xy xz yx yz b_bound neigh n_lx n_rx n_ly n_ry];
    rewrite Hl; cbn [is_some val]; fold (Bn b) (Bm b); replace (q_on (bparam log_ k b)) with true by (symmetry; exact Ho).
  Ltac fin := cbn [w_hz bl mn nadd nsub nmul ndiv nzero Num_R]; rewrite ?cA0, ?cB0 by assumption; cbn [w_hz bl mn nadd nsub nmul ndiv nzero Num_R]; ring.

  Lemma blk_right s b c j : has (k_pm k) b = true -> b_link (k_pm k) b SRx = Some c -> b_coef (k_pm k) b = true ->
    q_sx (bparam log_ k b) (Bn b - 1) = 0%R -> 0 < Bn b -> j < Bm b ->
    b_ey (bl (nxt s) b) (Bn b) j = (b_ey (bl s b) (Bn b) j - p_dt p / (p_dx p * p_eps p) * (hzm s c 0 j - hzm s (Blk b) (Bn b - 1) j))%R.
  Proof.
    intros Hb Hl Ho Hs Hn Hj. prep s b Hb Hl Ho. rewrite Hs. destruct (sec_y s b (Bn b) j (or_intror (le_n _))) as [E1 E2]. rewrite E1, E2.
    bool_nat. cbn [andb orb]. fin.
  Qed.
  Lemma blk_left s b c j : has (k_pm k) b = true -> b_link (k_pm k) b SLx = Some c -> b_coef (k_pm k) b = true ->
    q_sx (bparam log_ k b) 0 = 0%R -> j < Bm b ->
    b_ey (bl (nxt s) b) 0 j = (b_ey (bl s b) 0 j - p_dt p / (p_dx p * p_eps p) * (hzm s (Blk b) 0 j - hzm s c (Wn c - 1) j))%R.
  Proof.
    intros Hb Hl Ho Hs Hj. prep s b Hb Hl Ho. rewrite Hs. destruct (sec_y s b 0 j (or_introl eq_refl)) as [E1 E2]. rewrite E1, E2.
    bool_nat. cbn [andb orb Nat.eqb]. unfold Wn. fin.
  Qed.
  Lemma blk_top s b c i : has (k_pm k) b = true -> b_link (k_pm k) b SRy = Some c -> b_coef (k_pm k) b = true ->
    q_sy (bparam log_ k b) (Bm b - 1) = 0%R -> 0 < Bm b -> i < Bn b ->
    b_ex (bl (nxt s) b) i (Bm b) = (b_ex (bl s b) i (Bm b) + p_dt p / (p_dy p * p_eps p) * (hzm s c i 0 - hzm s (Blk b) i (Bm b - 1)))%R.
  Proof.
    intros Hb Hl Ho Hs Hn Hj. prep s b Hb Hl Ho. rewrite Hs. destruct (sec_x s b i (Bm b) (or_intror (le_n _))) as [E1 E2]. rewrite E1, E2.
    bool_nat. cbn [andb orb]. rewrite ?orb_true_r. fin.
  Qed.
  Lemma blk_bottom s b c i : has (k_pm k) b = true -> b_link (k_pm k) b SLy = Some c -> b_coef (k_pm k) b = true ->
    q_sy (bparam log_ k b) 0 = 0%R -> i < Bn b ->
    b_ex (bl (nxt s) b) i 0 = (b_ex (bl s b) i 0 + p_dt p / (p_dy p * p_eps p) * (hzm s (Blk b) i 0 - hzm s c i (Wm c - 1)))%R.
  Proof.
    intros Hb Hl Ho Hs Hj. prep s b Hb Hl Ho. rewrite Hs. destruct (sec_x s b i 0 (or_introl eq_refl)) as [E1 E2]. rewrite E1, E2.
    bool_nat. cbn [andb orb Nat.eqb]. unfold Wm. fin.
  Qed.
  Ltac prepm Hb := rewrite <- !hz_sec, nxt_eq; cbn [bl mn]; unfold m_bound; cbn [ex ey]; rewrite Hb; fold p.
  Lemma main_left s j : has (k_pm k) Lx = true -> j < p_ny p ->
    ey (mn (nxt s)) 0 j = (ey (mn s) 0 j - p_dt p / p_eps p * jy 0%nat j - c5 * (hzm s Main 0 j - hzm s (Blk Lx) (Bn Lx - 1) j))%R.
  Proof. intros Hb Hj. prepm Hb. bool_nat. cbn [andb Nat.eqb]. cbn [sec mn mid]. rewrite Hey by (left; reflexivity). rewrite (proj2 (Hh _ _ _)). reflexivity. Qed.
  Lemma main_right s j : has (k_pm k) Rx = true -> 0 < p_nx p -> j < p_ny p ->
    ey (mn (nxt s)) (p_nx p) j = (ey (mn s) (p_nx p) j - p_dt p / p_eps p * jy (p_nx p) j - c5 * (hzm s (Blk Rx) 0 j - hzm s Main (p_nx p - 1) j))%R.
  Proof.
    intros Hb Hn Hj. prepm Hb. bool_nat. cbn [andb]. cbn [sec mn mid]. rewrite Hey by (right; reflexivity). rewrite (proj2 (Hh _ _ _)). reflexivity.
  Qed.
  Lemma main_bottom s i : has (k_pm k) Ly = true -> i < p_nx p ->
    ex (mn (nxt s)) i 0 = (ex (mn s) i 0 - p_dt p / p_eps p * jx i 0%nat + c4 * (hzm s Main i 0 - hzm s (Blk Ly) i (Bm Ly - 1)))%R.
  Proof. intros Hb Hj. prepm Hb. bool_nat. cbn [andb Nat.eqb]. cbn [sec mn mid]. rewrite Hex by (left; reflexivity). rewrite (proj1 (Hh _ _ _)). reflexivity. Qed.
  Lemma main_top s i : has (k_pm k) Ry = true -> 0 < p_ny p -> i < p_nx p ->
    ex (mn (nxt s)) i (p_ny p) = (ex (mn s) i (p_ny p) - p_dt p / p_eps p * jx i (p_ny p) + c4 * (hzm s (Blk Ry) i 0 - hzm s Main i (p_ny p - 1)))%R.
  Proof.
    intros Hb Hn Hj. prepm Hb. bool_nat. cbn [andb]. cbn [sec mn mid]. rewrite Hex by (right; reflexivity). rewrite (proj1 (Hh _ _ _)). reflexivity.
  Qed.

  (** *** from rest *)
  Lemma mid_zero a i j : (forall i j, hz (hs zero2) i j = 0%R) -> hzm zero_st a i j = 0%R.
  Proof.
    intros H. destruct a as [|b]; cbn; [apply H|]. unfold each, b_hz. destruct (has (k_pm k) b); cbn; [|ring]. destruct (_ && _); cbn; ring.
  Qed.
  Lemma blk_zero b : (forall i j, hz (hs zero2) i j = 0%R) -> forall i j, xy (bl (nxt zero_st) b) i j = 0%R /\ xz (bl (nxt zero_st) b) i j = 0%R /\
    yx (bl (nxt zero_st) b) i j = 0%R /\ yz (bl (nxt zero_st) b) i j = 0%R /\ zx (bl (nxt zero_st) b) i j = 0%R /\ zy (bl (nxt zero_st) b) i j = 0%R.
  Proof.
    intros H. assert (S : forall a i j, w_hz (sec zero_st) a i j = 0%R) by (intros; rewrite hz_sec; apply mid_zero, H).
    assert (Z : forall i j, xy (bl (sec zero_st) b) i j = 0%R /\ xz (bl (sec zero_st) b) i j = 0%R /\ yx (bl (sec zero_st) b) i j = 0%R /\ yz (bl (sec zero_st) b) i j = 0%R /\
      zx (bl (sec zero_st) b) i j = 0%R /\ zy (bl (sec zero_st) b) i j = 0%R).
    { intros i j. pose proof (fun i j => mid_zero (Blk b) i j H) as M. cbn [w_hz] in M. cbn [sec bl]. unfold each at 1 2 3 4 5 6. cbn [mid bl] in *. unfold each at 1 in M.
      destruct (has (k_pm k) b) eqn:Hb.
      - unfold each. rewrite Hb. cbn [xy xz yx yz zx zy b_adv_e]. rewrite !M.
        repeat split; cbn; repeat match goal with |- context [if ?c then _ else _] => destruct c end; cbn; try ring; unfold b_ex, b_ey; cbn; ring.
      - unfold each. rewrite Hb. cbn. repeat split. }
    intros i j. rewrite nxt_eq. cbn [bl]. unfold each. destruct (has (k_pm k) b) eqn:Hb; [|apply Z].
    pose proof (fun i j => S (Blk b) i j) as Sb. cbn [w_hz] in Sb.
    destruct (Z i j) as (Z1 & Z2 & Z3 & Z4 & Z5 & Z6).
    cbn [xy xz yx yz zx zy b_bound neigh n_lx n_rx n_ly n_ry]. rewrite Z1, Z2, Z3, Z4, Z5, Z6, !Sb.
    repeat split; repeat match goal with |- context [if ?c then _ else _] => destruct c end; try reflexivity;
      repeat match goal with |- context [val (match ?x with Some _ => _ | None => None end) _] => destruct x; cbn [val] end; rewrite ?S; cbn; ring.
  Qed.
End Pml.
