(** Fields that do not vary along y, with an absorbing low x wall: the run is a line of cells with losses. *)
From Coq Require Import List Arith ZArith Bool String Lia Ring Field Reals Lra.
From Verif Require Import Num Vec FieldModel GridModel SolverModel WakeModel WakeNum StabSum Grid2DModel Grid2DArea Solver2DModel Solver2DProofs Solver2DRuns Solver2DProps Pml2DModel Pml2DProofs Pml2DProps Pml2DLine.
Import ListNotations.
Open Scope nat_scope.

Definition only_lx : walls := {| w_lx := true; w_rx := false; w_ly := false; w_ry := false |}.
Section Flat.
  Context (log_ : R -> R) (p : @par2 R) (c : R) (l : lay) (k : @conf R) (Hk : new_conf p c only_lx l = Ok k) (Hs : sizes p only_lx l)
    (Hx : (0 < p_dx p)%R) (Hy : (0 < p_dy p)%R) (He : (0 < p_eps p)%R) (Hm : (0 < p_mu p)%R) (Ht : (0 < p_dt p)%R)
    (Hg : forall i j, g_int (p_g p) i j = true /\ nltb nzero (g_lx (p_g p) i j) = true /\ nltb nzero (g_ly (p_g p) i j) = true).
  Let w := only_lx.
  Let n := l_lx l.
  Definition sg (i : nat) : R := sx log_ p c only_lx l Lx i.
  Lemma npos : 0 < n. Proof. apply Hs. reflexivity. Qed.
  Lemma fK : k_p k = p. Proof. exact (Kp p c w l k eq_refl Hk). Qed.
  Lemma fhas b : has (k_pm k) b = needed w b.
  Proof. unfold has. rewrite (proj1 (Kc p c w l k eq_refl Hk) b). destruct (needed w b); reflexivity. Qed.
  Lemma fBn : Bn log_ k Lx = n. Proof. apply (Kn log_ p c w l k eq_refl Hk Lx eq_refl). Qed.
  Lemma fBm : Bm log_ k Lx = p_ny p. Proof. apply (Km log_ p c w l k eq_refl Hk Lx eq_refl). Qed.
  Lemma fon : b_coef (k_pm k) Lx = true. Proof. apply (Kon p c w l k eq_refl Hk Lx eq_refl). Qed.
  Lemma fnone d : d <> SRx -> b_link (k_pm k) Lx d = None.
  Proof.
    intros D. destruct (proj2 (proj2 (Kc p c w l k eq_refl Hk)) Lx d eq_refl) as [M1 M2]. destruct (b_link (k_pm k) Lx d) as [[|b']|]; [| |reflexivity]; exfalso.
    - destruct (proj1 M1 eq_refl) as [X Y]. destruct d; cbn in X, Y; try discriminate. apply D. reflexivity.
    - destruct (proj1 (M2 b') eq_refl) as [X Y]. destruct d, b'; cbn in X, Y; try discriminate; apply D; reflexivity.
  Qed.
  Lemma fsy j : q_sy (bparam log_ k Lx) j = 0%R. Proof. reflexivity. Qed.
  Lemma fsx i : q_sx (bparam log_ k Lx) i = sg i.
  Proof. cbn [bparam q_sx]. destruct (new_conf_ok p c w l k eq_refl Hk) as (-> & -> & -> & -> & _). reflexivity. Qed.
  Lemma fK2 : b_bound (k_p k) = b_bound p. Proof. rewrite fK. reflexivity. Qed.

  Definition flat (s : @st2 R) : Prop :=
    (forall i j, ex (mn s) i j = 0%R) /\ (forall i j, j < p_ny p -> hz (mn s) i j = hz (mn s) i 0 /\ ey (mn s) i j = ey (mn s) i 0) /\
    (forall i j, xy (bl s Lx) i j = 0%R /\ xz (bl s Lx) i j = 0%R /\ zy (bl s Lx) i j = 0%R /\ yz (bl s Lx) i j = 0%R) /\
    (forall i j, j < p_ny p -> zx (bl s Lx) i j = zx (bl s Lx) i 0 /\ yx (bl s Lx) i j = yx (bl s Lx) i 0) /\
    (forall j, j < p_ny p -> ey (mn s) (p_nx p) j = 0%R /\ yx (bl s Lx) 0 j = 0%R).
  Lemma flat_zero : flat zero_st. Proof. repeat split. Qed.
  Context (jy : nat -> nat -> R) (Hj : forall i j, j < p_ny p -> jy i j = jy i 0).
  Let jx : nat -> nat -> R := fun _ _ => 0%R.
  Let c4 := (p_dt p / (p_dy p * p_eps p))%R.
  Let c5 := (p_dt p / (p_dx p * p_eps p))%R.
  Definition fst_ (s : @st2 R) : @st2 R := step_fdtd_b log_ k jx jy s.
  Lemma fnxt s : fst_ s = nxt log_ k (h_fdtd p) (e_fdtd p jx jy) c4 c5 jx jy s.
  Proof. unfold fst_, step_fdtd_b. rewrite fK. reflexivity. Qed.
  Lemma fny : 0 < p_ny p. Proof. apply Hs. Qed.
  Lemma fnx : 0 < p_nx p. Proof. apply Hs. Qed.
  Ltac bool_nat := repeat match goal with
    | |- context [(?a <? ?b)%nat] => first [rewrite (proj2 (Nat.ltb_lt a b)) by lia | rewrite (proj2 (Nat.ltb_ge a b)) by lia]
    | |- context [(?a =? ?b)%nat] => first [rewrite (proj2 (Nat.eqb_eq a b)) by lia | rewrite (proj2 (Nat.eqb_neq a b)) by lia]
    | |- context [(?a <=? ?b)%nat] => first [rewrite (proj2 (Nat.leb_le a b)) by lia | rewrite (proj2 (Nat.leb_gt a b)) by lia]
    end.
  (** *** the magnetic half step *)
  Definition hmn (s : @st2 R) (i j : nat) : R := hz (mn s) i j - p_dt p / (p_dx p * p_mu p) * (ey (mn s) (S i) j - ey (mn s) i j).
  Definition hbl (s : @st2 R) (i j : nat) : R := cC p true (sg i) * zx (bl s Lx) i j - cD p true (sg i) / p_dx p * (yx (bl s Lx) (S i) j - yx (bl s Lx) i j).
  Lemma mid_main s i j : flat s -> hz (h_fdtd p (mn s)) i j = if (i <? p_nx p) && (j <? p_ny p) then hmn s i j else hz (mn s) i j.
  Proof.
    intros (F1 & _). cbn [hz h_fdtd]. rewrite (proj1 (Hg i j)), andb_true_r. destruct (_ && _); [|reflexivity]. rewrite !F1. unfold hmn. cbn. ring.
  Qed.
  Lemma mid_blk s : bl (mid log_ k (h_fdtd p) s) Lx = b_adv_h p (bparam log_ k Lx) (bl s Lx).
  Proof. cbn [mid bl]. unfold each. rewrite fhas, fK. reflexivity. Qed.
  Lemma mid_zx s i j : flat s -> zx (b_adv_h p (bparam log_ k Lx) (bl s Lx)) i j = (if (i <? n) && (j <? p_ny p) then hbl s i j else zx (bl s Lx) i j) /\ zy (b_adv_h p (bparam log_ k Lx) (bl s Lx)) i j = 0%R.
  Proof.
    intros (_ & _ & F3 & _). cbn [zx zy b_adv_h]. pose proof fBn as B1. pose proof fBm as B2. unfold Bn in B1. unfold Bm in B2. rewrite B1, B2, fsx, fsy. change (q_on (bparam log_ k Lx)) with (b_coef (k_pm k) Lx). rewrite fon.
    unfold b_ey, b_ex. split.
    - destruct (_ && _); [|reflexivity]. rewrite (proj2 (proj2 (proj2 (F3 (S i) j)))), (proj2 (proj2 (proj2 (F3 i j)))). unfold hbl. cbn [nadd nsub nmul ndiv Num_R]. ring.
    - destruct (_ && _); [|apply F3]. rewrite (proj1 (F3 i (S j))), (proj1 (F3 i j)), (proj1 (proj2 (F3 i (S j)))), (proj1 (proj2 (F3 i j))), (proj1 (proj2 (proj2 (F3 i j)))). cbn [nadd nsub nmul ndiv Num_R]. ring.
  Qed.
  Lemma mid_hz s i j : flat s -> b_hz (b_adv_h p (bparam log_ k Lx) (bl s Lx)) i j = if (i <? n) && (j <? p_ny p) then hbl s i j else zx (bl s Lx) i j.
  Proof. intros F. unfold b_hz. rewrite (proj1 (mid_zx s i j F)), (proj2 (mid_zx s i j F)). cbn. ring. Qed.
  Lemma hmn_flat s i j : flat s -> j < p_ny p -> hmn s i j = hmn s i 0.
  Proof. intros (_ & F2 & _) L. unfold hmn. rewrite (proj1 (F2 i j L)), (proj2 (F2 i j L)), (proj2 (F2 (S i) j L)). reflexivity. Qed.
  Lemma hbl_flat s i j : flat s -> j < p_ny p -> hbl s i j = hbl s i 0.
  Proof. intros (_ & _ & _ & F4 & _) L. unfold hbl. rewrite (proj1 (F4 i j L)), (proj2 (F4 i j L)), (proj2 (F4 (S i) j L)). reflexivity. Qed.
  (** *** after the step *)
  Lemma st_hz s i j : flat s -> hz (mn (fst_ s)) i j = if (i <? p_nx p) && (j <? p_ny p) then hmn s i j else hz (mn s) i j.
  Proof. intros F. rewrite fnxt, nxt_eq. cbn [mn m_bound hz sec e_fdtd mid]. apply mid_main, F. Qed.
  Lemma st_ex s i j : flat s -> ex (mn (fst_ s)) i j = 0%R.
  Proof.
    intros F. rewrite fnxt, nxt_eq. cbn [mn]. unfold m_bound. cbn [ex]. rewrite !fhas. change (needed w Ly) with false. change (needed w Ry) with false. rewrite !andb_false_r.
    cbn [sec mn mid ex e_fdtd]. destruct (_ && _ && _ && _ && _) eqn:M; [|apply F]. rewrite !andb_true_iff, !Nat.ltb_lt, Nat.leb_le in M. destruct M as [[[[M1 M2] M3] _] _].
    rewrite !mid_main by exact F. bool_nat. cbn [andb]. rewrite (hmn_flat s i (j - 1) F) by lia. rewrite (hmn_flat s i j F) by lia. cbn [h_fdtd ex]. destruct F as (F1 & _). rewrite F1. unfold jx. cbn. ring.
  Qed.
  Lemma st_bx s i j : flat s -> xy (bl (fst_ s) Lx) i j = 0%R /\ xz (bl (fst_ s) Lx) i j = 0%R.
  Proof.
    intros F. rewrite fnxt, nxt_eq. cbn [bl]. unfold each at 1 2. rewrite fhas. change (needed w Lx) with true. cbn iota. cbn [xy xz b_bound neigh n_ly n_ry].
    rewrite (fnone SLy), (fnone SRy) by discriminate. cbn [is_some]. rewrite ?andb_false_r. cbn [orb]. rewrite ?andb_false_r.
    cbn [sec bl]. unfold each at 1 2. rewrite fhas. change (needed w Lx) with true. cbn iota. rewrite mid_blk. cbn [xy xz b_adv_e b_adv_h]. rewrite fK.
    pose proof F as (_ & _ & F3 & _).
    split.
    - destruct (_ && _ && _) eqn:M; [|apply F3]. rewrite !andb_true_iff, !Nat.ltb_lt, Nat.leb_le in M. destruct M as [[M1 M2] M3].
      pose proof fBn as B1. pose proof fBm as B2. unfold Bn in B1. unfold Bm in B2. rewrite B1 in M1. rewrite B2 in M3.
      fold (b_adv_h p (bparam log_ k Lx) (bl s Lx)). rewrite !mid_hz by exact F. bool_nat. cbn [andb]. rewrite (hbl_flat s i (j - 1) F) by lia. rewrite (hbl_flat s i j F) by lia. rewrite (proj1 (F3 i j)). cbn [nadd nsub nmul ndiv Num_R]. ring.
    - destruct (_ && _ && _); [|apply F3]. rewrite (proj1 (proj2 (F3 i j))). cbn. ring.
  Qed.
  Lemma sg_last : sg (n - 1) = 0%R.
  Proof. unfold sg, sx. fold n. rewrite Nat.sub_diag. apply layer0. Qed.
  Lemma st_by s i j : flat s -> j < p_ny p -> yz (bl (fst_ s) Lx) i j = 0%R /\ yx (bl (fst_ s) Lx) i j =
    (if i =? 0 then yx (bl s Lx) i j else if i <? n then cA p true (sg i) * yx (bl s Lx) i j - cB p true (sg i) / p_dx p * (hbl s i j - hbl s (i - 1) j)
     else if i =? n then yx (bl s Lx) i j - c5 * (hmn s 0 j - hbl s (n - 1) j) else yx (bl s Lx) i j)%R.
  Proof.
    intros F L. pose proof npos as Np. pose proof fnx as Nx. rewrite fnxt. split.
    - rewrite nxt_eq. cbn [bl]. unfold each at 1. rewrite fhas. change (needed w Lx) with true. cbn iota. cbn [yz b_bound].
      pose proof F as (_ & _ & F3 & _).
      assert (Z : yz (bl (sec log_ k (h_fdtd p) (e_fdtd p jx jy) s) Lx) i j = 0%R).
      { cbn [sec bl]. unfold each at 1. rewrite fhas. change (needed w Lx) with true. cbn iota. rewrite mid_blk. cbn [yz b_adv_e b_adv_h]. rewrite (proj2 (proj2 (proj2 (F3 i j)))). destruct (_ && _ && _); cbn; ring. }
      rewrite Z. destruct (_ && _); cbn; ring.
    - assert (C : i = 0 \/ n < i \/ i = n \/ 0 < i < n) by lia. destruct C as [C|[C|[C|C]]].
      + subst i. cbn [Nat.eqb]. rewrite nxt_eq. cbn [bl]. unfold each at 1. rewrite fhas. change (needed w Lx) with true. cbn iota. cbn [yx b_bound neigh n_lx n_rx]. rewrite (fnone SLx) by discriminate. cbn [is_some].
        fold (Bn log_ k Lx). rewrite fBn. rewrite (proj2 (Nat.eqb_neq 0 n)) by lia. rewrite !andb_false_r. cbn [andb].
        apply (sec_y log_ k (h_fdtd p) (e_fdtd p jx jy) s Lx 0 j). left; reflexivity.
      + bool_nat. rewrite nxt_eq. cbn [bl]. unfold each at 1. rewrite fhas. change (needed w Lx) with true. cbn iota. cbn [yx b_bound neigh n_lx n_rx]. rewrite (fnone SLx) by discriminate. cbn [is_some].
        fold (Bn log_ k Lx). rewrite fBn. bool_nat. cbn [andb].
        apply (sec_y log_ k (h_fdtd p) (e_fdtd p jx jy) s Lx i j). right. rewrite fBn. lia.
      + subst i. bool_nat.
        assert (E : b_ey (bl (nxt log_ k (h_fdtd p) (e_fdtd p jx jy) c4 c5 jx jy s) Lx) n j = (b_ey (bl s Lx) n j - p_dt p / (p_dx p * p_eps p) * (w_hz (mid log_ k (h_fdtd p) s) Main 0 j - w_hz (mid log_ k (h_fdtd p) s) (Blk Lx) (n - 1) j))%R).
        { pose proof (blk_right log_ k) as BR. rewrite fK in BR. rewrite <- fBn. apply (BR Hx He (h_fdtd p) (e_fdtd p jx jy) c4 c5 jx jy ltac:(reflexivity) s Lx Main j).
          - rewrite fhas. reflexivity.
          - apply (Klink p c w l k eq_refl Hk Lx SRx Main eq_refl I). reflexivity.
          - apply fon.
          - rewrite fBn, fsx. apply sg_last.
          - rewrite fBn. apply npos.
          - rewrite fBm. exact L. }
        cbn [w_hz] in E. rewrite mid_blk, mid_hz in E by exact F. cbn [mid mn] in E. rewrite mid_main in E by exact F. revert E. bool_nat. cbn [andb]. unfold b_ey.
        pose proof F as (_ & _ & F3 & _). rewrite (proj2 (proj2 (proj2 (F3 n j)))).
        assert (Z : yz (bl (nxt log_ k (h_fdtd p) (e_fdtd p jx jy) c4 c5 jx jy s) Lx) n j = 0%R).
        { rewrite nxt_eq. cbn [bl]. unfold each at 1. rewrite fhas. change (needed w Lx) with true. cbn iota. cbn [yz b_bound].
          rewrite (proj2 (sec_y log_ k (h_fdtd p) (e_fdtd p jx jy) s Lx n j ltac:(right; rewrite fBn; lia))), (proj2 (proj2 (proj2 (F3 n j)))). destruct (_ && _); cbn; ring. }
        rewrite Z. unfold c5. cbn [nadd Num_R]. intros E. rewrite !Rplus_0_r in E. exact E.
      + bool_nat. rewrite nxt_eq. cbn [bl]. unfold each at 1. rewrite fhas. change (needed w Lx) with true. cbn iota. cbn [yx b_bound neigh n_lx n_rx]. rewrite (fnone SLx) by discriminate. cbn [is_some].
        fold (Bn log_ k Lx). rewrite fBn. bool_nat. cbn [andb].
        cbn [sec bl]. unfold each at 1. rewrite fhas. change (needed w Lx) with true. cbn iota. rewrite mid_blk. cbn [yx b_adv_e]. fold (Bn log_ k Lx) (Bm log_ k Lx). rewrite fBn, fBm. bool_nat. cbn [andb].
        rewrite !mid_hz by exact F. bool_nat. cbn [andb]. rewrite fsx, fK. change (q_on (bparam log_ k Lx)) with (b_coef (k_pm k) Lx). rewrite fon. cbn [yx b_adv_h]. reflexivity.
  Qed.
  Lemma st_ey s i j : flat s -> j < p_ny p -> ey (mn (fst_ s)) i j =
    (if i =? 0 then ey (mn s) i j - p_dt p / p_eps p * jy i j - c5 * (hmn s 0 j - hbl s (n - 1) j)
     else if i <? p_nx p then ey (mn s) i j - p_dt p / p_eps p * jy i j - c5 * (hmn s i j - hmn s (i - 1) j) else ey (mn s) i j)%R.
  Proof.
    intros F L. pose proof npos as Np. pose proof fnx as Nx. rewrite fnxt. rewrite nxt_eq. cbn [mn]. unfold m_bound. cbn [ey]. rewrite !fhas, fK. change (needed w Lx) with true. change (needed w Rx) with false. rewrite !andb_false_r, !andb_true_r.
    assert (C : i = 0 \/ p_nx p <= i \/ 0 < i < p_nx p) by lia. destruct C as [C|[C|C]].
    - subst i. cbn [Nat.eqb]. bool_nat. cbn [andb].
      pose proof (hz_sec log_ k (h_fdtd p) (e_fdtd p jx jy) ltac:(reflexivity) s (Blk Lx) (Bn log_ k Lx - 1) j) as E. cbn [w_hz] in E. cbn [w_nx]. fold (Bn log_ k Lx). rewrite E, mid_blk, mid_hz, fBn by exact F. bool_nat. cbn [andb].
      cbn [sec mn mid]. rewrite (fdtd_edge p jx jy) by (left; reflexivity).
      cbn [hz e_fdtd]. rewrite mid_main by exact F. bool_nat. reflexivity.
    - bool_nat. cbn [andb]. cbn [sec mn mid ey e_fdtd]. bool_nat. cbn [andb]. rewrite ?andb_false_r. reflexivity.
    - bool_nat. cbn [andb]. cbn [sec mn mid ey e_fdtd]. rewrite (proj1 (Hg i j)), (proj2 (proj2 (Hg i j))). bool_nat. cbn [andb]. rewrite !mid_main by exact F. bool_nat. reflexivity.
  Qed.
  Lemma st_bz s i j : flat s -> zx (bl (fst_ s) Lx) i j = (if (i <? n) && (j <? p_ny p) then hbl s i j else zx (bl s Lx) i j) /\ zy (bl (fst_ s) Lx) i j = 0%R.
  Proof.
    intros F. rewrite fnxt, nxt_eq. cbn [bl]. unfold each at 1 2. rewrite fhas. change (needed w Lx) with true. cbn iota. cbn [zx zy b_bound sec bl]. unfold each at 1 2. rewrite fhas. change (needed w Lx) with true. cbn iota.
    rewrite mid_blk. cbn [zx zy b_adv_e]. apply mid_zx. exact F.
  Qed.
  Lemma flat_step s : flat s -> flat (fst_ s).
  Proof.
    intros F. pose proof fny as Ny. pose proof fnx as Nx. pose proof npos as Np. pose proof F as (F1 & F2 & F3 & F4 & F5). split; [|split; [|split; [|split]]].
    - intros. apply st_ex, F.
    - intros i j L. rewrite !st_hz, !st_ey by assumption. bool_nat. rewrite (proj1 (F2 i j L)), (proj2 (F2 i j L)), (Hj i j L), !(fun i => hmn_flat s i j F L), !(fun i => hbl_flat s i j F L). split; reflexivity.
    - intros i j. destruct (st_bx s i j F) as [A B]. destruct (st_bz s i j F) as [_ C]. repeat split; try assumption.
      rewrite fnxt. rewrite nxt_eq. cbn [bl]. unfold each at 1. rewrite fhas. change (needed w Lx) with true. cbn iota. cbn [yz b_bound].
      assert (Z : yz (bl (sec log_ k (h_fdtd p) (e_fdtd p jx jy) s) Lx) i j = 0%R).
      { cbn [sec bl]. unfold each at 1. rewrite fhas. change (needed w Lx) with true. cbn iota. rewrite mid_blk. cbn [yz b_adv_e b_adv_h]. rewrite (proj2 (proj2 (proj2 (F3 i j)))). destruct (_ && _ && _); cbn; ring. }
      rewrite Z. destruct (_ && _); cbn; ring.
    - intros i j L. destruct (st_by s i j F L) as [_ ->]. destruct (st_by s i 0 F Ny) as [_ ->]. rewrite (proj1 (st_bz s i j F)), (proj1 (st_bz s i 0 F)). bool_nat.
      rewrite (proj1 (F4 i j L)), (proj2 (F4 i j L)), !(fun i => hmn_flat s i j F L), !(fun i => hbl_flat s i j F L). split; reflexivity.
    - intros j L. rewrite st_ey by assumption. destruct (st_by s 0 j F L) as [_ ->]. cbn [Nat.eqb]. bool_nat. apply F5, L.
  Qed.
End Flat.
