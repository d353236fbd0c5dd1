(** Grid and absorbing blocks of the two-dimensional solver as one larger grid: the simulation. *)
From Coq Require Import List Arith ZArith Bool String Lia Ring Field Reals Lra.
From Verif Require Import Num Vec FieldModel GridModel SolverModel WakeModel WakeNum Grid2DModel Grid2DArea Solver2DModel Solver2DProofs Solver2DRuns Solver2DProps Pml2DModel Pml2DProofs Pml2DProps.
Import ListNotations.
Open Scope nat_scope.

(** Fields of the larger grid: E, and the two parts of Hz. *)
Record big : Type := { bx : nat -> nat -> R; by_ : nat -> nat -> R; bzx : nat -> nat -> R; bzy : nat -> nat -> R }.
Definition bhz (g : big) (i j : nat) : R := (bzx g i j + bzy g i j)%R.
Definition zero_big : big := {| bx := fun _ _ => 0%R; by_ := fun _ _ => 0%R; bzx := fun _ _ => 0%R; bzy := fun _ _ => 0%R |}.
(** Cells before the grid, and altogether. *)
Definition lw (w : walls) (l : lay) : nat := if w_lx w then l_lx l else 0.
Definition bw (w : walls) (l : lay) : nat := if w_ly w then l_ly l else 0.
Definition NX (p : @par2 R) (w : walls) (l : lay) : nat := lw w l + p_nx p + if w_rx w then l_rx l else 0.
Definition NY (p : @par2 R) (w : walls) (l : lay) : nat := bw w l + p_ny p + if w_ry w then l_ry l else 0.
(** The first cell of the grid or a block. *)
Definition OX (p : @par2 R) (w : walls) (l : lay) (a : who) : nat := if (fst (at_ a) <? 0)%Z then 0 else if (fst (at_ a) =? 0)%Z then lw w l else lw w l + p_nx p.
Definition OY (p : @par2 R) (w : walls) (l : lay) (a : who) : nat := if (snd (at_ a) <? 0)%Z then 0 else if (snd (at_ a) =? 0)%Z then bw w l else bw w l + p_ny p.
(** [g] holds the fields of [s], area by area. *)
Definition glued (p : @par2 R) (w : walls) (l : lay) (s : @st2 R) (g : big) : Prop := forall a, there w a -> forall i j,
  (i <= wide p l a -> j < high p l a -> area_ey s a i j = by_ g (OX p w l a + i) (OY p w l a + j)) /\
  (i < wide p l a -> j <= high p l a -> area_ex s a i j = bx g (OX p w l a + i) (OY p w l a + j)) /\
  (i < wide p l a -> j < high p l a -> match a with
    | Main => hz (mn s) i j = bhz g (OX p w l a + i) (OY p w l a + j)
    | Blk b => zx (bl s b) i j = bzx g (OX p w l a + i) (OY p w l a + j) /\ zy (bl s b) i j = bzy g (OX p w l a + i) (OY p w l a + j) end).

Section One.
  Context (log_ : R -> R) (p : @par2 R) (c : R) (w : walls) (l : lay) (k : @conf R) (G : good_walls w = true) (Hk : new_conf p c w l = Ok k)
    (Hs : sizes p w l) (Hp : positive p) (Hm : (0 < p_mu p)%R).
  Notation L0 := (lw w l). Notation B0 := (bw w l).
  (** conductivities *)
  Definition SX (i : nat) : R := if i <? L0 then layer (sig_m log_ (p_eps p) c (p_dx p) (l_lx l)) (l_lx l) (l_lx l - 1 - i)
    else if i <? L0 + p_nx p then 0%R else layer (sig_m log_ (p_eps p) c (p_dy p) (l_rx l)) (l_rx l) (i - L0 - p_nx p).
  Definition SY (j : nat) : R := if j <? B0 then layer (sig_m log_ (p_eps p) c (p_dy p) (l_ly l)) (l_ly l) (l_ly l - 1 - j)
    else if j <? B0 + p_ny p then 0%R else layer (sig_m log_ (p_eps p) c (p_dy p) (l_ry l)) (l_ry l) (j - B0 - p_ny p).
  (** the conductors of the grid *)
  Definition inx (i : nat) : bool := (L0 <=? i) && (i <? L0 + p_nx p).
  Definition iny (j : nat) : bool := (B0 <=? j) && (j <? B0 + p_ny p).
  Definition mC (i j : nat) : bool := if inx i && iny j then g_int (p_g p) (i - L0) (j - B0) else true.
  Definition mX (i j : nat) : bool := if inx i && ((B0 <? j) && (j <? B0 + p_ny p)) then g_int (p_g p) (i - L0) (j - B0) && nltb nzero (g_lx (p_g p) (i - L0) (j - B0)) else true.
  Definition mY (i j : nat) : bool := if (L0 <? i) && (i <? L0 + p_nx p) && iny j then g_int (p_g p) (i - L0) (j - B0) && nltb nzero (g_ly (p_g p) (i - L0) (j - B0)) else true.
  Definition JX (jx : nat -> nat -> R) (i j : nat) : R := if inx i && ((B0 <? j) && (j <? B0 + p_ny p)) then jx (i - L0) (j - B0) else 0%R.
  Definition JY (jy : nat -> nat -> R) (i j : nat) : R := if (L0 <? i) && (i <? L0 + p_nx p) && iny j then jy (i - L0) (j - B0) else 0%R.
  Notation nX := (NX p w l). Notation nY := (NY p w l).
  Definition big_h (g : big) : big := {| bx := bx g; by_ := by_ g;
    bzx := fun i j => if (i <? nX) && (j <? nY) && mC i j then (cC p true (SX i) * bzx g i j - cD p true (SX i) / p_dx p * (by_ g (S i) j - by_ g i j))%R else bzx g i j;
    bzy := fun i j => if (i <? nX) && (j <? nY) && mC i j then (cC p true (SY j) * bzy g i j + cD p true (SY j) / p_dy p * (bx g i (S j) - bx g i j))%R else bzy g i j |}.
  Definition big_e (jx jy : nat -> nat -> R) (g : big) : big := {|
    bx := fun i j => if (i <? nX) && ((1 <=? j) && (j <? nY)) && mX i j then (cA p true (SY j) * bx g i j + cB p true (SY j) / p_dy p * (bhz g i j - bhz g i (j - 1)) - p_dt p / p_eps p * JX jx i j)%R else bx g i j;
    by_ := fun i j => if (1 <=? i) && (i <? nX) && (j <? nY) && mY i j then (cA p true (SX i) * by_ g i j - cB p true (SX i) / p_dx p * (bhz g i j - bhz g (i - 1) j) - p_dt p / p_eps p * JY jy i j)%R else by_ g i j;
    bzx := bzx g; bzy := bzy g |}.

  Ltac walls_ := unfold OX, OY, NX, NY, lw, bw, wide, high, width, there, needed in *.
  Ltac bool_nat := repeat match goal with
    | |- context [(?a <? ?b)%nat] => first [rewrite (proj2 (Nat.ltb_lt a b)) by lia | rewrite (proj2 (Nat.ltb_ge a b)) by lia]
    | |- context [(?a =? ?b)%nat] => first [rewrite (proj2 (Nat.eqb_eq a b)) by lia | rewrite (proj2 (Nat.eqb_neq a b)) by lia]
    | |- context [(?a <=? ?b)%nat] => first [rewrite (proj2 (Nat.leb_le a b)) by lia | rewrite (proj2 (Nat.leb_gt a b)) by lia]
    end.
  Lemma in_x a i : there w a -> i < wide p l a -> OX p w l a + i < nX.
  Proof.
    clear - p w l. intros T. destruct a as [|[]]; walls_; cbn [at_ pos fst snd Z.ltb Z.eqb Z.compare] in *; destruct (w_lx w), (w_rx w), (w_ly w), (w_ry w); cbn in T |- *; try discriminate; lia.
  Qed.
  Lemma in_y a j : there w a -> j < high p l a -> OY p w l a + j < nY.
  Proof.
    clear - p w l. intros T. destruct a as [|[]]; walls_; cbn [at_ pos fst snd Z.ltb Z.eqb Z.compare] in *; destruct (w_lx w), (w_rx w), (w_ly w), (w_ry w); cbn in T |- *; try discriminate; lia.
  Qed.
  (** the neighbour on the left, or the outer wall *)
  Lemma left_of a : there w a -> (OX p w l a = 0 /\ forall b, there w b -> at_ a <> (fst (at_ b) + 1, snd (at_ b))%Z) \/
    exists b, there w b /\ at_ a = (fst (at_ b) + 1, snd (at_ b))%Z /\ OX p w l a = OX p w l b + wide p l b /\ OY p w l a = OY p w l b.
  Proof.
    clear - p w l. intros T. destruct a as [|[]]; walls_; cbn [at_ pos fst snd Z.ltb Z.eqb Z.compare] in *; destruct (w_lx w) eqn:?, (w_rx w) eqn:?, (w_ly w) eqn:?, (w_ry w) eqn:?; cbn in T |- *; try discriminate;
    first [ left; split; [reflexivity|]; intros [|[]]; cbn; intros T' E'; discriminate
          | right; exists Main; cbn; repeat split; try reflexivity; lia
          | right; exists (Blk Lx); cbn; repeat split; try reflexivity; lia
          | right; exists (Blk Ly); cbn; repeat split; try reflexivity; lia
          | right; exists (Blk Ry); cbn; repeat split; try reflexivity; lia
          | right; exists (Blk LxLy); cbn; repeat split; try reflexivity; lia
          | right; exists (Blk LxRy); cbn; repeat split; try reflexivity; lia ].
  Qed.
  Lemma right_of a : there w a -> (OX p w l a + wide p l a = nX /\ forall b, there w b -> at_ b <> (fst (at_ a) + 1, snd (at_ a))%Z) \/
    exists b, there w b /\ at_ b = (fst (at_ a) + 1, snd (at_ a))%Z /\ OX p w l b = OX p w l a + wide p l a /\ OY p w l a = OY p w l b.
  Proof.
    clear - p w l. intros T. destruct a as [|[]]; walls_; cbn [at_ pos fst snd Z.ltb Z.eqb Z.compare] in *; destruct (w_lx w) eqn:?, (w_rx w) eqn:?, (w_ly w) eqn:?, (w_ry w) eqn:?; cbn in T |- *; try discriminate;
    first [ left; split; [lia|]; intros [|[]]; cbn; intros T' E'; discriminate
          | right; exists Main; cbn; repeat split; try reflexivity; lia
          | right; exists (Blk Rx); cbn; repeat split; try reflexivity; lia
          | right; exists (Blk Ly); cbn; repeat split; try reflexivity; lia
          | right; exists (Blk Ry); cbn; repeat split; try reflexivity; lia
          | right; exists (Blk RxLy); cbn; repeat split; try reflexivity; lia
          | right; exists (Blk RxRy); cbn; repeat split; try reflexivity; lia ].
  Qed.
  Lemma below_of a : there w a -> (OY p w l a = 0 /\ forall b, there w b -> at_ a <> (fst (at_ b), snd (at_ b) + 1)%Z) \/
    exists b, there w b /\ at_ a = (fst (at_ b), snd (at_ b) + 1)%Z /\ OY p w l a = OY p w l b + high p l b /\ OX p w l a = OX p w l b.
  Proof.
    clear - p w l. intros T. destruct a as [|[]]; walls_; cbn [at_ pos fst snd Z.ltb Z.eqb Z.compare] in *; destruct (w_lx w) eqn:?, (w_rx w) eqn:?, (w_ly w) eqn:?, (w_ry w) eqn:?; cbn in T |- *; try discriminate;
    first [ left; split; [reflexivity|]; intros [|[]]; cbn; intros T' E'; discriminate
          | right; exists Main; cbn; repeat split; try reflexivity; lia
          | right; exists (Blk Lx); cbn; repeat split; try reflexivity; lia
          | right; exists (Blk Rx); cbn; repeat split; try reflexivity; lia
          | right; exists (Blk Ly); cbn; repeat split; try reflexivity; lia
          | right; exists (Blk LxLy); cbn; repeat split; try reflexivity; lia
          | right; exists (Blk RxLy); cbn; repeat split; try reflexivity; lia ].
  Qed.
  Lemma above_of a : there w a -> (OY p w l a + high p l a = nY /\ forall b, there w b -> at_ b <> (fst (at_ a), snd (at_ a) + 1)%Z) \/
    exists b, there w b /\ at_ b = (fst (at_ a), snd (at_ a) + 1)%Z /\ OY p w l b = OY p w l a + high p l a /\ OX p w l a = OX p w l b.
  Proof.
    clear - p w l. intros T. destruct a as [|[]]; walls_; cbn [at_ pos fst snd Z.ltb Z.eqb Z.compare] in *; destruct (w_lx w) eqn:?, (w_rx w) eqn:?, (w_ly w) eqn:?, (w_ry w) eqn:?; cbn in T |- *; try discriminate;
    first [ left; split; [lia|]; intros [|[]]; cbn; intros T' E'; discriminate
          | right; exists Main; cbn; repeat split; try reflexivity; lia
          | right; exists (Blk Ry); cbn; repeat split; try reflexivity; lia
          | right; exists (Blk Lx); cbn; repeat split; try reflexivity; lia
          | right; exists (Blk Rx); cbn; repeat split; try reflexivity; lia
          | right; exists (Blk LxRy); cbn; repeat split; try reflexivity; lia
          | right; exists (Blk RxRy); cbn; repeat split; try reflexivity; lia ].
  Qed.
  Lemma SX_b b i : needed w b = true -> i < wide p l (Blk b) -> q_sx (bparam log_ k b) i = SX (OX p w l (Blk b) + i).
  Proof.
    intros T Hi. cbn [bparam q_sx]. destruct (new_conf_ok p c w l k G Hk) as (-> & -> & -> & -> & _). unfold SX.
    clear Hk G Hs Hp Hm. destruct b; walls_; cbn [at_ pos fst snd Z.ltb Z.eqb Z.compare] in *; unfold sx; destruct (w_lx w) eqn:?, (w_rx w) eqn:?, (w_ly w) eqn:?, (w_ry w) eqn:?; cbn in T; cbn [andb orb]; cbn iota; try discriminate; bool_nat; try reflexivity; f_equal; lia.
  Qed.
  Lemma SY_b b j : needed w b = true -> j < high p l (Blk b) -> q_sy (bparam log_ k b) j = SY (OY p w l (Blk b) + j).
  Proof.
    intros T Hi. cbn [bparam q_sy]. destruct (new_conf_ok p c w l k G Hk) as (-> & -> & -> & -> & _). unfold SY.
    clear Hk G Hs Hp Hm. destruct b; walls_; cbn [at_ pos fst snd Z.ltb Z.eqb Z.compare] in *; unfold sy; destruct (w_lx w) eqn:?, (w_rx w) eqn:?, (w_ly w) eqn:?, (w_ry w) eqn:?; cbn in T; cbn [andb orb]; cbn iota; try discriminate; bool_nat; try reflexivity; f_equal; lia.
  Qed.
  Lemma SX_0 a : there w a -> (-1 < fst (at_ a))%Z -> SX (OX p w l a) = 0%R.
  Proof.
    intros T F. assert (Nx : 0 < p_nx p) by apply Hs. unfold SX. clear Hk G Hs Hp Hm. destruct a as [|[]]; walls_; cbn [at_ pos fst snd Z.ltb Z.eqb Z.compare] in *; try lia; bool_nat; try reflexivity;
    match goal with |- layer _ _ ?x = _ => replace x with 0 by lia end; apply layer0.
  Qed.
  Lemma SY_0 a : there w a -> (-1 < snd (at_ a))%Z -> SY (OY p w l a) = 0%R.
  Proof.
    intros T F. assert (Ny : 0 < p_ny p) by apply Hs. unfold SY. clear Hk G Hs Hp Hm. destruct a as [|[]]; walls_; cbn [at_ pos fst snd Z.ltb Z.eqb Z.compare] in *; try lia; bool_nat; try reflexivity;
    match goal with |- layer _ _ ?x = _ => replace x with 0 by lia end; apply layer0.
  Qed.
  Lemma SX_main i : i < p_nx p -> SX (L0 + i) = 0%R. Proof. intros Hi. unfold SX. bool_nat. reflexivity. Qed.
  Lemma SY_main j : j < p_ny p -> SY (B0 + j) = 0%R. Proof. intros Hi. unfold SY. bool_nat. reflexivity. Qed.
  Lemma Knone b d : needed w b = true -> (forall a, there w a -> at_ a <> (fst (pos b) + fst (dir d), snd (pos b) + snd (dir d))%Z) -> b_link (k_pm k) b d = None.
  Proof.
    intros T H. destruct (proj2 (proj2 (Kc p c w l k G Hk)) b d T) as [M1 M2]. destruct (b_link (k_pm k) b d) as [[|b']|]; [| |reflexivity]; exfalso.
    - destruct (proj1 M1 eq_refl) as [X Y]. apply (H Main I). cbn [at_]. rewrite X, Y. reflexivity.
    - destruct (proj1 (M2 b') eq_refl) as [X Y]. apply (H (Blk b')); [exact Y|exact X].
  Qed.
  Lemma Knot b : needed w b = false -> has (k_pm k) b = false.
  Proof. intros N. unfold has. rewrite (proj1 (Kc p c w l k G Hk) b), N. reflexivity. Qed.
  (** blocks lie outside the grid *)
  Lemma out_c b i j : needed w b = true -> i < wide p l (Blk b) -> j < high p l (Blk b) -> inx (OX p w l (Blk b) + i) && iny (OY p w l (Blk b) + j) = false.
  Proof.
    clear - p w l. intros T Hi Hj. unfold inx, iny. destruct b; walls_; cbn [at_ pos fst snd Z.ltb Z.eqb Z.compare] in *; destruct (w_lx w) eqn:?, (w_rx w) eqn:?, (w_ly w) eqn:?, (w_ry w) eqn:?; cbn in T; cbn [andb orb]; cbn iota; try discriminate; bool_nat; rewrite ?andb_false_r; reflexivity.
  Qed.
  Lemma out_y b i j : needed w b = true -> i <= wide p l (Blk b) -> j < high p l (Blk b) -> (L0 <? OX p w l (Blk b) + i) && (OX p w l (Blk b) + i <? L0 + p_nx p) && iny (OY p w l (Blk b) + j) = false.
  Proof.
    clear - p w l. intros T Hi Hj. unfold iny. destruct b; walls_; cbn [at_ pos fst snd Z.ltb Z.eqb Z.compare] in *; destruct (w_lx w) eqn:?, (w_rx w) eqn:?, (w_ly w) eqn:?, (w_ry w) eqn:?; cbn in T; cbn [andb orb]; cbn iota; try discriminate; bool_nat; rewrite ?andb_false_r; reflexivity.
  Qed.
  Lemma out_x b i j : needed w b = true -> i < wide p l (Blk b) -> j <= high p l (Blk b) -> inx (OX p w l (Blk b) + i) && ((B0 <? OY p w l (Blk b) + j) && (OY p w l (Blk b) + j <? B0 + p_ny p)) = false.
  Proof.
    clear - p w l. intros T Hi Hj. unfold inx. destruct b; walls_; cbn [at_ pos fst snd Z.ltb Z.eqb Z.compare] in *; destruct (w_lx w) eqn:?, (w_rx w) eqn:?, (w_ly w) eqn:?, (w_ry w) eqn:?; cbn in T; cbn [andb orb]; cbn iota; try discriminate; bool_nat; rewrite ?andb_false_r; reflexivity.
  Qed.
  (** ** One step *)
  Context (jx jy : nat -> nat -> R) (Hj : calm p w (jx, jy)).
  Let c4 := (p_dt p / (p_dy p * p_eps p))%R.
  Let c5 := (p_dt p / (p_dx p * p_eps p))%R.
  Notation mid_ := (mid log_ k (h_fdtd p)).
  Notation sec_ := (sec log_ k (h_fdtd p) (e_fdtd p jx jy)).
  Notation nx_ := (nxt log_ k (h_fdtd p) (e_fdtd p jx jy) c4 c5 jx jy).
  Definition plain (s : @st2 R) : Prop := forall b i j, xz (bl s b) i j = 0%R /\ yz (bl s b) i j = 0%R.
  Lemma plain_step s : plain s -> plain (nx_ s).
  Proof.
    intros P b i j. destruct (P b i j) as [P1 P2]. rewrite nxt_eq. cbn [bl]. unfold each at 1 2.
    assert (Z : xz (bl (sec_ s) b) i j = 0%R /\ yz (bl (sec_ s) b) i j = 0%R).
    { cbn [sec mid bl]. unfold each. destruct (has (k_pm k) b); [|split; assumption]. cbn [xz yz b_adv_e b_adv_h]. rewrite P1, P2. split; destruct (_ && _); cbn; ring. }
    destruct Z as [Z1 Z2]. destruct (has (k_pm k) b); [|split; assumption]. cbn [xz yz b_bound]. rewrite Z1, Z2. split; destruct (_ && _); cbn; ring.
  Qed.
  Lemma Kq b : q_on (bparam log_ k b) = b_coef (k_pm k) b. Proof. reflexivity. Qed.
  Lemma KK : k_p k = p. Proof. exact (Kp p c w l k G Hk). Qed.
  Lemma cC0 : cC p true 0%R = 1%R.
  Proof. destruct Hp as (_ & _ & He). unfold cC, star, ntwo. cbn. field. lra. Qed.
  Lemma cD0 h : (0 < h)%R -> (cD p true 0 / h = p_dt p / (h * p_mu p))%R.
  Proof. intros H. destruct Hp as (_ & _ & He). unfold cD, star, ntwo. cbn. field. lra. Qed.
  Lemma OXm : OX p w l Main = L0. Proof. reflexivity. Qed.
  Lemma OYm : OY p w l Main = B0. Proof. reflexivity. Qed.
  Lemma h_blk s g b i j : glued p w l s g -> plain s -> needed w b = true -> i < wide p l (Blk b) -> j < high p l (Blk b) ->
    zx (bl (mid_ s) b) i j = bzx (big_h g) (OX p w l (Blk b) + i) (OY p w l (Blk b) + j) /\ zy (bl (mid_ s) b) i j = bzy (big_h g) (OX p w l (Blk b) + i) (OY p w l (Blk b) + j).
  Proof.
    intros Gl Pl T Hi Hj'. pose proof (in_x (Blk b) i T Hi) as Ix. pose proof (in_y (Blk b) j T Hj') as Iy.
    cbn [mid bl]. unfold each. rewrite (Khas p c w l k G Hk b T), KK. cbn [zx zy b_adv_h big_h bzx bzy].
    pose proof (Kn log_ p c w l k G Hk b T) as B1. pose proof (Km log_ p c w l k G Hk b T) as B2. unfold Bn in B1. unfold Bm in B2. rewrite B1, B2, Kq, (Kon p c w l k G Hk b T).
    rewrite (SX_b b i T Hi), (SY_b b j T Hj'). unfold mC. rewrite (out_c b i j T Hi Hj'). bool_nat. cbn [andb].
    destruct (Gl (Blk b) T i j) as (G1 & G2 & G3). destruct (G3 Hi Hj') as [G3x G3y]. rewrite G3x, G3y.
    destruct (Gl (Blk b) T (S i) j) as (G4 & _). destruct (Gl (Blk b) T i (S j)) as (_ & G5 & _). cbn [area_ey area_ex] in G1, G2, G4, G5.
    rewrite G1, G2, G4, G5 by lia. rewrite <- !Nat.add_succ_r. split; reflexivity.
  Qed.
  Lemma h_main s g i j : glued p w l s g -> i < p_nx p -> j < p_ny p -> hz (mn (mid_ s)) i j = bhz (big_h g) (L0 + i) (B0 + j).
  Proof.
    intros Gl Hi Hj'. pose proof (in_x Main i I Hi) as Ix. pose proof (in_y Main j I Hj') as Iy. rewrite OXm in Ix. rewrite OYm in Iy.
    cbn [mid mn hz h_fdtd]. unfold bhz. cbn [big_h bzx bzy]. unfold mC, inx, iny. bool_nat. cbn [andb].
    replace (L0 + i - L0) with i by lia. replace (B0 + j - B0) with j by lia.
    destruct (Gl Main I i j) as (G1 & G2 & G3). destruct (Gl Main I (S i) j) as (G4 & _). destruct (Gl Main I i (S j)) as (_ & G5 & _). rewrite OXm, OYm in *. cbn [area_ey area_ex] in G1, G2, G4, G5.
    specialize (G3 Hi Hj'). unfold bhz in G3. assert (Wm : wide p l Main = p_nx p) by reflexivity. assert (Hmn : high p l Main = p_ny p) by reflexivity. rewrite Wm, Hmn in *.
    rewrite SX_main, SY_main, cC0, !cD0 by (assumption || apply Hp). destruct (g_int (p_g p) i j); [|exact G3]. rewrite G3, G1, G2, G4, G5 by lia. rewrite <- !Nat.add_succ_r. cbn [nadd nsub nmul ndiv Num_R]. ring.
  Qed.
  Lemma h_any s g a i j : glued p w l s g -> plain s -> there w a -> i < wide p l a -> j < high p l a -> w_hz (mid_ s) a i j = bhz (big_h g) (OX p w l a + i) (OY p w l a + j).
  Proof.
    intros Gl Pl T Hi Hj'. destruct a as [|b]; cbn [w_hz]; [apply (h_main s g i j Gl Hi Hj')|]. unfold b_hz. destruct (h_blk s g b i j Gl Pl T Hi Hj') as [-> ->]. reflexivity.
  Qed.
  Lemma cA0' : cA p true 0%R = 1%R.
  Proof. destruct Hp as (_ & _ & He). unfold cA, ntwo. cbn. field. lra. Qed.
  Lemma cB0' h : (0 < h)%R -> (cB p true 0 / h = p_dt p / (h * p_eps p))%R.
  Proof. intros H. destruct Hp as (_ & _ & He). unfold cB, ntwo. cbn. field. lra. Qed.
  Lemma same_y s b i j : needed w b = true -> (i = 0 -> b_link (k_pm k) b SLx = None) -> (i = Bn log_ k b -> b_link (k_pm k) b SRx = None) -> i = 0 \/ i = Bn log_ k b -> b_ey (bl (nx_ s) b) i j = b_ey (bl s b) i j.
  Proof.
    intros T A B H. rewrite nxt_eq. cbn [bl]. unfold each at 1. rewrite (Khas p c w l k G Hk b T). unfold b_ey. cbn [yx yz b_bound neigh n_lx n_rx]. fold (Bn log_ k b) (Bm log_ k b).
    destruct (sec_y log_ k (h_fdtd p) (e_fdtd p jx jy) s b i j ltac:(lia)) as [-> ->].
    replace ((i =? 0) && (j <? Bm log_ k b) && is_some (match b_link (k_pm k) b SLx with Some a => Some (fun j0 => w_hz (sec_ s) a (w_nx log_ k a - 1) j0) | None => None end)) with false.
    2: { symmetry. destruct (i =? 0) eqn:Q; [|reflexivity]. apply Nat.eqb_eq in Q. rewrite (A Q). apply andb_false_r. }
    replace ((i =? Bn log_ k b) && (j <? Bm log_ k b) && is_some (match b_link (k_pm k) b SRx with Some a => Some (fun j0 => w_hz (sec_ s) a 0 j0) | None => None end)) with false.
    2: { symmetry. destruct (i =? Bn log_ k b) eqn:Q; [|reflexivity]. apply Nat.eqb_eq in Q. rewrite (B Q). apply andb_false_r. }
    replace ((i =? 0) && is_some (match b_link (k_pm k) b SLx with Some a => Some (fun j0 => w_hz (sec_ s) a (w_nx log_ k a - 1) j0) | None => None end)) with false.
    2: { symmetry. destruct (i =? 0) eqn:Q; [|reflexivity]. apply Nat.eqb_eq in Q. rewrite (A Q). reflexivity. }
    replace ((i =? Bn log_ k b) && is_some (match b_link (k_pm k) b SRx with Some a => Some (fun j0 => w_hz (sec_ s) a 0 j0) | None => None end)) with false.
    2: { symmetry. destruct (i =? Bn log_ k b) eqn:Q; [|reflexivity]. apply Nat.eqb_eq in Q. rewrite (B Q). reflexivity. }
    rewrite andb_false_r. reflexivity.
  Qed.
  Lemma e_y s g a i j : glued p w l s g -> plain s -> there w a -> i <= wide p l a -> j < high p l a ->
    area_ey (nx_ s) a i j = by_ (big_e jx jy (big_h g)) (OX p w l a + i) (OY p w l a + j).
  Proof.
    intros Gl Pl T Hi Hj'. pose proof (wide_pos log_ p c w l Hs a T) as Wp. pose proof Hp as (Hx & Hy & He). pose proof (in_y a j T Hj') as Iy.
    pose proof (plain_step s Pl) as Pn. destruct (Gl a T i j) as (G1 & _). specialize (G1 Hi Hj').
    assert (Cs : i = 0 \/ i = wide p l a \/ 0 < i < wide p l a) by lia. destruct Cs as [-> | [-> | Cs]].
    - rewrite Nat.add_0_r in *. destruct (left_of a T) as [[O N] | (b & Tb & E & O & Oy)].
      + assert (R : by_ (big_e jx jy (big_h g)) (OX p w l a) (OY p w l a + j) = by_ g (OX p w l a) (OY p w l a + j)) by (cbn [big_e by_]; rewrite O; reflexivity). rewrite R, <- G1. destruct a as [|b]; cbn [area_ey].
        * assert (Z : has (k_pm k) Lx = false). { apply Knot. destruct (needed w Lx) eqn:Q; [|reflexivity]. exfalso. apply (N (Blk Lx) Q). reflexivity. }
          rewrite nxt_eq. cbn [mn]. unfold m_bound. cbn [ey]. rewrite Z, andb_false_r, KK. unfold wide, width in Wp. cbn in Wp. bool_nat. cbn [andb]. cbn [sec mid mn]. rewrite (fdtd_edge p jx jy) by (left; reflexivity). reflexivity.
        * assert (Bb := Kn log_ p c w l k G Hk b T). apply same_y; [exact T| |rewrite Bb; lia|left; reflexivity]. intros _. apply Knone; [exact T|]. intros a' Ta' E'. apply (N a' Ta'). rewrite E'. cbn. destruct (pos b). cbn. f_equal; lia.
      + rewrite (left_gen log_ p c w l k G Hk Hp (h_fdtd p) (e_fdtd p jx jy) c4 c5 jx jy Hj ltac:(intros; split; reflexivity) ltac:(reflexivity) ltac:(intros; apply fdtd_edge; assumption) ltac:(intros; apply fdtd_edgex; assumption) ltac:(reflexivity) s b a j Tb T E Hj').
        pose proof (wide_pos log_ p c w l Hs b Tb) as Wb. assert (Hb : high p l b = high p l a) by (unfold high; rewrite E; reflexivity).
        rewrite (h_any s g a 0 j), (h_any s g b (wide p l b - 1) j) by (assumption || lia). pose proof (in_x a 0 T Wp) as Ix. rewrite Nat.add_0_r in *.
        cbn [big_e by_]. assert (M : (L0 <? OX p w l a) && (OX p w l a <? L0 + p_nx p) && iny (OY p w l a + j) = false).
        { destruct a as [|x]; [rewrite OXm, Nat.ltb_irrefl; reflexivity|]. rewrite <- (out_y x 0 j T Hi Hj'), Nat.add_0_r. reflexivity. }
        unfold mY, JY. rewrite M. bool_nat. cbn [andb]. rewrite SX_0, cA0', (cB0' _ Hx), G1; [|exact T|].
        * replace (OX p w l b + (wide p l b - 1)) with (OX p w l a - 1) by lia. rewrite <- Oy. cbn [by_ big_h]. ring.
        * rewrite E. destruct b as [|[]]; cbn; lia.
    - destruct (right_of a T) as [[O N] | (b & Tb & E & O & Oy)].
      + assert (R : by_ (big_e jx jy (big_h g)) (OX p w l a + wide p l a) (OY p w l a + j) = by_ g (OX p w l a + wide p l a) (OY p w l a + j)) by (cbn [big_e by_]; rewrite O, Nat.ltb_irrefl, andb_false_r; reflexivity). rewrite R, <- G1. destruct a as [|b]; cbn [area_ey].
        * assert (Z : has (k_pm k) Rx = false). { apply Knot. destruct (needed w Rx) eqn:Q; [|reflexivity]. exfalso. apply (N (Blk Rx) Q). reflexivity. }
          rewrite nxt_eq. cbn [mn]. unfold m_bound. cbn [ey]. rewrite Z, KK. change (wide p l Main) with (p_nx p) in *. bool_nat. cbn [andb]. rewrite andb_false_r. cbn [sec mid mn]. rewrite (fdtd_edge p jx jy) by (right; reflexivity). reflexivity.
        * assert (Bb := Kn log_ p c w l k G Hk b T). apply same_y; [exact T|lia| |right; symmetry; exact Bb]. intros _. apply Knone; [exact T|]. intros a' Ta' E'. apply (N a' Ta'). rewrite E'. cbn. destruct (pos b). cbn. f_equal; lia.
      + rewrite (right_gen log_ p c w l k G Hk Hs Hp (h_fdtd p) (e_fdtd p jx jy) c4 c5 jx jy Hj ltac:(intros; split; reflexivity) ltac:(reflexivity) ltac:(intros; apply fdtd_edge; assumption) ltac:(intros; apply fdtd_edgex; assumption) ltac:(reflexivity) s a b j T Tb E Hj').
        pose proof (wide_pos log_ p c w l Hs b Tb) as Wb. assert (Hb : high p l b = high p l a) by (unfold high; rewrite E; reflexivity).
        rewrite (h_any s g b 0 j), (h_any s g a (wide p l a - 1) j) by (assumption || lia). pose proof (in_x b 0 Tb Wb) as Ix. rewrite Nat.add_0_r in *.
        cbn [big_e by_]. assert (M : (L0 <? OX p w l a + wide p l a) && (OX p w l a + wide p l a <? L0 + p_nx p) && iny (OY p w l a + j) = false).
        { destruct a as [|x]; [|apply (out_y x _ j T Hi Hj')]. rewrite OXm. change (wide p l Main) with (p_nx p). rewrite Nat.ltb_irrefl, andb_false_r. reflexivity. }
        unfold mY, JY. rewrite M. bool_nat. cbn [andb]. rewrite <- O. rewrite SX_0, cA0', (cB0' _ Hx), G1; [|exact Tb|].
        * rewrite <- O. replace (OX p w l a + (wide p l a - 1)) with (OX p w l b - 1) by lia. rewrite <- Oy. cbn [by_ big_h]. ring.
        * rewrite E. destruct a as [|[]]; cbn; try lia; destruct b as [|[]]; discriminate E.
    - pose proof (in_x a i T (proj2 Cs)) as Ix. cbn [big_e by_]. bool_nat. cbn [andb]. destruct a as [|b].
      + cbn [area_ey] in *. change (wide p l Main) with (p_nx p) in *. change (high p l Main) with (p_ny p) in *. rewrite nxt_eq. cbn [mn]. unfold m_bound. cbn [ey]. rewrite KK. bool_nat. cbn [andb].
        cbn [sec mn e_fdtd ey]. bool_nat. cbn [andb]. rewrite OXm, OYm in *. unfold mY, JY, iny. bool_nat. cbn [andb]. replace (L0 + i - L0) with i by lia. replace (B0 + j - B0) with j by lia.
        change (mn (mid_ s)) with (h_fdtd p (mn s)). change (ey (h_fdtd p (mn s)) i j) with (ey (mn s) i j). rewrite G1. destruct (g_int (p_g p) i j && nltb nzero (g_ly (p_g p) i j)); [|reflexivity].
        pose proof (h_main s g i j Gl ltac:(lia) Hj') as H1. pose proof (h_main s g (i - 1) j Gl ltac:(lia) Hj') as H2. cbn [mid mn] in H1, H2. rewrite H1, H2. rewrite SX_main, cA0', (cB0' _ Hx) by lia.
        replace (L0 + (i - 1)) with (L0 + i - 1) by lia. cbn [by_ big_h nsub nmul ndiv Num_R]. ring.
      + cbn [area_ey] in *. rewrite nxt_eq. cbn [bl]. unfold each at 1. rewrite (Khas p c w l k G Hk b T). unfold b_ey.
        pose proof (proj2 (Pn b i j)) as Pz. rewrite nxt_eq in Pz. cbn [bl] in Pz. unfold each at 1 in Pz. rewrite (Khas p c w l k G Hk b T) in Pz. rewrite Pz. clear Pz.
        cbn [yx b_bound]. pose proof (Kn log_ p c w l k G Hk b T) as B1. pose proof (Km log_ p c w l k G Hk b T) as B2. unfold Bn in B1. unfold Bm in B2. rewrite B1. bool_nat. cbn [andb].
        cbn [sec bl]. unfold each at 1. rewrite (Khas p c w l k G Hk b T), KK. cbn [yx b_adv_e]. rewrite B1, B2. bool_nat. cbn [andb]. rewrite Kq, (Kon p c w l k G Hk b T), (SX_b b i T) by lia.
        pose proof (h_any s g (Blk b) i j Gl Pl T ltac:(lia) Hj') as H1. pose proof (h_any s g (Blk b) (i - 1) j Gl Pl T ltac:(lia) Hj') as H2. cbn [w_hz] in H1, H2. rewrite H1, H2.
        assert (E0 : yx (bl (mid_ s) b) i j = b_ey (bl s b) i j). { unfold b_ey. rewrite (proj2 (Pl b i j)). cbn [mid bl]. unfold each. destruct (has (k_pm k) b); cbn; ring. }
        rewrite E0, G1. unfold mY, JY. rewrite (out_y b i j T Hi Hj'). replace (OX p w l (Blk b) + (i - 1)) with (OX p w l (Blk b) + i - 1) by lia. cbn [by_ big_h nadd nsub nmul ndiv Num_R]. ring.
  Qed.
  Lemma same_x s b i j : needed w b = true -> (j = 0 -> b_link (k_pm k) b SLy = None) -> (j = Bm log_ k b -> b_link (k_pm k) b SRy = None) -> j = 0 \/ j = Bm log_ k b -> b_ex (bl (nx_ s) b) i j = b_ex (bl s b) i j.
  Proof.
    intros T A B H. rewrite nxt_eq. cbn [bl]. unfold each at 1. rewrite (Khas p c w l k G Hk b T). unfold b_ex. cbn [xy xz b_bound neigh n_ly n_ry]. fold (Bn log_ k b) (Bm log_ k b).
    destruct (sec_x log_ k (h_fdtd p) (e_fdtd p jx jy) s b i j ltac:(lia)) as [-> ->].
    assert (Q1 : (j =? 0) && is_some (match b_link (k_pm k) b SLy with Some a => Some (fun i0 => w_hz (sec_ s) a i0 (w_ny log_ k a - 1)) | None => None end) = false).
    { destruct (j =? 0) eqn:Q; [|reflexivity]. apply Nat.eqb_eq in Q. rewrite (A Q). reflexivity. }
    assert (Q2 : (j =? Bm log_ k b) && is_some (match b_link (k_pm k) b SRy with Some a => Some (fun i0 => w_hz (sec_ s) a i0 0) | None => None end) = false).
    { destruct (j =? Bm log_ k b) eqn:Q; [|reflexivity]. apply Nat.eqb_eq in Q. rewrite (B Q). reflexivity. }
    rewrite <- !andb_assoc, Q1, Q2. cbn [orb]. rewrite !andb_false_r. reflexivity.
  Qed.
  Lemma e_x s g a i j : glued p w l s g -> plain s -> there w a -> i < wide p l a -> j <= high p l a ->
    area_ex (nx_ s) a i j = bx (big_e jx jy (big_h g)) (OX p w l a + i) (OY p w l a + j).
  Proof.
    intros Gl Pl T Hi Hj'. pose proof (high_pos log_ p c w l Hs a T) as Wp. pose proof Hp as (Hx & Hy & He). pose proof (in_x a i T Hi) as Ix.
    pose proof (plain_step s Pl) as Pn. destruct (Gl a T i j) as (_ & G1 & _). specialize (G1 Hi Hj').
    assert (Cs : j = 0 \/ j = high p l a \/ 0 < j < high p l a) by lia. destruct Cs as [-> | [-> | Cs]].
    - rewrite Nat.add_0_r in *. destruct (below_of a T) as [[O N] | (b & Tb & E & O & Oy)].
      + assert (R : bx (big_e jx jy (big_h g)) (OX p w l a + i) (OY p w l a) = bx g (OX p w l a + i) (OY p w l a)) by (cbn [big_e bx]; rewrite O; cbn [Nat.leb andb]; rewrite andb_false_r; reflexivity). rewrite R, <- G1. destruct a as [|b]; cbn [area_ex].
        * assert (Z : has (k_pm k) Ly = false). { apply Knot. destruct (needed w Ly) eqn:Q; [|reflexivity]. exfalso. apply (N (Blk Ly) Q). reflexivity. }
          rewrite nxt_eq. cbn [mn]. unfold m_bound. cbn [ex]. rewrite Z, andb_false_r, KK. unfold high, width in Wp. cbn in Wp. bool_nat. rewrite andb_false_r. cbn [andb]. cbn [sec mid mn]. rewrite (fdtd_edgex p jx jy) by (left; reflexivity). reflexivity.
        * assert (Bb := Km log_ p c w l k G Hk b T). apply same_x; [exact T| |rewrite Bb; lia|left; reflexivity]. intros _. apply Knone; [exact T|]. intros a' Ta' E'. apply (N a' Ta'). rewrite E'. cbn. destruct (pos b). cbn. f_equal; lia.
      + rewrite (bottom_gen log_ p c w l k G Hk Hp (h_fdtd p) (e_fdtd p jx jy) c4 c5 jx jy Hj ltac:(intros; split; reflexivity) ltac:(reflexivity) ltac:(intros; apply fdtd_edge; assumption) ltac:(intros; apply fdtd_edgex; assumption) ltac:(reflexivity) s b a i Tb T E Hi).
        pose proof (high_pos log_ p c w l Hs b Tb) as Wb. assert (Hb : wide p l b = wide p l a) by (unfold wide; rewrite E; reflexivity).
        rewrite (h_any s g a i 0), (h_any s g b i (high p l b - 1)) by (assumption || lia). pose proof (in_y a 0 T Wp) as Iy. rewrite Nat.add_0_r in *.
        cbn [big_e bx]. assert (M : inx (OX p w l a + i) && ((B0 <? OY p w l a) && (OY p w l a <? B0 + p_ny p)) = false).
        { destruct a as [|x]; [rewrite OYm, Nat.ltb_irrefl; apply andb_false_r|]. rewrite <- (out_x x i 0 T Hi Hj'), Nat.add_0_r. reflexivity. }
        unfold mX, JX. rewrite M. bool_nat. cbn [andb]. rewrite SY_0, cA0', (cB0' _ Hy), G1; [|exact T|].
        * replace (OY p w l b + (high p l b - 1)) with (OY p w l a - 1) by lia. rewrite <- Oy. cbn [bx big_h]. ring.
        * rewrite E. destruct b as [|[]]; cbn; lia.
    - destruct (above_of a T) as [[O N] | (b & Tb & E & O & Oy)].
      + assert (R : bx (big_e jx jy (big_h g)) (OX p w l a + i) (OY p w l a + high p l a) = bx g (OX p w l a + i) (OY p w l a + high p l a)) by (cbn [big_e bx]; rewrite O, Nat.ltb_irrefl, !andb_false_r; reflexivity). rewrite R, <- G1. destruct a as [|b]; cbn [area_ex].
        * assert (Z : has (k_pm k) Ry = false). { apply Knot. destruct (needed w Ry) eqn:Q; [|reflexivity]. exfalso. apply (N (Blk Ry) Q). reflexivity. }
          rewrite nxt_eq. cbn [mn]. unfold m_bound. cbn [ex]. rewrite Z, KK. change (high p l Main) with (p_ny p) in *. bool_nat. rewrite !andb_false_r. cbn [andb]. cbn [sec mid mn]. rewrite (fdtd_edgex p jx jy) by (right; reflexivity). reflexivity.
        * assert (Bb := Km log_ p c w l k G Hk b T). apply same_x; [exact T|lia| |right; symmetry; exact Bb]. intros _. apply Knone; [exact T|]. intros a' Ta' E'. apply (N a' Ta'). rewrite E'. cbn. destruct (pos b). cbn. f_equal; lia.
      + rewrite (top_gen log_ p c w l k G Hk Hs Hp (h_fdtd p) (e_fdtd p jx jy) c4 c5 jx jy Hj ltac:(intros; split; reflexivity) ltac:(reflexivity) ltac:(intros; apply fdtd_edge; assumption) ltac:(intros; apply fdtd_edgex; assumption) ltac:(reflexivity) s a b i T Tb E Hi).
        pose proof (high_pos log_ p c w l Hs b Tb) as Wb. assert (Hb : wide p l b = wide p l a) by (unfold wide; rewrite E; reflexivity).
        rewrite (h_any s g b i 0), (h_any s g a i (high p l a - 1)) by (assumption || lia). pose proof (in_y b 0 Tb Wb) as Iy. rewrite Nat.add_0_r in *.
        cbn [big_e bx]. assert (M : inx (OX p w l a + i) && ((B0 <? OY p w l a + high p l a) && (OY p w l a + high p l a <? B0 + p_ny p)) = false).
        { destruct a as [|x]; [|apply (out_x x i _ T Hi Hj')]. rewrite OYm. change (high p l Main) with (p_ny p). rewrite Nat.ltb_irrefl, !andb_false_r. reflexivity. }
        unfold mX, JX. rewrite M. bool_nat. cbn [andb]. rewrite <- O. rewrite SY_0, cA0', (cB0' _ Hy), G1; [|exact Tb|].
        * rewrite <- O. replace (OY p w l a + (high p l a - 1)) with (OY p w l b - 1) by lia. rewrite <- Oy. cbn [bx big_h]. ring.
        * rewrite E. destruct a as [|[]]; cbn; try lia; destruct b as [|[]]; discriminate E.
    - pose proof (in_y a j T (proj2 Cs)) as Iy. cbn [big_e bx]. bool_nat. cbn [andb]. destruct a as [|b].
      + cbn [area_ex] in *. change (wide p l Main) with (p_nx p) in *. change (high p l Main) with (p_ny p) in *. rewrite nxt_eq. cbn [mn]. unfold m_bound. cbn [ex]. rewrite KK. bool_nat. cbn [andb].
        cbn [sec mn e_fdtd ex]. bool_nat. cbn [andb]. rewrite OXm, OYm in *. unfold mX, JX, inx. bool_nat. cbn [andb]. replace (L0 + i - L0) with i by lia. replace (B0 + j - B0) with j by lia.
        change (mn (mid_ s)) with (h_fdtd p (mn s)). change (ex (h_fdtd p (mn s)) i j) with (ex (mn s) i j). rewrite G1. destruct (g_int (p_g p) i j && nltb nzero (g_lx (p_g p) i j)); [|reflexivity].
        pose proof (h_main s g i j Gl Hi ltac:(lia)) as H1. pose proof (h_main s g i (j - 1) Gl Hi ltac:(lia)) as H2. cbn [mid mn] in H1, H2. rewrite H1, H2. rewrite SY_main, cA0', (cB0' _ Hy) by lia.
        replace (B0 + (j - 1)) with (B0 + j - 1) by lia. cbn [bx big_h nadd nsub nmul ndiv Num_R]. ring.
      + cbn [area_ex] in *. rewrite nxt_eq. cbn [bl]. unfold each at 1. rewrite (Khas p c w l k G Hk b T). unfold b_ex.
        pose proof (proj1 (Pn b i j)) as Pz. rewrite nxt_eq in Pz. cbn [bl] in Pz. unfold each at 1 in Pz. rewrite (Khas p c w l k G Hk b T) in Pz. rewrite Pz. clear Pz.
        cbn [xy b_bound]. pose proof (Kn log_ p c w l k G Hk b T) as B1. pose proof (Km log_ p c w l k G Hk b T) as B2. unfold Bn in B1. unfold Bm in B2. rewrite B2. bool_nat. rewrite ?andb_false_r. cbn [andb].
        cbn [sec bl]. unfold each at 1. rewrite (Khas p c w l k G Hk b T), KK. cbn [xy b_adv_e]. rewrite B1, B2. bool_nat. cbn [andb]. rewrite Kq, (Kon p c w l k G Hk b T), (SY_b b j T) by lia.
        pose proof (h_any s g (Blk b) i j Gl Pl T Hi ltac:(lia)) as H1. pose proof (h_any s g (Blk b) i (j - 1) Gl Pl T Hi ltac:(lia)) as H2. cbn [w_hz] in H1, H2. rewrite H1, H2.
        assert (E0 : xy (bl (mid_ s) b) i j = b_ex (bl s b) i j). { unfold b_ex. rewrite (proj1 (Pl b i j)). cbn [mid bl]. unfold each. destruct (has (k_pm k) b); cbn; ring. }
        rewrite E0, G1. unfold mX, JX. rewrite (out_x b i j T Hi Hj'). replace (OY p w l (Blk b) + (j - 1)) with (OY p w l (Blk b) + j - 1) by lia. cbn [bx big_h nadd nsub nmul ndiv Num_R]. ring.
  Qed.
  Lemma glued_step s g : glued p w l s g -> plain s -> glued p w l (nx_ s) (big_e jx jy (big_h g)).
  Proof.
    intros Gl Pl a T i j. split; [|split].
    - apply e_y; assumption.
    - apply e_x; assumption.
    - intros Hi Hj'. cbn [bzx bzy big_e]. destruct a as [|b].
      + rewrite nxt_eq. cbn [mn]. unfold m_bound. cbn [hz sec mn e_fdtd]. apply (h_main s g i j Gl Hi Hj').
      + destruct (h_blk s g b i j Gl Pl T Hi Hj') as [A B]. rewrite nxt_eq. cbn [bl]. unfold each at 1 2. rewrite (Khas p c w l k G Hk b T). cbn [zx zy b_bound sec bl]. unfold each at 1 2. rewrite (Khas p c w l k G Hk b T). cbn [zx zy b_adv_e].
        rewrite A, B. split; reflexivity.
  Qed.
End One.
