(** Lemmas: the metric of an evenly spaced grid, also after solvers have been built on it. *)
From Coq Require Import List Arith Bool Lia Reals Lra.
From Verif Require Import Num Vec Index Matrix FieldModel FieldSpec FieldProofs FieldProofs2 GridModel GridProofs SolverModel SolverSpec SolverPlanes
  SolverBuild SolverMaterials SolverKern SolverCons SolverEnergy SolverFlux StabSum Stab.
Import ListNotations.
Open Scope nat_scope.

(** Neighbouring nodes are [h] apart. *)
Definition evenly (x : list R) (h : R) : Prop :=
  (0 < h)%R /\ forall i, i + 1 < List.length x -> (get x (i + 1) - get x i = h)%R.

Section Wrap.
  Context {T : Type} {NT : Num T}.
  Lemma wrapL_cases (w : nat -> bool) (L : Field T) Nx Ny Nz c i j k acc v : i < Nx -> j < Ny -> k < Nz ->
    (forall i j k, i < Nx -> j < Ny -> k < Nz -> entry L c i j k = v) ->
    wrapL w L Nx Ny Nz c i j k acc = acc \/ wrapL w L Nx Ny Nz c i j k acc = v.
  Proof.
    intros Hi Hj Hk H. unfold wrapL. destruct (_ && _)%bool; [right|left; reflexivity].
    destruct c as [|[|c]]; cbn [set_coord entry3]; apply H; lia.
  Qed.
  Lemma wrapA1_cases (w : nat -> bool) (L : Field T) Nx Ny Nz c i j k a acc v : i < Nx -> j < Ny -> k < Nz ->
    (forall i j k, i < Nx -> j < Ny -> k < Nz -> entry L c i j k = v) ->
    wrapA1 w L Nx Ny Nz c i j k a acc = acc \/ wrapA1 w L Nx Ny Nz c i j k a acc = v.
  Proof.
    intros Hi Hj Hk H. unfold wrapA1. destruct (_ && _)%bool; [right|left; reflexivity].
    destruct a as [|[|a]]; cbn [set_coord entry3]; apply H; lia.
  Qed.
  Lemma wrapA_cases (w : nat -> bool) (L : Field T) Nx Ny Nz c i j k acc v : i < Nx -> j < Ny -> k < Nz ->
    (forall i j k, i < Nx -> j < Ny -> k < Nz -> entry L c i j k = v) ->
    wrapA w L Nx Ny Nz c i j k acc = acc \/ wrapA w L Nx Ny Nz c i j k acc = v.
  Proof.
    intros Hi Hj Hk H. unfold wrapA.
    destruct (wrapA1_cases w L Nx Ny Nz c i j k 0 acc v Hi Hj Hk H) as [-> | ->]; (destruct (wrapA1_cases w L Nx Ny Nz c i j k 1 acc v Hi Hj Hk H) as [A | A] || idtac);
      match goal with |- context [wrapA1 w L Nx Ny Nz c i j k 1 ?y] => destruct (wrapA1_cases w L Nx Ny Nz c i j k 1 y v Hi Hj Hk H) as [-> | ->] end;
      match goal with |- context [wrapA1 w L Nx Ny Nz c i j k 2 ?y] => destruct (wrapA1_cases w L Nx Ny Nz c i j k 2 y v Hi Hj Hk H) as [-> | ->] end; auto.
  Qed.
End Wrap.

(** Primary and dual metric of an evenly spaced grid. *)
Definition prim_even (g : Grid R) (hx hy hz : R) : Prop :=
  forall d i j k, in_box (gNx g) (gNy g) (gNz g) d i j k ->
    entry (gL g) d i j k = ds hx hy hz d /\ (entry (giA g) d i j k = / (ds hx hy hz (tr1 d) * ds hx hy hz (tr2 d)))%R.
Definition dual_even (g : Grid R) (hx hy hz : R) : Prop :=
  forall d i j k, in_box (gNx g) (gNy g) (gNz g) d i j k ->
    (entry (gtL g) d i j k = ds hx hy hz d \/ (entry (gtL g) d i j k = 0%R /\ coord d i j k = dim d (gNx g) (gNy g) (gNz g) - 1)) /\
    ((entry (gitA g) d i j k = / (ds hx hy hz (tr1 d) * ds hx hy hz (tr2 d)))%R \/
     (entry (gitA g) d i j k = 0%R /\ exists a, a < 3 /\ a <> d /\ coord a i j k = dim a (gNx g) (gNy g) (gNz g) - 1)).

Lemma tilde_even x h i : evenly x h -> i + 1 < List.length x ->
  (get (tilde x) (i + 1) - get (tilde x) i)%R = h \/ ((get (tilde x) (i + 1) - get (tilde x) i)%R = 0%R /\ i = List.length x - 2).
Proof.
  intros [Ph H] Hi. unfold tilde. rewrite !get_tab by lia. cbn [nadd ndiv Num_R].
  destruct (Nat.ltb_spec (i + 1) (List.length x)); [|lia].
  destruct (Nat.ltb_spec (i + 1 + 1) (List.length x)) as [L|L].
  - left. pose proof (H i Hi) as A. pose proof (H (i + 1) L) as B. unfold two. cbn [nadd none_ Num_R]. unfold Rdiv in *. lra.
  - right. split; [|lia]. replace (List.length x - 2) with i by lia. ring.
Qed.

Lemma axes_even x y z g hx hy hz : compute_grid x y z = Ok g -> evenly (gx g) hx -> evenly (gy g) hy -> evenly (gz g) hz ->
  prim_even g hx hy hz /\ dual_even g hx hy hz.
Proof.
  intros E Ux Uy Uz.
  assert (Lx : 2 <= List.length x /\ 2 <= List.length y /\ 2 <= List.length z).
  { unfold compute_grid in E. destruct (2 <=? List.length x) eqn:A; [|discriminate]. destruct (2 <=? List.length y) eqn:B; [|discriminate].
    destruct (2 <=? List.length z) eqn:C; [|discriminate]. apply Nat.leb_le in A, B, C. auto. }
  destruct Lx as (L1 & L2 & L3).
  destruct (compute_grid_spec x y z L1 L2 L3) as (g2 & E2 & Ex & Ey & Ez & _ & _ & _ & _ & V). rewrite E in E2. injection E2 as <-.
  assert (Nx : gNx g = List.length x - 1) by (unfold gNx; rewrite Ex; reflexivity). assert (Ny : gNy g = List.length y - 1) by (unfold gNy; rewrite Ey; reflexivity).
  assert (Nz : gNz g = List.length z - 1) by (unfold gNz; rewrite Ez; reflexivity).
  rewrite Ex in Ux. rewrite Ey in Uy. rewrite Ez in Uz.
  assert (PL : forall d i j k, in_box (gNx g) (gNy g) (gNz g) d i j k -> entry (gL g) d i j k = ds hx hy hz d).
  { intros d i j k (Hd & Hi & Hj & Hk). destruct (V i j k Hi Hj Hk) as (A & B & C & _). cbn [nsub Num_R] in *.
    destruct d as [|[|[|d]]]; [rewrite A; apply Ux; lia|rewrite B; apply Uy; lia|rewrite C; apply Uz; lia|lia]. }
  assert (DL : forall d i j k, in_box (gNx g) (gNy g) (gNz g) d i j k ->
     entry (gtL g) d i j k = ds hx hy hz d \/ (entry (gtL g) d i j k = 0%R /\ coord d i j k = dim d (gNx g) (gNy g) (gNz g) - 1)).
  { intros d i j k (Hd & Hi & Hj & Hk). destruct (V i j k Hi Hj Hk) as (_ & _ & _ & A & B & C & _). cbn [nsub Num_R] in *.
    destruct d as [|[|[|d]]]; [rewrite A; destruct (tilde_even x hx i Ux ltac:(lia)) as [->|[-> ->]]|rewrite B; destruct (tilde_even y hy j Uy ltac:(lia)) as [->|[-> ->]]
      |rewrite C; destruct (tilde_even z hz k Uz ltac:(lia)) as [->|[-> ->]]|lia]; cbn [coord dim ds]; auto; right; split; auto; lia. }
  assert (T1 : forall d, d < 3 -> tr1 d < 3 /\ tr1 d <> d /\ tr2 d < 3 /\ tr2 d <> d) by (intros [|[|[|d]]] Hd; cbn; lia).
  split.
  - intros d i j k Hb. split; [apply PL; exact Hb|]. destruct Hb as (Hd & Hi & Hj & Hk). destruct (V i j k Hi Hj Hk) as (_ & _ & _ & _ & _ & _ & F).
    destruct (F d Hd) as [-> _]. destruct (T1 d Hd) as (A & _ & B & _). rewrite !PL by (repeat split; assumption). cbn [ndiv nmul none_ Num_R]. unfold Rdiv. ring.
  - intros d i j k Hb. split; [apply DL; exact Hb|]. destruct Hb as (Hd & Hi & Hj & Hk). destruct (V i j k Hi Hj Hk) as (_ & _ & _ & _ & _ & _ & F).
    destruct (F d Hd) as [_ ->]. destruct (T1 d Hd) as (A & A' & B & B').
    assert (Z : forall a b : R, inv_where a b = (if Req_EM_T (a * b) 0 then 0 else / (a * b))%R).
    { intros a b. unfold inv_where. cbn [neqb nmul ndiv none_ nzero Num_R]. destruct (Req_EM_T (a * b) 0); [reflexivity|]. unfold Rdiv. ring. }
    rewrite Z.
    assert (Pd : forall c, (0 < ds hx hy hz c)%R) by (intros [|[|c]]; cbn [ds]; [apply Ux|apply Uy|apply Uz]).
    destruct (DL (tr1 d) i j k ltac:(repeat split; assumption)) as [E1|[E1 F1]].
    + destruct (DL (tr2 d) i j k ltac:(repeat split; assumption)) as [E2|[E2 F2]]; rewrite E1, E2.
      * left. destruct (Req_EM_T _ _) as [Q|Q]; [|reflexivity]. pose proof (Pd (tr1 d)). pose proof (Pd (tr2 d)). apply Rmult_integral in Q. lra.
      * right. split; [destruct (Req_EM_T _ _) as [Q|Q]; [reflexivity|exfalso; apply Q; ring]|]. exists (tr2 d). auto.
    + right. rewrite E1. split; [destruct (Req_EM_T _ _) as [Q|Q]; [reflexivity|exfalso; apply Q; ring]|]. exists (tr1 d). auto.
Qed.

Lemma used_even env (g : Grid R) ar s g' hx hy hz : grid_ok g -> construct env g ar = Ok (s, g') ->
  prim_even g hx hy hz -> dual_even g hx hy hz ->
  gx g' = gx g /\ gy g' = gy g /\ gz g' = gz g /\ prim_even g' hx hy hz /\ dual_even g' hx hy hz.
Proof.
  intros Hg Hc HP HD.
  destruct (construct_spec env g ar s g' Hg Hc) as
    (bo & M & Hbo & _ & _ & _ & _ & _ & _ & _ & _ & _ & _ & _ & _ & _ & _ & _ & _ & _ & _ & _ & _ & _ & _ & _ & _ & Eg).
  destruct (apply_bc_spec g (sbl s) (sbh s) Hg) as [bo' [Fr [Fc [Hbo' [_ [_ [_ [_ [A _]]]]]]]]].
  rewrite Hbo in Hbo'. injection Hbo' as <-. subst g'. cbn [with_dual gx gy gz]. do 3 (split; [reflexivity|]).
  split; [exact HP|]. intros d i j k Hb. destruct (HD d i j k Hb) as [D1 D2]. destruct Hb as (Hd & Hi & Hj & Hk).
  change (gNx (with_dual g (bo_tL bo) (bo_itA bo))) with (gNx g) in *. change (gNy (with_dual g (bo_tL bo) (bo_itA bo))) with (gNy g) in *.
  change (gNz (with_dual g (bo_tL bo) (bo_itA bo))) with (gNz g) in *.
  cbn [with_dual gtL gitA]. destruct (A d i j k Hd Hi Hj Hk) as (_ & _ & -> & ->).
  assert (PL : forall i j k, i < gNx g -> j < gNy g -> k < gNz g -> entry (gL g) d i j k = ds hx hy hz d) by (intros; apply HP; repeat split; assumption).
  assert (PA : forall i j k, i < gNx g -> j < gNy g -> k < gNz g -> entry (giA g) d i j k = (/ (ds hx hy hz (tr1 d) * ds hx hy hz (tr2 d)))%R)
    by (intros; apply HP; repeat split; assumption).
  split.
  - match goal with |- context [wrapL _ (gL g) _ _ _ d i j k (wrapL ?w (gL g) _ _ _ d i j k ?y)] =>
      destruct (wrapL_cases w (gL g) _ _ _ d i j k y _ Hi Hj Hk PL) as [-> | ->] end;
    match goal with |- context [wrapL ?w (gL g) _ _ _ d i j k ?y] => destruct (wrapL_cases w (gL g) _ _ _ d i j k y _ Hi Hj Hk PL) as [-> | ->] end; auto.
  - match goal with |- context [wrapA _ (giA g) _ _ _ d i j k (wrapA ?w (giA g) _ _ _ d i j k ?y)] =>
      destruct (wrapA_cases w (giA g) _ _ _ d i j k y _ Hi Hj Hk PA) as [-> | ->] end;
    match goal with |- context [wrapA ?w (giA g) _ _ _ d i j k ?y] => destruct (wrapA_cases w (giA g) _ _ _ d i j k y _ Hi Hj Hk PA) as [-> | ->] end; auto.
Qed.

Lemma grid_even env (g : Grid R) hx hy hz : grid_obj env g -> evenly (gx g) hx -> evenly (gy g) hy -> evenly (gz g) hz ->
  prim_even g hx hy hz /\ dual_even g hx hy hz.
Proof.
  induction 1 as [x y z g E|g ar s g' Hg IH Hc]; [exact (axes_even x y z g hx hy hz E)|].
  intros Ux Uy Uz. pose proof (grid_obj_ok env g Hg) as Gk.
  assert (Sx : gx g' = gx g /\ gy g' = gy g /\ gz g' = gz g).
  { destruct (construct_spec env g ar s g' Gk Hc) as
      (bo & M & _ & _ & _ & _ & _ & _ & _ & _ & _ & _ & _ & _ & _ & _ & _ & _ & _ & _ & _ & _ & _ & _ & _ & _ & _ & ->). auto. }
  destruct Sx as (Sx & Sy & Sz). rewrite Sx in Ux. rewrite Sy in Uy. rewrite Sz in Uz. destruct (IH Ux Uy Uz) as [P D].
  destruct (used_even env g ar s g' hx hy hz Gk Hc P D) as (_ & _ & _ & X & Y). auto.
Qed.
