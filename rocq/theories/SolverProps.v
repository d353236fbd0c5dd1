(** Properties C16-C18, C21-C23, C72-C74: laws of the update.
    [made env g g' ar s]: s is a solver built on grid g with arguments ar, after any history of
    steps, writes, resets and loads; g' is the grid object as the constructor left it. *)
From Coq Require Import List Arith ZArith Bool String Lia QArith Qcanon.
From Verif Require Import Num Vec FieldModel FieldSpec GridModel GridProofs SolverModel SolverPlanes SolverKern SolverCons
  SolverSpec SolverFlux SolverEnergy SolverOps SolverFrozen SolverLocal SolverMaxwell SolverKit.
Import ListNotations.
Open Scope nat_scope.

(** Sample configuration: graded 3x3x3 grid, pec box, one dielectric cell. *)
Definition mask_at (l : list nat) : list bool := tab 27 (fun n => existsb (Nat.eqb n) l).
Definition boxA : Args Qc := argsQ (bcs "pec") (bcs "Electric") vac
  [{| so_key := "block"; so_mask := mask_at [13]; so_mat := MName "dielectric" |}].
Definition Aface (d i j k : nat) : Qc := ninv (entry (giA gridQ) d i j k).
Definition epsA (d i j k : nat) : Qc := if (i =? 1) && (j =? 1) && (k =? 1) then q 10 1 else q 1 1.

Section Generic.
  Local Open Scope num_scope.

(** C72.  Faraday's law for every face whose four edges are stored. *)
Theorem C72_faraday : forall (T : Type) (NT : Num T) (LT : NumLaws T) (OT : NumOrd T) env g g' ar (s s' : Solver T)
    V d i j k,
  made env g g' ar s -> one_step s = Ok s' ->
  (sstep0 s = false \/ ghosts_zero (gNx g) (gNy g) (gNz g) (entry (sE s)) (entry (sH s))) ->
  (forall a, (a < 3)%nat -> ~ magnetic (bc_at (sbl s) a) /\ ~ magnetic (bc_at (sbh s) a)) ->
  voltage g s V -> full_face (gNx g) (gNy g) (gNz g) d i j k ->
  entry (sH s') d i j k = entry (sH s) d i j k -
    sdt s * (entry (giA g) d i j k * entry (simu s) d i j k * around_face V d i j k).
Proof. intros. eapply faraday; eassumption. Qed.

(** C73.  Ampere's law for every edge whose four dual edges are stored; an edge of an electric
    wall feels only the current. *)
Theorem C73_ampere : forall (T : Type) (NT : Num T) (LT : NumLaws T) (OT : NumOrd T) env g g' ar (s s' : Solver T) d i j k,
  made env g g' ar s -> one_step s = Ok s' ->
  (sstep0 s = false \/ ghosts_zero (gNx g) (gNy g) (gNz g) (entry (sE s)) (entry (sH s))) ->
  (forall a, (a < 3)%nat -> ~ magnetic (bc_at (sbl s) a) /\ ~ magnetic (bc_at (sbh s) a)) ->
  in_box (gNx g) (gNy g) (gNz g) d i j k ->
  (electric_wall (sbl s) (sbh s) (gNx g) (gNy g) (gNz g) d i j k ->
     entry (sE s') d i j k = entry (sE s) d i j k - sdt s * (entry (sieps s) d i j k * entry (sJ s) d i j k)) /\
  (~ electric_wall (sbl s) (sbh s) (gNx g) (gNy g) (gNz g) d i j k ->
   full_edge (gNx g) (gNy g) (gNz g) d i j k ->
     entry (sE s') d i j k = entry (sE s) d i j k + sdt s *
       (entry (sieps s) d i j k * entry (gitA g') d i j k *
          around_edge (fun c a b e => entry (gtL g') c a b e * entry (sH s') c a b e) d i j k
        - entry (sieps s) d i j k * entry (sJ s) d i j k)).
Proof. intros. eapply ampere; eassumption. Qed.

(** C74.  A built solver never gets stuck. *)
Theorem C74_run_total : forall (T : Type) (NT : Num T) (LT : NumLaws T) (OT : NumOrd T) env g g' ar (s : Solver T) h,
  made env g g' ar s ->
  let N := (3 * (gNx g * gNy g * gNz g))%nat in
  Forall (fun o => match o with
                   | OStep | OReset => True
                   | OWriteE l | OWriteH l | OWriteJ l => List.length l = N
                   | OLoad f => List.length (stE f) = N /\ List.length (stH f) = N /\ List.length (stJ f) = N
                   end) h ->
  exists s', run s h = Ok s' /\ made env g g' ar s'.
Proof. intros. apply run_total; assumption. Qed.

(** C16 *)
Theorem C16_flux_conserved : forall (T : Type) (NT : Num T) (LT : NumLaws T) (OT : NumOrd T) env g g' ar (s s' : Solver T) h
    (mu A : nat -> nat -> nat -> nat -> T) i j k,
  made env g g' ar s -> run s h = Ok s' -> Forall keeps_H h ->
  (forall a, (a < 3)%nat -> ~ magnetic (bc_at (sbl s) a) /\ ~ magnetic (bc_at (sbh s) a)) ->
  (S i < gNx g)%nat -> (S j < gNy g)%nat -> (S k < gNz g)%nat ->
  (forall d a b c, In (d, a, b, c) (six_faces i j k) ->
     mu d a b c * entry (simu s) d a b c = 1 /\ A d a b c * entry (giA g) d a b c = 1) ->
  out_flux (fun d i j k => mu d i j k * A d i j k * entry (sH s') d i j k) i j k =
  out_flux (fun d i j k => mu d i j k * A d i j k * entry (sH s) d i j k) i j k.
Proof. intros. eapply flux_conserved; eassumption. Qed.

(** C17 *)
Theorem C17_charge_continuity : forall (T : Type) (NT : Num T) (LT : NumLaws T) (OT : NumOrd T) env g g' ar (s s' : Solver T)
    (eps tA : nat -> nat -> nat -> nat -> T) i j k,
  made env g g' ar s -> one_step s = Ok s' ->
  (0 < i)%nat -> (0 < j)%nat -> (0 < k)%nat ->
  (S i < gNx g)%nat -> (S j < gNy g)%nat -> (S k < gNz g)%nat ->
  (forall d a b c, In (d, a, b, c) (six_edges i j k) ->
     eps d a b c * entry (sieps s) d a b c = 1 /\ tA d a b c * entry (gitA g') d a b c = 1) ->
  out_flux_dual (fun d i j k => eps d i j k * tA d i j k * entry (sE s') d i j k) i j k =
  out_flux_dual (fun d i j k => eps d i j k * tA d i j k * entry (sE s) d i j k) i j k
  - sdt s * out_flux_dual (fun d i j k => tA d i j k * entry (sJ s) d i j k) i j k.
Proof. intros. eapply charge_step; eassumption. Qed.

(** C18 *)
Theorem C18_energy_conserved : forall (T : Type) (NT : Num T) (LT : NumLaws T) (OT : NumOrd T) env g g' ar
    (s s0 s1 s2 : Solver T) n (eps tA mu A : nat -> nat -> nat -> nat -> T),
  made env g g' ar s -> sstep0 s = false -> scond s = false ->
  (forall d i j k, in_box (gNx g) (gNy g) (gNz g) d i j k -> entry (sJ s) d i j k = 0) ->
  (forall d i j k, in_box (gNx g) (gNy g) (gNz g) d i j k ->
     mu d i j k * entry (simu s) d i j k = 1 /\ A d i j k * entry (giA g) d i j k = 1) ->
  (forall d i j k, in_box (gNx g) (gNy g) (gNz g) d i j k ->
     (eps d i j k * entry (sieps s) d i j k = 1 /\ tA d i j k * entry (gitA g') d i j k = 1) \/
     ((entry (sieps s) d i j k = 0 \/ entry (gitA g') d i j k = 0) /\
      (entry (sE s) d i j k = 0 \/ electric_wall (sbl s) (sbh s) (gNx g) (gNy g) (gNz g) d i j k))) ->
  one_step s = Ok s0 -> steps s n = Ok s1 -> one_step s1 = Ok s2 ->
  energy g g' eps tA mu A s1 s2 = energy g g' eps tA mu A s s0.
Proof. intros. eapply energy_conserved; eassumption. Qed.

(** C21 *)
Theorem C21_superposition : forall (T : Type) (NT : Num T) (LT : NumLaws T) (OT : NumOrd T) env g g' ar p q
    (s1 s2 s3 : Solver T) h1 h2 h3 t1 t2 t3,
  made env g g' ar s1 -> made env g g' ar s2 -> made env g g' ar s3 ->
  sstep0 s1 = sstep0 s3 -> sstep0 s2 = sstep0 s3 ->
  states_lin p q (gNx g) (gNy g) (gNz g) s1 s2 s3 -> hist_lin p q h1 h2 h3 ->
  run s1 h1 = Ok t1 -> run s2 h2 = Ok t2 -> run s3 h3 = Ok t3 ->
  states_lin p q (gNx g) (gNy g) (gNz g) t1 t2 t3.
Proof. exact (fun T NT LT OT => @superposition T NT LT OT). Qed.

(** C22 *)
Theorem C22_silence : forall (T : Type) (NT : Num T) (LT : NumLaws T) (OT : NumOrd T) env g g' ar (s : Solver T) n s',
  made env g g' ar s -> steps s n = Ok s' ->
  (forall d i j k, in_box (gNx g) (gNy g) (gNz g) d i j k ->
     entry (sE s) d i j k = 0 /\ entry (sH s) d i j k = 0 /\ entry (sJ s) d i j k = 0) ->
  forall d i j k, in_box (gNx g) (gNy g) (gNz g) d i j k ->
     entry (sE s') d i j k = 0 /\ entry (sH s') d i j k = 0 /\ entry (sJ s') d i j k = 0.
Proof. exact (fun T NT LT OT => @silence T NT LT OT). Qed.

(** C23 *)
Theorem C23_light_cone : forall (T : Type) (NT : Num T) (LT : NumLaws T) (OT : NumOrd T) env g g' ar
    (s1 s2 : Solver T) i j k n h1 h2 t1 t2,
  made env g g' ar s1 -> made env g g' ar s2 -> sstep0 s1 = sstep0 s2 ->
  (forall a, (a < 3)%nat -> electric (bc_at (sbl s1) a) /\ electric (bc_at (sbh s1) a)) ->
  states_agree (gNx g) (gNy g) (gNz g) n i j k s1 s2 ->
  cone (gNx g) (gNy g) (gNz g) i j k n h1 h2 ->
  run s1 h1 = Ok t1 -> run s2 h2 = Ok t2 ->
  (i < gNx g)%nat -> (j < gNy g)%nat -> (k < gNz g)%nat ->
  forall d, (d < 3)%nat -> entry (sE t1) d i j k = entry (sE t2) d i j k /\
    entry (sH t1) d i j k = entry (sH t2) d i j k /\ entry (sJ t1) d i j k = entry (sJ t2) d i j k.
Proof. exact (fun T NT LT OT => @light_cone T NT LT OT). Qed.
End Generic.
Print Assumptions C72_faraday.
Print Assumptions C73_ampere.
Print Assumptions C74_run_total.
Print Assumptions C16_flux_conserved.
Print Assumptions C17_charge_continuity.
Print Assumptions C18_energy_conserved.
Print Assumptions C21_superposition.
Print Assumptions C22_silence.
Print Assumptions C23_light_cone.

(** ** Cases meeting the hypotheses: the sample box after writes and a step *)
Definition startA : list (op Qc) := [OWriteE (ramp 3); OWriteH (ramp 5); OStep].
Definition wallb (s : Solver Qc) (d i j k : nat) : bool :=
  match deciding_wall (sbl s) (sbh s) 3 3 3 d i j k with Some n => is_pec n | None => false end.
Definition one (x y : Qc) : bool := neqb (nmul x y) none_.
Definition chkA (s : Solver Qc) (g' : Grid Qc) : bool :=
  negb (scond s) &&
  all_box 3 3 3 (fun d i j k => one (q 1 1) (entry (simu s) d i j k) && one (Aface d i j k) (entry (giA gridQ) d i j k)) &&
  all_box 3 3 3 (fun d i j k =>
    (one (epsA d i j k) (entry (sieps s) d i j k) && one (ninv (entry (gitA g') d i j k)) (entry (gitA g') d i j k)) ||
    (neqb (entry (gitA g') d i j k) nzero && wallb s d i j k)).

Lemma wallb_wall s d i j k : wallb s d i j k = true -> electric_wall (sbl s) (sbh s) 3 3 3 d i j k.
Proof.
  unfold wallb, electric_wall. destruct (deciding_wall _ _ _ _ _ _ _ _ _) as [n|]; [|discriminate].
  intros H. exists n. split; [reflexivity|]. apply is_pec_electric. exact H.
Qed.
Lemma one_eq x y : one x y = true -> (x * y = 1)%Qc.
Proof. apply neqb_eq. Qed.
Lemma entry_zeros Nx Ny Nz d i j k : in_box Nx Ny Nz d i j k -> entry (field_zeros Nx Ny Nz : Field Qc) d i j k = q 0 1.
Proof.
  intros (Hd & Hi & Hj & Hk). rewrite (entry_ix _ Nx Ny Nz) by apply sized_zeros.
  unfold field_zeros. cbn [farr]. pose proof (ix_lt Nx Ny Nz d i j k Hd Hi Hj Hk).
  rewrite get_tab; [reflexivity|lia].
Qed.
Lemma dimsQ : gNx gridQ = 3 /\ gNy gridQ = 3 /\ gNz gridQ = 3.
Proof. vm_compute. repeat split. Qed.

(** Meets the hypotheses of C16 (cell (0,0,0)), C17 (node (1,1,1)), C18, C22 (after a reset),
    C37 and C72-C74. *)
Example boxA_case : exists g' s0 s, construct envQ gridQ boxA = Ok (s0, g') /\ run s0 startA = Ok s /\
  made envQ gridQ g' boxA s /\ sstep0 s = false /\ scond s = false /\
  (forall a, a < 3 -> electric (bc_at (sbl s) a) /\ electric (bc_at (sbh s) a)) /\
  (forall d i j k, in_box 3 3 3 d i j k -> entry (sJ s) d i j k = q 0 1) /\
  (forall d i j k, in_box 3 3 3 d i j k ->
     (q 1 1 * entry (simu s) d i j k = 1 /\ Aface d i j k * entry (giA gridQ) d i j k = 1)%Qc) /\
  (forall d i j k, in_box 3 3 3 d i j k ->
     (epsA d i j k * entry (sieps s) d i j k = 1 /\ (/ entry (gitA g') d i j k) * entry (gitA g') d i j k = 1)%Qc \/
     entry (gitA g') d i j k = q 0 1 /\ electric_wall (sbl s) (sbh s) 3 3 3 d i j k) /\
  entry (sE s) 0 0 1 1 = q 65 24.
Proof.
  assert (H : simulate2 envQ gridQ boxA chkA [(startA, (0, (0, 0, 1, 1), q 65 24) :: all_obs 2 (q 0 1))] = true).
  { vm_compute. reflexivity. }
  destruct (simulated3 _ _ _ _ _ gridQ_obj H) as (s0 & g' & Hc & Hm & Hk & F).
  inversion F as [|? ? [s K] _]; subst. cbn [fst snd] in K.
  destruct K as (R & O & Hm1 & Hf & Eie & Emu & Esg & Edt & Eco & Ebl & Ebh & _).
  exists g', s0, s. split; [exact Hc|]. split; [exact R|]. split; [exact Hm1|]. split; [exact Hf|].
  unfold chkA in Hk. rewrite !andb_true_iff in Hk. destruct Hk as [[K1 K2] K3].
  pose proof (all_box_ok 3 3 3 _ K2) as B2. pose proof (all_box_ok 3 3 3 _ K3) as B3. cbv beta in B2, B3.
  inversion O as [|? ? O1 O2]; subst. rewrite Eco, Emu, Eie, Ebl, Ebh.
  split; [destruct (scond s0); [discriminate|reflexivity]|].
  split.
  { assert (Z : (sbl s0, sbh s0) = (bcs "pec", bcs "Electric")).
    { destruct (made_values _ _ _ _ _ Hm) as (M & bo & _ & _ & A & _). exact A. }
    injection Z as -> ->. intros a Ha. unfold electric.
    destruct a as [|[|[|a]]]; cbn; auto; lia. }
  split; [apply (all_obs_hold 2 _ s O2)|].
  split.
  { intros d i j k Hb. specialize (B2 d i j k Hb). apply andb_true_iff in B2. destruct B2 as [X Y].
    split; apply one_eq; assumption. }
  split; [|exact O1].
  intros d i j k Hb. specialize (B3 d i j k Hb). apply orb_true_iff in B3. destruct B3 as [B|B]; apply andb_true_iff in B; destruct B as [X Y].
  - left. split; apply one_eq; assumption.
  - right. split; [apply neqb_eq; exact X|]. apply wallb_wall. exact Y.
Qed.

Definition comb (p r : Qc) (a b : list Qc) : list Qc := tab 81 (fun n => p * get a n + r * get b n)%Qc.
Lemma comb_lin p r m m' : arr_lin p r (ramp m) (ramp m') (comb p r (ramp m) (ramp m')).
Proof.
  unfold comb, ramp. split; [rewrite !tab_length; reflexivity|]. split; [rewrite !tab_length; reflexivity|].
  rewrite tab_length. intros n Hn. rewrite (get_tab 81 (fun n => _ + _)%Qc) by exact Hn. reflexivity.
Qed.
Example C21_case : exists g' s0 t1 t2 t3,
  let h1 := [OWriteE (ramp 3); OWriteJ (ramp 2); OStep; OWriteH (ramp 1); OStep] in
  let h2 := [OWriteE (ramp 5); OWriteJ (ramp 6); OStep; OWriteH (ramp 4); OStep] in
  let h3 := [OWriteE (comb (q 2 1) (q (-3) 1) (ramp 3) (ramp 5)); OWriteJ (comb (q 2 1) (q (-3) 1) (ramp 2) (ramp 6)); OStep;
             OWriteH (comb (q 2 1) (q (-3) 1) (ramp 1) (ramp 4)); OStep] in
  made envQ gridQ g' boxA s0 /\ states_lin (q 2 1) (q (-3) 1) 3 3 3 s0 s0 s0 /\
  hist_lin (q 2 1) (q (-3) 1) h1 h2 h3 /\ run s0 h1 = Ok t1 /\ run s0 h2 = Ok t2 /\ run s0 h3 = Ok t3 /\
  states_lin (q 2 1) (q (-3) 1) 3 3 3 t1 t2 t3.
Proof.
  destruct boxA_case as (g' & s0 & s & Hc & _). exists g', s0.
  set (h1 := [OWriteE (ramp 3); _; _; _; _]). set (h2 := [OWriteE (ramp 5); _; _; _; _]).
  set (h3 := [OWriteE (comb _ _ _ _); _; _; _; _]).
  assert (Hm : made envQ gridQ g' boxA s0) by (constructor; [exact gridQ_obj|exact Hc]).
  destruct (C74_run_total _ _ _ _ _ _ _ _ s0 h1 Hm) as [t1 [R1 _]]; [repeat constructor|].
  destruct (C74_run_total _ _ _ _ _ _ _ _ s0 h2 Hm) as [t2 [R2 _]]; [repeat constructor|].
  destruct (C74_run_total _ _ _ _ _ _ _ _ s0 h3 Hm) as [t3 [R3 _]]; [repeat constructor|].
  exists t1, t2, t3. cbv zeta.
  assert (A : states_lin (q 2 1) (q (-3) 1) 3 3 3 s0 s0 s0).
  { destruct (construct_new _ _ _ _ _ gridQ_obj Hc) as (E1 & E2 & E3 & _). unfold states_lin. rewrite E1, E2, E3.
    destruct dimsQ as (-> & -> & ->).
    repeat split; intros d i j k Hb; rewrite !entry_zeros by exact Hb; reflexivity. }
  assert (B : hist_lin (q 2 1) (q (-3) 1) h1 h2 h3).
  { repeat constructor; apply comb_lin. }
  repeat (split; [assumption|]).
  exact (C21_superposition _ _ _ _ _ _ _ _ _ _ s0 s0 s0 h1 h2 h3 t1 t2 t3 Hm Hm Hm eq_refl eq_refl A B R1 R2 R3).
Qed.

(** Two starts that differ only in the far corner (2,2,2). *)
Definition far : list Qc := tab 81 (fun n => if n =? 26 then q 7 1 else get (ramp 3) n).
Example C23_case : exists g' s0 t1 t2, made envQ gridQ g' boxA s0 /\
  cone 3 3 3 0 0 0 1 [OWriteE (ramp 3); OStep] [OWriteE far; OStep] /\
  run s0 [OWriteE (ramp 3); OStep] = Ok t1 /\ run s0 [OWriteE far; OStep] = Ok t2 /\
  entry (sE t1) 2 0 0 0 = entry (sE t2) 2 0 0 0 /\ ramp 3 <> far.
Proof.
  destruct boxA_case as (g' & s0 & s & Hc & R & Hs & _ & _ & El & _). exists g', s0.
  assert (Hm : made envQ gridQ g' boxA s0) by (constructor; [exact gridQ_obj|exact Hc]).
  destruct (run_conf _ _ _ _ _ _ _ Hm R) as (_ & _ & _ & _ & _ & Ebl & Ebh & _). rewrite Ebl, Ebh in El.
  destruct (C74_run_total _ _ _ _ _ _ _ _ s0 [OWriteE (ramp 3); OStep] Hm) as [t1 [R1 _]]; [repeat constructor|].
  destruct (C74_run_total _ _ _ _ _ _ _ _ s0 [OWriteE far; OStep] Hm) as [t2 [R2 _]]; [repeat constructor|].
  exists t1, t2. split; [exact Hm|].
  assert (B : cone 3 3 3 0 0 0 1 [OWriteE (ramp 3); OStep] [OWriteE far; OStep]).
  { constructor; [|repeat constructor]. unfold arrs_agree.
    assert (X : all_box 3 3 3 (fun d i j k => (2 <=? i) || (2 <=? j) || (2 <=? k) ||
      neqb (written 3 3 3 (ramp 3) d i j k) (written 3 3 3 far d i j k)) = true) by (vm_compute; reflexivity).
    intros d a b c Hb Hn. pose proof (all_box_ok 3 3 3 _ X d a b c Hb) as Y. cbv beta in Y.
    unfold near in Hn. rewrite !orb_true_iff, !Nat.leb_le in Y. destruct Y as [[[Y|Y]|Y]|Y]; [lia..|].
    apply neqb_eq. exact Y. }
  split; [exact B|]. split; [exact R1|]. split; [exact R2|]. split.
  - destruct dimsQ as (Ex & Ey & Ez).
    assert (C : cone (gNx gridQ) (gNy gridQ) (gNz gridQ) 0 0 0 1 [OWriteE (ramp 3); OStep] [OWriteE far; OStep])
      by (rewrite Ex, Ey, Ez; exact B).
    apply (C23_light_cone _ _ _ _ _ _ _ _ s0 s0 0 0 0 1 [OWriteE (ramp 3); OStep] [OWriteE far; OStep] t1 t2 Hm Hm eq_refl El); try assumption; try (rewrite ?Ex, ?Ey, ?Ez; lia).
    repeat split.
  - intros E. apply (f_equal (fun l => this (get l 26))) in E. vm_compute in E. discriminate.
Qed.
