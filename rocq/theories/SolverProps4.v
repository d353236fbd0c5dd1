(** Properties C19, C33-C36: time step, conductors and absorbing layers. *)
From Coq Require Import List Arith ZArith Bool String Lia Reals Lra QArith Qcanon.
From Verif Require Import Num Vec FieldModel FieldSpec FieldProofs GridModel GridProofs SolverModel SolverPlanes SolverBuild SolverMaterials
  SolverKern SolverCons SolverSpec SolverFlux SolverEnergy SolverOps SolverFrozen SolverLocal SolverRestart SolverNames SolverKit
  SolverTime SolverPmlSpec SolverPml SolverConstruct SolverPmlR SolverProps.
Import ListNotations.
Open Scope nat_scope.

(** Real-number setting: positive constants, real square root. *)
Definition real_env (env : Env R) : Prop :=
  e_sqrt env = sqrt /\ (0 < e_c env)%R /\ (0 < e_eps0 env)%R.
Definition passive_setup (env : Env R) (g : Grid R) (ar : Args R) : Prop :=
  passive (ar_bg ar) /\ (forall so, In so (ar_solids ar) -> passive (so_mat so)) /\
  (forall dt, ar_dt ar = Some dt -> (0 < dt)%R) /\ (0 < ar_cfln ar)%R /\
  increasing (gx g) /\ increasing (gy g) /\ increasing (gz g).
Definition layers_fit (env : Env R) (g : Grid R) (ar : Args R) : Prop :=
  real_pml env /\ 1 <= ar_npml ar /\ forall a, a < 3 -> 2 * ar_npml ar + 2 <= dim a (gNx g) (gNy g) (gNz g).

(** C33.  [entry (sieps s)] is 1/eps, zero in perfect conductors. *)
Theorem C33_time_step : forall env g g' ar (s : Solver R), made env g g' ar s ->
  real_env env -> passive_setup env g ar -> (spml s = true -> layers_fit env g ar) ->
  (0 < sdt s)%R /\
  (ar_dt ar = None -> forall a b c, In a (diff (gx g)) -> In b (diff (gy g)) -> In c (diff (gz g)) ->
     sdt s * sdt s * (e_c env * e_c env) * (/ (a * a) + / (b * b) + / (c * c)) <= ar_cfln ar * ar_cfln ar)%R /\
  (forall dt, ar_dt ar = Some dt -> (sdt s <= dt)%R) /\
  (scond s = true -> forall d i j k, in_box (gNx g) (gNy g) (gNz g) d i j k ->
     (0 < entry (ssigma s) d i j k)%R -> (0 < entry (sieps s) d i j k)%R ->
     (sdt s * entry (ssigma s) d i j k * entry (sieps s) d i j k <= 1)%R).
Proof.
  intros env g g' ar s Hm (Hs & Hc & H0) (Pb & Ps & Hd & Hf & Ix & Iy & Iz) Hp.
  destruct (step_bounds _ _ _ _ _ Hm Hs Hc Hf Ix Iy Iz) as (A & B & C & D).
  destruct (made_nonneg _ _ _ _ _ Hm H0 Pb Ps Hp) as [N1 N2]. specialize (D Hd N1 N2).
  split; [exact D|]. split; [intros E; apply A; [exact E|lra]|]. split; [exact B|exact C].
Qed.
Print Assumptions C33_time_step.

(** C19.  s1: after a step; s2: one step later; u: the same step with the conduction current
    removed.  The conduction part of the step replaces E by rho E with 0 <= rho < 1. *)
Theorem C19_damping : forall env g g' ar (s s1 s2 u : Solver R), made env g g' ar s ->
  real_env env -> passive_setup env g ar -> (spml s = true -> layers_fit env g ar) -> scond s = true ->
  run s [OStep] = Ok s1 -> run s1 [OStep] = Ok s2 -> run s1 [OWriteJ [0%R]; OStep] = Ok u ->
  forall d i j k, in_box (gNx g) (gNy g) (gNz g) d i j k ->
  (0 < entry (ssigma s) d i j k)%R -> (0 < entry (sieps s) d i j k)%R ->
  exists rho, (0 <= rho < 1)%R /\
    (rho = 1 - sdt s * entry (ssigma s) d i j k * entry (sieps s) d i j k)%R /\
    (entry (sE s2) d i j k - entry (sE u) d i j k = rho * entry (sE s1) d i j k - entry (sE s1) d i j k)%R.
Proof.
  intros env g g' ar s s1 s2 u Hm He Hs Hp Hc R1 R2 R3 d i j k Hb Sg Ie.
  destruct (C33_time_step _ _ _ _ _ Hm He Hs Hp) as (D & _ & _ & B).
  specialize (B Hc d i j k Hb Sg Ie).
  destruct (@ohmic R Num_R NumLaws_R NumOrd_R env g g' ar s s1 s2 u Hm Hc R1 R2 R3 d i j k Hb) as [_ O].
  exists (1 - sdt s * entry (ssigma s) d i j k * entry (sieps s) d i j k)%R. split.
  - assert (0 < sdt s * entry (ssigma s) d i j k * entry (sieps s) d i j k)%R by (repeat apply Rmult_lt_0_compat; assumption). lra.
  - split; [reflexivity|]. rewrite O. cbn. ring.
Qed.
Print Assumptions C19_damping.

(** C34.  Full claim: every solver with a three-entry material or a pml wall is built.  False: a
    background with conductivity 0 makes np.min of an empty array, and a layer thicker than the
    grid reads outside it. *)
Theorem C34_conductive_refuted :
  construct envQ gridQ (argsQ (bcs "pec") (bcs "pec") (MList (Fin (q 1 1)) (Fin (q 1 1)) (Some (q 0 1))) []) = Err ValueError /\
  construct envQ gridQ {| ar_bl := bcs "pml"; ar_bh := bcs "pec"; ar_bg := vac; ar_solids := []; ar_npml := 2;
                          ar_cfln := q 1 2; ar_dt := None; ar_mpi := None |} = Err IndexError.
Proof. split; vm_compute; reflexivity. Qed.
Print Assumptions C34_conductive_refuted.

(** What holds, over any field: the solver is built if nothing conducts, or if some cell outside
    the layers has a nonzero conductivity and a finite permittivity. *)
Theorem C34_conductive_partial : forall (T : Type) (NT : Num T) (LT : NumLaws T) (OT : NumOrd T) env (g : Grid T) ar ebg bl bh,
  grid_obj env g -> find_material (ar_bg ar) = Ok ebg ->
  valid_solids (gNx g) (gNy g) (gNz g) (ar_solids ar) -> mpi_bc (ar_mpi ar) (ar_bl ar) (ar_bh ar) = (bl, bh) ->
  (has_pml bl bh = true -> room_for env (ar_npml ar) (gNx g) (gNy g) (gNz g)) ->
  ((has_pml bl bh = false /\ me_sigma ebg = None /\
    forall so e, In so (ar_solids ar) -> find_material (so_mat so) = Ok e -> me_sigma e = None) \/
   exists i j k m e x r, i < gNx g /\ j < gNy g /\ k < gNz g /\
     outside (ar_npml ar) bl bh (gNx g) (gNy g) (gNz g) i j k /\
     decides (gNy g) (gNz g) (ar_bg ar) (ar_solids ar) i j k m /\ find_material m = Ok e /\
     me_sigma e = Some x /\ x <> nzero /\ me_eps e = Fin r /\ ndiv none_ (nmul r (e_eps0 env)) <> nzero) ->
  exists s g', construct env g ar = Ok (s, g').
Proof. exact (fun T NT LT OT => @construct_conductive T NT LT OT). Qed.
Print Assumptions C34_conductive_partial.
(** With pml walls: passive materials, room for the layers, and a finite permittivity in the cell
    from which the last pml wall (order x-, y-, z-, x+, y+, z+) takes its material. *)
Theorem C34_pml_partial : forall env (g : Grid R) ar ebg bl bh f l1 l2 m e r, grid_obj env g ->
  find_material (ar_bg ar) = Ok ebg -> valid_solids (gNx g) (gNy g) (gNz g) (ar_solids ar) ->
  mpi_bc (ar_mpi ar) (ar_bl ar) (ar_bh ar) = (bl, bh) -> layers_fit env g ar ->
  (0 < e_eps0 env)%R -> passive (ar_bg ar) -> (forall so, In so (ar_solids ar) -> passive (so_mat so)) ->
  pml_faces = l1 ++ f :: l2 -> lower (wall_name bl bh f) = "pml"%string ->
  (forall f', In f' l2 -> lower (wall_name bl bh f') <> "pml"%string) ->
  (let '(i, j, k) := ref_cell (ar_npml ar) (gNx g) (gNy g) (gNz g) f in
   decides (gNy g) (gNz g) (ar_bg ar) (ar_solids ar) i j k m) ->
  find_material m = Ok e -> me_eps e = Fin r -> (0 < r)%R ->
  exists s g', construct env g ar = Ok (s, g').
Proof.
  intros env g ar ebg bl bh f l1 l2 m e r Hg Hb Hv Hmp (A & B & C). intros.
  exact (construct_pml env g ar ebg bl bh f l1 l2 m e r Hg Hb Hv Hmp A B C ltac:(assumption) ltac:(assumption)
    ltac:(assumption) ltac:(assumption) ltac:(assumption) ltac:(assumption) ltac:(assumption) ltac:(assumption) ltac:(assumption) ltac:(assumption)).
Qed.
Print Assumptions C34_pml_partial.

(** C35.  s2: any solver on the same grid with the same materials and no pml wall.  Outside the
    layers the materials agree; in a layer the permittivity is that of the reference cell and the
    conductivity is the reference value plus max-scaled profile. *)
Theorem C35_layers : forall (T : Type) (NT : Num T) (LT : NumLaws T) (OT : NumOrd T) env g g' ar (s : Solver T) g2' ar2 s2,
  made env g g' ar s -> made env g g2' ar2 s2 ->
  ar_bg ar2 = ar_bg ar -> ar_solids ar2 = ar_solids ar -> spml s2 = false ->
  room_for env (ar_npml ar) (gNx g) (gNy g) (gNz g) ->
  forall c i j k, c < 3 -> i < gNx g -> j < gNy g -> k < gNz g ->
    (outside (ar_npml ar) (sbl s) (sbh s) (gNx g) (gNy g) (gNz g) i j k ->
       entry (sieps s) c i j k = entry (sieps s2) c i j k /\ entry (ssigma s) c i j k = entry (ssigma s2) c i j k) /\
    (forall f, decided_by (ar_npml ar) (sbl s) (sbh s) (gNx g) (gNy g) (gNz g) f i j k ->
       entry (sieps s) c i j k = entry3 (sieps s2) c (ref_cell (ar_npml ar) (gNx g) (gNy g) (gNz g) f) /\
       entry (ssigma s) c i j k = graded (entry3 (ssigma s2) c (ref_cell (ar_npml ar) (gNx g) (gNy g) (gNz g) f))
                                    (profile env (ar_npml ar) f (depth (gNx g) (gNy g) (gNz g) f i j k))).
Proof. exact (fun T NT LT OT => @made_layers T NT LT OT). Qed.
Print Assumptions C35_layers.
Theorem C35_graded : forall env g g' ar (s : Solver R) g2' ar2 s2, made env g g' ar s -> made env g g2' ar2 s2 ->
  ar_bg ar2 = ar_bg ar -> ar_solids ar2 = ar_solids ar -> spml s2 = false -> layers_fit env g ar ->
  forall f c i j k, in_box (gNx g) (gNy g) (gNz g) c i j k ->
  decided_by (ar_npml ar) (sbl s) (sbh s) (gNx g) (gNy g) (gNz g) f i j k ->
  (entry3 (ssigma s2) c (ref_cell (ar_npml ar) (gNx g) (gNy g) (gNz g) f) < entry (ssigma s) c i j k)%R /\
  forall i' j' k', in_box (gNx g) (gNy g) (gNz g) c i' j' k' ->
    decided_by (ar_npml ar) (sbl s) (sbh s) (gNx g) (gNy g) (gNz g) f i' j' k' ->
    depth (gNx g) (gNy g) (gNz g) f i j k < depth (gNx g) (gNy g) (gNz g) f i' j' k' ->
    (entry (ssigma s) c i' j' k' < entry (ssigma s) c i j k)%R.
Proof.
  intros env g g' ar s g2' ar2 s2 Hm Hm2 Eb Es Hp (A & B & C).
  exact (layers_grow env g g' ar s g2' ar2 s2 Hm Hm2 Eb Es Hp A B C).
Qed.
Print Assumptions C35_graded.
(** Every cell is outside the layers or decided by one face. *)
Theorem C35_cover : forall n bl bh Nx Ny Nz i j k,
  outside n bl bh Nx Ny Nz i j k \/ exists f, decided_by n bl bh Nx Ny Nz f i j k.
Proof. exact all_faces_dec. Qed.

(** C36.  What holds: with at least two layers, cells decided by the low and the high wall of one
    axis at equal depth agree if the two reference cells of that axis do. *)
Theorem C36_mirror_partial : forall env g g' ar (s : Solver R) g2' ar2 s2 a, made env g g' ar s -> made env g g2' ar2 s2 ->
  ar_bg ar2 = ar_bg ar -> ar_solids ar2 = ar_solids ar -> spml s2 = false -> layers_fit env g ar ->
  2 <= ar_npml ar -> a < 3 ->
  (forall c, c < 3 ->
     entry3 (sieps s2) c (ref_cell (ar_npml ar) (gNx g) (gNy g) (gNz g) (false, a)) =
     entry3 (sieps s2) c (ref_cell (ar_npml ar) (gNx g) (gNy g) (gNz g) (true, a)) /\
     entry3 (ssigma s2) c (ref_cell (ar_npml ar) (gNx g) (gNy g) (gNz g) (false, a)) =
     entry3 (ssigma s2) c (ref_cell (ar_npml ar) (gNx g) (gNy g) (gNz g) (true, a))) ->
  forall c i j k, in_box (gNx g) (gNy g) (gNz g) c i j k ->
  decided_by (ar_npml ar) (sbl s) (sbh s) (gNx g) (gNy g) (gNz g) (false, a) i j k ->
  (let '(i', j', k') := mirror a (gNx g) (gNy g) (gNz g) i j k in
   decided_by (ar_npml ar) (sbl s) (sbh s) (gNx g) (gNy g) (gNz g) (true, a) i' j' k') ->
  entry (sieps s) c i j k = entry3 (sieps s) c (mirror a (gNx g) (gNy g) (gNz g) i j k) /\
  entry (ssigma s) c i j k = entry3 (ssigma s) c (mirror a (gNx g) (gNy g) (gNz g) i j k).
Proof.
  intros env g g' ar s g2' ar2 s2 a Hm Hm2 Eb Es Hp (A & B & C) Hn Ha.
  exact (layers_mirror env g g' ar s g2' ar2 s2 a Hm Hm2 Eb Es Hp A Hn Ha C).
Qed.
Print Assumptions C36_mirror_partial.

(** ** Cases over the reals: unit cells, positive constants. *)
Definition envR : Env R :=
  {| e_eps0 := 1%R; e_mu0 := 1%R; e_c := 1%R; e_pml_lo := (5 / 1000)%R; e_pml_hi := 10%R;
     e_sqrt := sqrt; e_geom := geomspace |}.
Definition axR (n : nat) : list R := tab (S n) INR.
Definition argsR (n : nat) (b : string) (bg : material R) (dt : option R) : Args R :=
  {| ar_bl := bcs b; ar_bh := bcs b; ar_bg := bg; ar_solids := []; ar_npml := n; ar_cfln := (1 / 2)%R;
     ar_dt := dt; ar_mpi := None |}.
Definition vacR : material R := MName "vacuum".

Lemma axR_inc n : increasing (axR n).
Proof.
  intros i Hi. unfold axR in *. rewrite tab_length in Hi. rewrite !get_tab by lia. apply lt_INR. lia.
Qed.
Lemma cubeR n : 1 <= n -> exists g, compute_grid (axR n) (axR n) (axR n) = Ok g /\
  gx g = axR n /\ gy g = axR n /\ gz g = axR n /\ gNx g = n /\ gNy g = n /\ gNz g = n.
Proof.
  intros Hn. assert (L : List.length (axR n) = S n) by apply tab_length.
  destruct (compute_grid_spec (axR n) (axR n) (axR n)) as (g & E & Ex & Ey & Ez & _); [lia..|].
  exists g. repeat (split; [assumption|]). unfold gNx, gNy, gNz. rewrite Ex, Ey, Ez, L. lia.
Qed.
Lemma realR : real_env envR.
Proof. repeat split; cbn; lra. Qed.
Lemma pmlR : real_pml envR.
Proof. repeat split; cbn; lra. Qed.
Lemma vac_passive : passive vacR.
Proof. intros e E. change (material_lib (lower "vacuum")) with (material_lib (T := R) "vacuum") in E. injection E as <-. cbn. lra. Qed.
Lemma solids_none n (bg : material R) : decides n n bg [] 0 0 0 bg.
Proof. right. split; [intros t []|reflexivity]. Qed.

(** A conductive box: the hypotheses of C33, C34 and C19 hold. *)
Example C19_case : exists g g' ar s s1 s2 u, made envR g g' ar s /\ real_env envR /\ passive_setup envR g ar /\
  spml s = false /\ scond s = true /\ run s [OStep] = Ok s1 /\ run s1 [OStep] = Ok s2 /\
  run s1 [OWriteJ [0%R]; OStep] = Ok u /\ in_box (gNx g) (gNy g) (gNz g) 0 1 1 1 /\
  entry (ssigma s) 0 1 1 1 = (1 / 2)%R /\ entry (sieps s) 0 1 1 1 = 1%R.
Proof.
  destruct (cubeR 3 ltac:(lia)) as (g & Hc & Ex & Ey & Ez & Nx & Ny & Nz).
  set (m := MList (Fin 1%R) (Fin 1%R) (Some (1 / 2)%R)). set (ar := argsR 1 "pec" m (Some (1 / 4)%R)).
  assert (Hg : grid_obj envR g) by exact (go_axes envR _ _ _ _ Hc).
  assert (Hd : decides (gNy g) (gNz g) (ar_bg ar) (ar_solids ar) 1 1 1 m) by (right; split; [intros t []|reflexivity]).
  destruct (construct_conductive envR g ar {| me_eps := Fin 1%R; me_mu := Fin 1%R; me_sigma := Some (1 / 2)%R |}
      (bcs "pec") (bcs "pec") Hg eq_refl) as (s & g' & Hk).
  { intros so []. }
  { reflexivity. }
  { discriminate. }
  { right. exists 1, 1, 1, m. eexists. exists (1 / 2)%R, 1%R. rewrite Nx, Ny, Nz.
    repeat (split; [lia|]). split.
    - intros f Hf (A & _). cbn in Hf. repeat (destruct Hf as [<- | Hf]; [discriminate A|]). destruct Hf.
    - split; [exact (or_intror (conj (fun t (H : In t []) => match H with end) eq_refl))|]. split; [reflexivity|]. split; [reflexivity|].
      split; [cbn; lra|]. split; [reflexivity|]. cbn. lra. }
  assert (Hm : made envR g g' ar s) by (constructor; assumption).
  destruct (made_walls _ _ _ _ _ Hm) as [W P]. injection W as W1 W2. rewrite W1, W2 in P.
  destruct (made_values _ _ _ _ _ Hm) as (M & bo & _ & HM & _ & _ & Cd & Pb & _ & V).
  destruct (V P) as [V1 V2].
  destruct (C74_run_total _ _ _ _ _ _ _ _ s [OStep] Hm) as [s1 [R1 M1]]; [repeat constructor|].
  destruct (C74_run_total _ _ _ _ _ _ _ _ s1 [OStep] M1) as [s2 [R2 M2]]; [repeat constructor|].
  destruct (run_good (kern_of g g' s1) [OWriteJ [0%R]; OStep] s1 (made_good _ _ _ _ _ M1)) as [u [R3 _]].
  { constructor; [right; reflexivity|repeat constructor]. }
  exists g, g', ar, s, s1, s2, u. split; [exact Hm|]. split; [exact realR|]. split.
  { split; [intros e E; injection E as <-; cbn; lra|]. split; [intros so []|].
    split; [intros dt E; apply (f_equal (fun o => match o with Some x => x | None => dt end)) in E; cbn in E; subst; lra|].
    split; [cbn; lra|]. rewrite Ex, Ey, Ez. repeat split; apply axR_inc. }
  split; [exact P|]. split.
  { rewrite Cd. unfold build_materials in HM. change (find_material (ar_bg ar)) with (Ok {| me_eps := Fin 1%R; me_mu := Fin 1%R; me_sigma := Some (1 / 2)%R |}) in HM.
    cbn [bind me_eps me_mu me_sigma] in HM. binv HM a Ha. binv HM b Hb. binv HM c Hcc. injection HM as <-. reflexivity. }
  repeat (split; [assumption|]). rewrite Nx, Ny, Nz. split; [repeat split; lia|].
  rewrite V1, V2. rewrite Nx, Ny, Nz in HM. split.
  - apply (build_sigma_some _ _ _ _ _ _ _ _ HM 1 1 1 ltac:(lia) ltac:(lia) ltac:(lia) _ _ eq_refl eq_refl); lia.
  - destruct (build_values _ _ _ _ _ _ _ _ HM 1 1 1 ltac:(lia) ltac:(lia) ltac:(lia)) as (e & He & B).
    injection He as <-. destruct (B 0 ltac:(lia)) as [-> _]. cbn. lra.
Qed.

(** Vacuum with all walls pml, 6x6x6 cells, two layers, against the same box without layers. *)
Lemma pml_box : exists g g' s g2' s2, gNx g = 6 /\ gNy g = 6 /\ gNz g = 6 /\
  made envR g g' (argsR 2 "pml" vacR None) s /\ made envR g g2' (argsR 2 "pec" vacR None) s2 /\
  layers_fit envR g (argsR 2 "pml" vacR None) /\ passive_setup envR g (argsR 2 "pml" vacR None) /\
  sbl s = bcs "pml" /\ sbh s = bcs "pml" /\ spml s2 = false /\
  (forall c i j k, in_box 6 6 6 c i j k -> entry (ssigma s2) c i j k = 0%R /\ entry (sieps s2) c i j k = 1%R).
Proof.
  destruct (cubeR 6 ltac:(lia)) as (g & Hc & Ex & Ey & Ez & Nx & Ny & Nz).
  assert (Hg : grid_obj envR g) by exact (go_axes envR _ _ _ _ Hc).
  set (ar := argsR 2 "pml" vacR None). set (ar2 := argsR 2 "pec" vacR None).
  assert (Lf : layers_fit envR g ar).
  { split; [exact pmlR|]. rewrite Nx, Ny, Nz. cbn [ar_npml ar argsR].
    split; [lia|]. intros [|[|[|a]]] Ha; cbn [dim]; lia. }
  destruct (C34_pml_partial envR g ar {| me_eps := Fin 1%R; me_mu := Fin 1%R; me_sigma := None |} (bcs "pml") (bcs "pml")
    (true, 2) [(false, 0); (false, 1); (false, 2); (true, 0); (true, 1)] [] vacR
    {| me_eps := Fin 1%R; me_mu := Fin 1%R; me_sigma := None |} 1%R Hg eq_refl) as (s & g' & Hk).
  { intros so []. }
  { reflexivity. }
  { exact Lf. }
  { cbn. lra. }
  { exact vac_passive. }
  { intros so []. }
  { reflexivity. }
  { reflexivity. }
  { intros f []. }
  { destruct (ref_cell _ _ _ _ _) as [[ri rj] rk]. right. split; [intros t []|reflexivity]. }
  { reflexivity. }
  { reflexivity. }
  { lra. }
  destruct (C34_conductive_partial R _ _ _ envR g ar2 {| me_eps := Fin 1%R; me_mu := Fin 1%R; me_sigma := None |}
      (bcs "pec") (bcs "pec") Hg eq_refl) as (s2 & g2' & Hk2).
  { intros so []. }
  { reflexivity. }
  { discriminate. }
  { left. split; [reflexivity|]. split; [reflexivity|]. intros so e []. }
  assert (Hm : made envR g g' ar s) by (constructor; assumption).
  assert (Hm2 : made envR g g2' ar2 s2) by (constructor; assumption).
  destruct (made_walls _ _ _ _ _ Hm) as [W _]. injection W as W1 W2.
  destruct (made_walls _ _ _ _ _ Hm2) as [W' P]. injection W' as W1' W2'. rewrite W1', W2' in P.
  destruct (made_values _ _ _ _ _ Hm2) as (M & bo & _ & HM & _ & _ & Cd & Pb & _ & V).
  destruct (V P) as [V1 V2]. rewrite Nx, Ny, Nz in HM.
  exists g, g', s, g2', s2. repeat (split; [assumption|]). split.
  { split; [exact vac_passive|]. split; [intros so []|]. split; [intros dt E; discriminate E|].
    split; [cbn; lra|]. rewrite Ex, Ey, Ez. repeat split; apply axR_inc. }
  repeat (split; [assumption|]). rewrite V1, V2. intros c i j k (Hcc & Hi & Hj & Hk').
  split.
  - unfold build_materials in HM.
    change (find_material (ar_bg ar2)) with (Ok {| me_eps := Fin 1%R; me_mu := Fin 1%R; me_sigma := None (A := R) |}) in HM.
    cbn [bind me_eps me_mu me_sigma] in HM. binv HM a Ha. binv HM b Hb. binv HM d Hd. injection HM as <-. cbn [mt_sigma].
    destruct (uniform_field_spec 6 6 6 (nzero : R)) as [F3 [E3 [S3 A3]]]. rewrite Hd in E3. injection E3 as <-.
    rewrite A3 by assumption. reflexivity.
  - destruct (build_values _ _ _ _ _ _ _ _ HM i j k Hi Hj Hk') as (e & He & B).
    injection He as <-. destruct (B c Hcc) as [-> _]. cbn. lra.
Qed.


(** Cells (0,3,3) and (1,3,3) of the low x layer. *)
Example C35_case : exists g g' s g2' s2, made envR g g' (argsR 2 "pml" vacR None) s /\
  made envR g g2' (argsR 2 "pec" vacR None) s2 /\ layers_fit envR g (argsR 2 "pml" vacR None) /\ spml s2 = false /\
  decided_by 2 (sbl s) (sbh s) 6 6 6 (false, 0) 0 3 3 /\ decided_by 2 (sbl s) (sbh s) 6 6 6 (false, 0) 1 3 3 /\
  outside 2 (sbl s) (sbh s) 6 6 6 2 3 3 /\
  entry (ssigma s) 0 0 3 3 = 10%R /\ entry (ssigma s) 0 1 3 3 = (5 / 1000)%R /\ entry (ssigma s) 0 2 3 3 = 0%R.
Proof.
  destruct pml_box as (g & g' & s & g2' & s2 & Nx & Ny & Nz & Hm & Hm2 & Lf & _ & Bl & Bh & P & V).
  exists g, g', s, g2', s2. repeat (split; [assumption|]).
  assert (D0 : decided_by 2 (sbl s) (sbh s) 6 6 6 (false, 0) 0 3 3).
  { rewrite Bl, Bh. eexists []; eexists. split; [reflexivity|]. split; [split; [reflexivity|cbn; lia]|].
    intros f Hf [_ A]. cbn in Hf. repeat (destruct Hf as [<- | Hf]; [cbn in A; lia|]). destruct Hf. }
  assert (D1 : decided_by 2 (sbl s) (sbh s) 6 6 6 (false, 0) 1 3 3).
  { rewrite Bl, Bh. eexists []; eexists. split; [reflexivity|]. split; [split; [reflexivity|cbn; lia]|].
    intros f Hf [_ A]. cbn in Hf. repeat (destruct Hf as [<- | Hf]; [cbn in A; lia|]). destruct Hf. }
  assert (D2 : outside 2 (sbl s) (sbh s) 6 6 6 2 3 3).
  { intros f Hf [_ A]. cbn in Hf. repeat (destruct Hf as [<- | Hf]; [cbn in A; lia|]). destruct Hf. }
  repeat (split; [assumption|]). destruct Lf as ((Hg & Hlo & Hhi) & L2 & L3).
  assert (Rm : room_for envR 2 (gNx g) (gNy g) (gNz g)).
  { split; [intros; apply geomspace_length|]. split; [lia|exact L3]. }
  assert (Ref : entry3 (ssigma s2) 0 (ref_cell 2 6 6 6 (false, 0)) = 0%R) by (apply V; repeat split; cbn; lia).
  pose proof (C35_layers R _ _ _ envR g g' _ s g2' _ s2 Hm Hm2 eq_refl eq_refl P Rm) as L. rewrite Nx, Ny, Nz in L.
  cbn [ar_npml argsR] in L.
  split; [|split].
  - destruct (L 0 0 3 3 ltac:(lia) ltac:(lia) ltac:(lia) ltac:(lia)) as [_ A]. destruct (A _ D0) as [_ ->].
    rewrite Ref. change (depth 6 6 6 (false, 0) 0 3 3) with 0. rewrite (profile_wall envR 2 0 Hg Hlo Hhi) by (reflexivity || lia).
    unfold graded. rewrite (proj2 (nltb_R _ _)); cbn; lra.
  - destruct (L 0 1 3 3 ltac:(lia) ltac:(lia) ltac:(lia) ltac:(lia)) as [_ A]. destruct (A _ D1) as [_ ->].
    rewrite Ref. change (depth 6 6 6 (false, 0) 1 3 3) with (2 - 1). rewrite (profile_inner envR 2 0 Hg Hlo Hhi) by (reflexivity || lia).
    unfold graded. rewrite (proj2 (nltb_R _ _)); cbn; lra.
  - destruct (L 0 2 3 3 ltac:(lia) ltac:(lia) ltac:(lia) ltac:(lia)) as [A _]. destruct (A D2) as [_ ->].
    apply V. repeat split; lia.
Qed.

(** The step computed from the grid, with absorbing walls. *)
Example C33_case : exists g g' s, made envR g g' (argsR 2 "pml" vacR None) s /\ real_env envR /\
  passive_setup envR g (argsR 2 "pml" vacR None) /\ layers_fit envR g (argsR 2 "pml" vacR None) /\ spml s = true.
Proof.
  destruct pml_box as (g & g' & s & g2' & s2 & Nx & Ny & Nz & Hm & Hm2 & Lf & Ps & Bl & Bh & P & V).
  exists g, g', s. repeat (split; [first [assumption|exact realR]|]).
  destruct (made_walls _ _ _ _ _ Hm) as [_ ->]. rewrite Bl, Bh. reflexivity.
Qed.

(** C36.  Full claim: on mirror-symmetric materials the layers are mirror images.  False: where
    layers overlap the last wall decides (uniform vacuum, cells (1,0,3) and (4,0,3)); and the two
    reference cells of an axis are not mirror images (material symmetric in z, layers 1 and 4 of
    six dielectric: the low z layer gets 1/eps = 1, the high one 1/10). *)
Definition six : list Qc := [q 0 1; q 1 1; q 2 1; q 3 1; q 4 1; q 5 1; q 6 1].
Definition two_cells : list Qc := [q 0 1; q 1 1; q 2 1].
Definition symmask : list bool := tab 24 (fun n => let k := n mod 6 in (k =? 1) || (k =? 4)).
Definition symA : Args Qc := argsQ {| bcx := "pec"; bcy := "pec"; bcz := "pml" |} {| bcx := "pec"; bcy := "pec"; bcz := "pml" |} vac
  [{| so_key := "plates"; so_mask := symmask; so_mat := MName "dielectric" |}].
Theorem C36_mirror_refuted :
  (exists g g' (s : Solver R), gNx g = 6 /\ gNy g = 6 /\ gNz g = 6 /\ made envR g g' (argsR 2 "pml" vacR None) s /\
     layers_fit envR g (argsR 2 "pml" vacR None) /\ mirror 0 6 6 6 1 0 3 = (4, 0, 3) /\
     entry (ssigma s) 0 1 0 3 = 10%R /\ entry (ssigma s) 0 4 0 3 = (5 / 1000)%R) /\
  (exists g g' (s : Solver Qc), compute_grid two_cells two_cells six = Ok g /\ construct envQ g symA = Ok (s, g') /\
     (forall i j k, i < 2 -> j < 2 -> k < 6 -> nth (k + 6 * (j + 2 * i)) symmask false = nth ((5 - k) + 6 * (j + 2 * i)) symmask false) /\
     entry (sieps s) 0 1 1 0 = q 1 1 /\ entry (sieps s) 0 1 1 5 = q 1 10).
Proof.
  split.
  - destruct pml_box as (g & g' & s & g2' & s2 & Nx & Ny & Nz & Hm & Hm2 & Lf & Ps & Bl & Bh & P & V).
    exists g, g', s. repeat (split; [assumption|]). split; [reflexivity|].
    assert (D0 : decided_by 2 (sbl s) (sbh s) 6 6 6 (false, 1) 1 0 3).
    { rewrite Bl, Bh. exists [(false, 0)]; eexists. split; [reflexivity|]. split; [split; [reflexivity|cbn; lia]|].
      intros f Hf [_ A]. cbn in Hf. repeat (destruct Hf as [<- | Hf]; [cbn in A; lia|]). destruct Hf. }
    assert (D1 : decided_by 2 (sbl s) (sbh s) 6 6 6 (true, 0) 4 0 3).
    { rewrite Bl, Bh. exists [(false, 0); (false, 1); (false, 2)]; eexists. split; [reflexivity|]. split; [split; [reflexivity|cbn; lia]|].
      intros f Hf [_ A]. cbn in Hf. repeat (destruct Hf as [<- | Hf]; [cbn in A; lia|]). destruct Hf. }
    destruct Lf as ((Hg & Hlo & Hhi) & L2 & L3).
    assert (Rm : room_for envR 2 (gNx g) (gNy g) (gNz g)).
    { split; [intros; apply geomspace_length|]. split; [lia|exact L3]. }
    pose proof (C35_layers R _ _ _ envR g g' _ s g2' _ s2 Hm Hm2 eq_refl eq_refl P Rm) as L. rewrite Nx, Ny, Nz in L.
    cbn [ar_npml argsR] in L. split.
    + destruct (L 0 1 0 3 ltac:(lia) ltac:(lia) ltac:(lia) ltac:(lia)) as [_ A]. destruct (A _ D0) as [_ ->].
      assert (Ref : entry3 (ssigma s2) 0 (ref_cell 2 6 6 6 (false, 1)) = 0%R) by (apply V; repeat split; cbn; lia).
      rewrite Ref. change (depth 6 6 6 (false, 1) 1 0 3) with 0. rewrite (profile_wall envR 2 1 Hg Hlo Hhi) by (reflexivity || lia).
      unfold graded. rewrite (proj2 (nltb_R _ _)); cbn; lra.
    + destruct (L 0 4 0 3 ltac:(lia) ltac:(lia) ltac:(lia) ltac:(lia)) as [_ A]. destruct (A _ D1) as [_ ->].
      assert (Ref : entry3 (ssigma s2) 0 (ref_cell 2 6 6 6 (true, 0)) = 0%R) by (apply V; repeat split; cbn; lia).
      rewrite Ref. change (depth 6 6 6 (true, 0) 4 0 3) with (2 - 1). rewrite (profile_inner envR 2 0 Hg Hlo Hhi) by (reflexivity || lia).
      unfold graded. rewrite (proj2 (nltb_R _ _)); cbn; lra.
  - assert (H : match compute_grid two_cells two_cells six with
                | Ok g => match construct envQ g symA with
                          | Ok (s, _) => neqb (entry (sieps s) 0 1 1 0) (q 1 1) && neqb (entry (sieps s) 0 1 1 5) (q 1 10)
                          | Err _ => false end
                | Err _ => false end = true) by (vm_compute; reflexivity).
    destruct (compute_grid two_cells two_cells six) as [g|] eqn:Eg; [|discriminate].
    destruct (construct envQ g symA) as [[s g']|] eqn:Es; [|discriminate].
    apply andb_true_iff in H. destruct H as [H1 H2].
    exists g, g', s. split; [reflexivity|]. split; [exact Es|]. split; [|split; apply neqb_eq; assumption].
    intros i j k Hi Hj Hk. do 2 (destruct i as [|i]; [do 2 (destruct j as [|j]; [do 6 (destruct k as [|k]; [reflexivity|]); lia|]); lia|]). lia.
Qed.
Print Assumptions C36_mirror_refuted.
(** The partial theorem applies to cells (0,3,3) and (5,3,3) of the vacuum box. *)
Example C36_case : exists g g' s g2' s2, made envR g g' (argsR 2 "pml" vacR None) s /\
  made envR g g2' (argsR 2 "pec" vacR None) s2 /\ layers_fit envR g (argsR 2 "pml" vacR None) /\ spml s2 = false /\
  (forall c, c < 3 ->
     entry3 (sieps s2) c (ref_cell 2 6 6 6 (false, 0)) = entry3 (sieps s2) c (ref_cell 2 6 6 6 (true, 0)) /\
     entry3 (ssigma s2) c (ref_cell 2 6 6 6 (false, 0)) = entry3 (ssigma s2) c (ref_cell 2 6 6 6 (true, 0))) /\
  decided_by 2 (sbl s) (sbh s) 6 6 6 (false, 0) 0 3 3 /\ mirror 0 6 6 6 0 3 3 = (5, 3, 3) /\
  decided_by 2 (sbl s) (sbh s) 6 6 6 (true, 0) 5 3 3.
Proof.
  destruct pml_box as (g & g' & s & g2' & s2 & Nx & Ny & Nz & Hm & Hm2 & Lf & _ & Bl & Bh & P & V).
  exists g, g', s, g2', s2. repeat (split; [assumption|]). split.
  { intros c Hc. cbn [ref_cell set_coord fst snd dim entry3].
    assert (B : forall i j k, i < 6 -> j < 6 -> k < 6 -> entry (ssigma s2) c i j k = 0%R /\ entry (sieps s2) c i j k = 1%R)
      by (intros; apply V; repeat split; assumption).
    destruct (B (6 - 2 - 1) (6 / 2) (6 / 2)) as [-> ->]; [cbn; lia..|].
    destruct (B (2 + 1) (6 / 2) (6 / 2)) as [-> ->]; [cbn; lia..|]. auto. }
  split; [|split; [reflexivity|]]; rewrite Bl, Bh.
  - eexists []; eexists. split; [reflexivity|]. split; [split; [reflexivity|cbn; lia]|].
    intros f Hf [_ A]. cbn in Hf. repeat (destruct Hf as [<- | Hf]; [cbn in A; lia|]). destruct Hf.
  - exists [(false, 0); (false, 1); (false, 2)]; eexists. split; [reflexivity|]. split; [split; [reflexivity|cbn; lia]|].
    intros f Hf [_ A]. cbn in Hf. repeat (destruct Hf as [<- | Hf]; [cbn in A; lia|]). destruct Hf.
Qed.
