(** Lemmas: which configurations are constructed, and the materials with absorbing layers. *)
From Coq Require Import List Arith ZArith Bool String Lia Ring Field.
From Verif Require Import Num Vec Index Matrix FieldModel FieldSpec FieldProofs FieldProofs2
  GridModel GridProofs SolverModel SolverPlanes SolverBuild SolverMaterials SolverKern SolverCons
  SolverSpec SolverFlux SolverEnergy SolverOps SolverFrozen SolverNames SolverTime SolverPmlSpec SolverPml.
Import ListNotations.

Section BuildOk.
  Context {T : Type} {NT : Num T} {LT : NumLaws T} {OT : NumOrd T}.
  Implicit Types F G : Field T.

  Lemma clear_mask_ok F mask Nx Ny Nz : sized F Nx Ny Nz -> List.length mask = Nx * Ny * Nz ->
    exists G, clear_mask Nx Ny Nz F mask = Ok G /\ sized G Nx Ny Nz.
  Proof.
    intros S L. assert (E : exists G, clear_mask Nx Ny Nz F mask = Ok G).
    { unfold clear_mask, mask_arr. rewrite L, Nat.eqb_refl. cbn [bind]. destruct S as [W [X [Y Z]]].
      match goal with |- context [fmul F (OArr ?a)] =>
        destruct (mul_matrix F a W) as [P [-> [WP [XP [YP [ZP _]]]]]]; [cbn; congruence|] end.
      cbn [bind]. destruct (add_field_spec F P W WP XP YP ZP) as [G [EG _]]. exists G. exact EG. }
    destruct E as [G E]. exists G. split; [exact E|]. exact (proj1 (clear_mask_spec _ _ _ _ _ _ S E)).
  Qed.
  Lemma add_mask_ok F mask f Nx Ny Nz : sized F Nx Ny Nz -> List.length mask = Nx * Ny * Nz ->
    exists G, add_mask Nx Ny Nz F mask f = Ok G /\ sized G Nx Ny Nz.
  Proof.
    intros S L. assert (E : exists G, add_mask Nx Ny Nz F mask f = Ok G).
    { unfold add_mask, mask_arr. rewrite L, Nat.eqb_refl. cbn [bind]. destruct S as [W [X [Y Z]]].
      match goal with |- context [fadd F (OArr ?a)] =>
        destruct (add_matrix F a W) as [P [EP _]]; [cbn; congruence|] end. eauto. }
    destruct E as [G E]. exists G. split; [exact E|]. exact (proj1 (add_mask_spec _ _ _ _ _ _ _ S E)).
  Qed.

  Lemma apply_solid_ok env Nx Ny Nz sbg (M : Mats T) so e : mats_sized M Nx Ny Nz ->
    find_material (so_mat so) = Ok e -> List.length (so_mask so) = Nx * Ny * Nz ->
    exists M', apply_solid env Nx Ny Nz sbg M so = Ok M'.
  Proof.
    intros [S1 [S2 S3]] He L. unfold apply_solid. rewrite He. cbn [bind].
    destruct (clear_mask_ok _ _ _ _ _ S1 L) as [A [-> SA]]. cbn [bind].
    destruct (clear_mask_ok _ _ _ _ _ S2 L) as [B [-> SB]]. cbn [bind].
    match goal with |- context [add_mask Nx Ny Nz A _ ?f] => destruct (add_mask_ok A (so_mask so) f _ _ _ SA L) as [C [-> SC]] end. cbn [bind].
    match goal with |- context [add_mask Nx Ny Nz B _ ?f] => destruct (add_mask_ok B (so_mask so) f _ _ _ SB L) as [D [-> SD]] end. cbn [bind].
    destruct (clear_mask_ok _ _ _ _ _ S3 L) as [X [EX SX]].
    destruct (me_sigma e).
    - rewrite EX. cbn [bind].
      match goal with |- context [add_mask Nx Ny Nz X _ ?f] => destruct (add_mask_ok X (so_mask so) f _ _ _ SX L) as [Y [-> SY]] end.
      cbn [bind]. eauto.
    - destruct (nltb nzero sbg); [rewrite EX; cbn [bind]|]; eauto.
  Qed.

  Lemma build_ok env Nx Ny Nz bg ebg c0 solids : find_material bg = Ok ebg -> valid_solids Nx Ny Nz solids ->
    exists M, build_materials env Nx Ny Nz bg c0 solids = Ok M.
  Proof.
    intros Hb Hv. unfold build_materials. rewrite Hb. cbn [bind].
    destruct (uniform_field_spec Nx Ny Nz (over_ext none_ (me_eps ebg) (e_eps0 env))) as [F1 [-> [S1 _]]]. cbn [bind].
    destruct (uniform_field_spec Nx Ny Nz (over_ext none_ (me_mu ebg) (e_mu0 env))) as [F2 [-> [S2 _]]]. cbn [bind].
    destruct (uniform_field_spec Nx Ny Nz (match me_sigma ebg with Some s => s | None => nzero end)) as [F3 [-> [S3 _]]]. cbn [bind].
    match goal with |- exists M, seq_upd ?f ?a ?l = _ =>
      destruct (seq_upd_ok (fun M => mats_sized M Nx Ny Nz) f l a) as [M [E _]] end.
    - split; [exact S1|]. split; [exact S2|exact S3].
    - intros M so Hin SM. destruct (Hv so Hin) as [[e He] L].
      destruct (apply_solid_ok env Nx Ny Nz (match me_sigma ebg with Some s => s | None => nzero end) M so e SM He L) as [M' E].
      exists M'. split; [exact E|]. exact (proj1 (apply_solid_spec _ _ _ _ _ _ _ _ SM E)).
    - exists M. exact E.
  Qed.

  (** The material maps do not depend on the initial conductive flag. *)
  Definition same_maps (M M' : Mats T) : Prop :=
    mt_ieps M = mt_ieps M' /\ mt_imu M = mt_imu M' /\ mt_sigma M = mt_sigma M'.
  Lemma apply_solid_maps env Nx Ny Nz sbg M M2 so M' : same_maps M M2 -> apply_solid env Nx Ny Nz sbg M so = Ok M' ->
    exists M2', apply_solid env Nx Ny Nz sbg M2 so = Ok M2' /\ same_maps M' M2'.
  Proof.
    intros [E1 [E2 E3]] H. unfold apply_solid in *. binv H e He. rewrite He. cbn [bind]. rewrite <- E1, <- E2, <- E3.
    binv H a Ha. rewrite Ha. cbn [bind]. binv H b Hb. rewrite Hb. cbn [bind].
    binv H c Hc. rewrite Hc. cbn [bind]. binv H d Hd. rewrite Hd. cbn [bind].
    destruct (me_sigma e).
    - binv H x Hx. rewrite Hx. cbn [bind]. binv H y Hy. rewrite Hy. cbn [bind]. injection H as <-.
      eexists. split; [reflexivity|]. repeat split.
    - destruct (nltb nzero sbg).
      + binv H x Hx. rewrite Hx. cbn [bind]. injection H as <-. eexists. split; [reflexivity|]. repeat split.
      + injection H as <-. eexists. split; [reflexivity|]. repeat split.
  Qed.
  Lemma build_maps env Nx Ny Nz bg c0 c1 solids M M2 :
    build_materials env Nx Ny Nz bg c0 solids = Ok M -> build_materials env Nx Ny Nz bg c1 solids = Ok M2 -> same_maps M M2.
  Proof.
    unfold build_materials. intros H H2. binv H e He. rewrite He in H2. cbn [bind] in H2.
    binv H a Ha. rewrite Ha in H2. cbn [bind] in H2. binv H b Hb. rewrite Hb in H2. cbn [bind] in H2.
    binv H c Hc. rewrite Hc in H2. cbn [bind] in H2.
    match type of H with seq_upd ?f ?m _ = _ => match type of H2 with seq_upd _ ?m2 _ = _ =>
      assert (S0 : same_maps m m2) by (repeat split); revert H H2 S0; generalize m m2 end end.
    clear. intros m m2. revert m m2. induction solids as [|so r IH]; intros m m2 H H2 S0; cbn [seq_upd] in *.
    - injection H as <-. injection H2 as <-. exact S0.
    - binv H m' H'. destruct (apply_solid_maps _ _ _ _ _ _ _ _ _ S0 H') as [m2' [E2 S']].
      rewrite E2 in H2. cbn [bind] in H2. exact (IH m' m2' H H2 S').
  Qed.

  (** A cell whose deciding material has a conductivity gets that conductivity. *)
  Lemma solids_sigma_some env Nx Ny Nz sbg solids : forall (M : Mats T) M' m0,
    mats_sized M Nx Ny Nz -> seq_upd (apply_solid env Nx Ny Nz sbg) M solids = Ok M' ->
    forall i j k, i < Nx -> j < Ny -> k < Nz ->
    (forall e x, find_material m0 = Ok e -> me_sigma e = Some x -> forall c, c < 3 -> entry (mt_sigma M) c i j k = x) ->
    forall e x, find_material (fold_left (fun acc so => if cell_mask Ny Nz (so_mask so) i j k then so_mat so else acc) solids m0) = Ok e ->
      me_sigma e = Some x -> forall c, c < 3 -> entry (mt_sigma M') c i j k = x.
  Proof.
    induction solids as [|so r IH]; intros M M' m0 SM E i j k Hi Hj Hk HM; cbn [seq_upd fold_left] in *.
    - injection E as <-. exact HM.
    - binv E M1 E1. destruct (apply_solid_spec _ _ _ _ _ _ _ _ SM E1) as [S1 [e1 [F1 [_ V]]]].
      apply (IH M1 M' _ S1 E i j k Hi Hj Hk). intros e x He Hx c Hc.
      destruct (V c i j k Hc Hi Hj Hk) as [_ [_ V3]]. rewrite V3.
      destruct (cell_mask Ny Nz (so_mask so) i j k).
      + rewrite F1 in He. injection He as <-. rewrite Hx. reflexivity.
      + rewrite andb_false_r. destruct (me_sigma e1); apply (HM e x He Hx c Hc).
  Qed.
  Lemma build_sigma_some env Nx Ny Nz bg c0 solids (M : Mats T) : build_materials env Nx Ny Nz bg c0 solids = Ok M ->
    forall i j k, i < Nx -> j < Ny -> k < Nz -> forall e x, find_material (cell_material bg solids Ny Nz i j k) = Ok e ->
      me_sigma e = Some x -> forall c, c < 3 -> entry (mt_sigma M) c i j k = x.
  Proof.
    unfold build_materials. intros H i j k Hi Hj Hk. binv H e0 He0. binv H ie H1. binv H im H2. binv H sg H3.
    destruct (uniform_field_spec Nx Ny Nz (over_ext none_ (me_eps e0) (e_eps0 env))) as [F1 [E1 [S1 A1]]].
    destruct (uniform_field_spec Nx Ny Nz (over_ext none_ (me_mu e0) (e_mu0 env))) as [F2 [E2 [S2 A2]]].
    destruct (uniform_field_spec Nx Ny Nz (match me_sigma e0 with Some s => s | None => nzero end)) as [F3 [E3 [S3 A3]]].
    rewrite H1 in E1. rewrite H2 in E2. rewrite H3 in E3.
    injection E1 as <-. injection E2 as <-. injection E3 as <-.
    match type of H with seq_upd _ ?M0 _ = _ => set (m0 := M0) in H end.
    refine (solids_sigma_some env Nx Ny Nz _ solids m0 M bg _ H i j k Hi Hj Hk _).
    - repeat split; first [apply S1|apply S2|apply S3].
    - intros e x He Hx c Hc. rewrite He0 in He. injection He as <-. cbn. rewrite A3, Hx by assumption. reflexivity.
  Qed.

  Lemma taus_nonempty (ie sg : Field T) n : n < List.length (farr sg) -> get (farr sg) n <> nzero ->
    get (farr ie) n <> nzero -> taus ie sg <> [].
  Proof.
    intros Hn Hs He H. assert (A : In (ndiv (ndiv none_ (get (farr ie) n)) (get (farr sg) n)) (taus ie sg)).
    { unfold taus. apply in_flat_map. exists n. split; [apply in_seq; unfold toarray; lia|].
      unfold toarray. cbn zeta. rewrite (proj2 (neqb_neq _ _) Hs), (proj2 (neqb_neq _ _) He). left. reflexivity. }
    rewrite H in A. destruct A.
  Qed.

  Lemma build_cond env Nx Ny Nz bg ebg solids (M : Mats T) : build_materials env Nx Ny Nz bg false solids = Ok M ->
    find_material bg = Ok ebg -> me_sigma ebg = None ->
    (forall so e, In so solids -> find_material (so_mat so) = Ok e -> me_sigma e = None) -> mt_cond M = false.
  Proof.
    unfold build_materials. intros H Hb Es Hs. rewrite Hb in H. cbn [bind] in H. rewrite Es in H.
    binv H ie H1. binv H im H2. binv H sg H3.
    destruct (uniform_field_spec Nx Ny Nz (over_ext none_ (me_eps ebg) (e_eps0 env))) as [F1 [E1 [S1 A1]]].
    destruct (uniform_field_spec Nx Ny Nz (over_ext none_ (me_mu ebg) (e_mu0 env))) as [F2 [E2 [S2 A2]]].
    destruct (uniform_field_spec Nx Ny Nz (nzero : T)) as [F3 [E3 [S3 A3]]].
    rewrite H1 in E1. rewrite H2 in E2. rewrite H3 in E3.
    injection E1 as <-. injection E2 as <-. injection E3 as <-.
    assert (P : mats_sized M Nx Ny Nz /\ mt_cond M = false); [|apply P].
    revert H. apply (seq_upd_inv (fun M => mats_sized M Nx Ny Nz /\ mt_cond M = false)).
    - split; [repeat split; first [apply S1|apply S2|apply S3]|reflexivity].
    - intros M0 so M1 Hin [SM C0] E. destruct (apply_solid_spec _ _ _ _ _ _ _ _ SM E) as [S' [e [He [Ec _]]]].
      split; [exact S'|]. rewrite Ec, (Hs so e Hin He). exact C0.
  Qed.
End BuildOk.

Section ConstructOk.
  Context {T : Type} {NT : Num T} {LT : NumLaws T} {OT : NumOrd T}.

  Lemma diff_some (x : list T) : 2 <= List.length x -> diff x <> [].
  Proof. intros H E. apply (f_equal (@List.length T)) in E. unfold diff in E. rewrite tab_length in E. cbn in E. lia. Qed.

  Lemma cfl_ok env cfln (g : Grid T) : grid_ok g -> exists dt, cfl_dt env cfln (diff (gx g)) (diff (gy g)) (diff (gz g)) = Ok dt.
  Proof.
    intros [HX [HY [HZ _]]]. unfold gNx, gNy, gNz in *. unfold cfl_dt.
    destruct (np_min_ok (diff (gx g))) as [mx ->]; [apply diff_some; lia|].
    destruct (np_min_ok (diff (gy g))) as [my ->]; [apply diff_some; lia|].
    destruct (np_min_ok (diff (gz g))) as [mz ->]; [apply diff_some; lia|]. cbn [bind]. eauto.
  Qed.

  Lemma construct_ok env (g : Grid T) ar ebg bl bh : grid_ok g -> find_material (ar_bg ar) = Ok ebg ->
    valid_solids (gNx g) (gNy g) (gNz g) (ar_solids ar) -> mpi_bc (ar_mpi ar) (ar_bl ar) (ar_bh ar) = (bl, bh) ->
    (has_pml bl bh = true -> room_for env (ar_npml ar) (gNx g) (gNy g) (gNz g)) ->
    (forall M ie sg, build_materials env (gNx g) (gNy g) (gNz g) (ar_bg ar) (has_pml bl bh) (ar_solids ar) = Ok M ->
       (if has_pml bl bh then fill_pml env (ar_npml ar) bl bh (mt_ieps M) (mt_sigma M) else Ok (mt_ieps M, mt_sigma M)) = Ok (ie, sg) ->
       mt_cond M = true -> taus ie sg <> []) ->
    exists s g', construct env g ar = Ok (s, g').
  Proof.
    intros Hg Hb Hv Hmp Hp Ht. unfold construct. rewrite Hmp.
    destruct (apply_bc_spec g bl bh Hg) as (bo & Fr & Fc & Hbo & _ & _ & _ & _ & _ & _ & _ & Ep). rewrite Hbo. cbn [bind].
    fold (has_pml bl bh) in Ep. rewrite Ep.
    destruct (build_ok env (gNx g) (gNy g) (gNz g) (ar_bg ar) ebg (has_pml bl bh) (ar_solids ar) Hb Hv) as [M HM].
    rewrite HM. cbn [bind]. pose proof (build_materials_sized _ _ _ _ _ _ _ _ HM) as (S1 & _ & S3).
    assert (Hms : exists ie sg, (if has_pml bl bh then fill_pml env (ar_npml ar) bl bh (mt_ieps M) (mt_sigma M)
                                 else Ok (mt_ieps M, mt_sigma M)) = Ok (ie, sg)).
    { destruct (has_pml bl bh); [|eauto]. destruct (Hp eq_refl) as [Gl [Np Rm]].
      destruct (fill_spec env (ar_npml ar) bl bh _ _ _ Gl Np Rm _ _ S1 S3) as (ie & sg & E & _). eauto. }
    destruct Hms as (ie & sg & Hms). rewrite Hms. cbn [bind fst snd].
    assert (Hdt : exists dt0, (match ar_dt ar with Some dt => Ok dt
                 | None => cfl_dt env (ar_cfln ar) (diff (gx g)) (diff (gy g)) (diff (gz g)) end) = Ok dt0).
    { destruct (ar_dt ar); [eauto|]. apply cfl_ok; assumption. }
    destruct Hdt as [dt0 ->]. cbn [bind].
    assert (Hr : exists dt, relax_dt (mt_cond M) dt0 ie sg = Ok dt).
    { unfold relax_dt. destruct (mt_cond M) eqn:Ec; [|eauto].
      destruct (np_min_ok (taus ie sg)) as [t ->]; [exact (Ht M ie sg HM Hms Ec)|]. cbn [bind]. eauto. }
    destruct Hr as [dt ->]. cbn [bind]. eauto.
  Qed.

  Lemma cell_index (F : Field T) Nx Ny Nz c i j k : sized F Nx Ny Nz -> c < 3 -> i < Nx -> j < Ny -> k < Nz ->
    ix Nx Ny Nz c i j k < List.length (farr F).
  Proof.
    intros [W [X [Y Z]]] Hc Hi Hj Hk. pose proof (ix_lt Nx Ny Nz c i j k Hc Hi Hj Hk). unfold wf in W. rewrite W.
    unfold fN. rewrite X, Y, Z. lia.
  Qed.

  Lemma outside_none bl bh n Nx Ny Nz i j k : has_pml bl bh = false -> outside n bl bh Nx Ny Nz i j k.
  Proof.
    intros H f Hf [Hn _]. unfold has_pml in H. apply orb_false_elim in H. destruct H as [H1 H2].
    pose proof (any_bc_false _ _ H1) as A1. pose proof (any_bc_false _ _ H2) as A2.
    assert (Hs : snd f < 3) by (cbn in Hf; repeat (destruct Hf as [<- | Hf]; [cbn; lia|]); destruct Hf).
    unfold wall_name in Hn. destruct (fst f).
    - specialize (A2 _ Hs). unfold named in A2. rewrite Hn in A2. discriminate.
    - specialize (A1 _ Hs). unfold named in A1. rewrite Hn in A1. discriminate.
  Qed.

  (** Built whenever the configuration is not conductive, or some cell outside the absorbing layers has
      a deciding material with a non-zero conductivity and a finite permittivity. *)
  Lemma construct_conductive env (g : Grid T) ar ebg bl bh : grid_obj env g -> find_material (ar_bg ar) = Ok ebg ->
    valid_solids (gNx g) (gNy g) (gNz g) (ar_solids ar) -> mpi_bc (ar_mpi ar) (ar_bl ar) (ar_bh ar) = (bl, bh) ->
    (has_pml bl bh = true -> room_for env (ar_npml ar) (gNx g) (gNy g) (gNz g)) ->
    ((has_pml bl bh = false /\ me_sigma ebg = None /\
      forall so e, In so (ar_solids ar) -> find_material (so_mat so) = Ok e -> me_sigma e = None) \/
     exists i j k m e x r, i < gNx g /\ j < gNy g /\ k < gNz g /\
       outside (ar_npml ar) bl bh (gNx g) (gNy g) (gNz g) i j k /\
       decides (gNy g) (gNz g) (ar_bg ar) (ar_solids ar) i j k m /\ find_material m = Ok e /\
       me_sigma e = Some x /\ x <> nzero /\ me_eps e = Fin r /\ ndiv none_ (nmul r (e_eps0 env)) <> nzero) ->
    exists s g', construct env g ar = Ok (s, g').
  Proof.
    intros Hgo Hb Hv Hmp Hp Hcase. pose proof (grid_obj_ok env g Hgo) as Hg.
    eapply construct_ok; try eassumption. intros M ie sg HM Hms Hc.
    destruct Hcase as [(Hn & Es & Hs)|(i & j & k & m & e & x & r & Hi & Hj & Hk & Ho & Hd & He & Hx & Hx0 & Hr & Hr0)].
    { exfalso. rewrite Hn in HM. pose proof (build_cond _ _ _ _ _ _ _ _ HM Hb Es Hs). congruence. }
    pose proof (build_materials_sized _ _ _ _ _ _ _ _ HM) as (S1 & _ & S3).
    assert (V : entry (mt_ieps M) 0 i j k <> nzero /\ entry (mt_sigma M) 0 i j k <> nzero).
    { pose proof (cell_material_decides _ _ _ _ _ _ _ _ Hd) as Em. split.
      - destruct (build_values _ _ _ _ _ _ _ _ HM i j k Hi Hj Hk) as (e' & He' & V). rewrite Em, He in He'. injection He' as <-.
        destruct (V 0 ltac:(lia)) as [-> _]. rewrite Hr. exact Hr0.
      - rewrite (build_sigma_some _ _ _ _ _ _ _ _ HM i j k Hi Hj Hk e x); [exact Hx0| |exact Hx|lia].
        rewrite Em. exact He. }
    assert (W : sized ie (gNx g) (gNy g) (gNz g) /\ sized sg (gNx g) (gNy g) (gNz g) /\
                entry ie 0 i j k = entry (mt_ieps M) 0 i j k /\ entry sg 0 i j k = entry (mt_sigma M) 0 i j k).
    { destruct (has_pml bl bh) eqn:Ep.
      - destruct (Hp eq_refl) as [Gl [Np Rm]].
        destruct (fill_spec env (ar_npml ar) bl bh _ _ _ Gl Np Rm _ _ S1 S3) as (ie' & sg' & E & U1 & U2 & A).
        rewrite Hms in E. injection E as -> ->. destruct (A 0 i j k ltac:(lia) Hi Hj Hk) as [A1 _].
        destruct (A1 Ho). auto.
      - injection Hms as <- <-. auto. }
    destruct W as (U1 & U2 & W1 & W2). destruct V as [V1 V2]. rewrite <- W1 in V1. rewrite <- W2 in V2.
    rewrite (entry_ix _ _ _ _ _ _ _ _ U1) in V1. rewrite (entry_ix _ _ _ _ _ _ _ _ U2) in V2.
    refine (taus_nonempty _ _ (ix (gNx g) (gNy g) (gNz g) 0 i j k) _ V2 V1).
    apply cell_index; [exact U2|lia|assumption..].
  Qed.

  (** The materials of a solver with absorbing layers, against those of any solver with the same
      materials and no such layers. *)
  Lemma made_layers env g g' ar (s : Solver T) g2' ar2 s2 : made env g g' ar s -> made env g g2' ar2 s2 ->
    ar_bg ar2 = ar_bg ar -> ar_solids ar2 = ar_solids ar -> spml s2 = false ->
    room_for env (ar_npml ar) (gNx g) (gNy g) (gNz g) ->
    forall c i j k, c < 3 -> i < gNx g -> j < gNy g -> k < gNz g ->
      (outside (ar_npml ar) (sbl s) (sbh s) (gNx g) (gNy g) (gNz g) i j k ->
         entry (sieps s) c i j k = entry (sieps s2) c i j k /\ entry (ssigma s) c i j k = entry (ssigma s2) c i j k) /\
      (forall f, decided_by (ar_npml ar) (sbl s) (sbh s) (gNx g) (gNy g) (gNz g) f i j k ->
         entry (sieps s) c i j k = entry3 (sieps s2) c (ref_cell (ar_npml ar) (gNx g) (gNy g) (gNz g) f) /\
         entry (ssigma s) c i j k = graded (entry3 (ssigma s2) c (ref_cell (ar_npml ar) (gNx g) (gNy g) (gNz g) f))
                                           (profile env (ar_npml ar) f (depth (gNx g) (gNy g) (gNz g) f i j k))).
  Proof.
    intros Hm Hm2 Eb Es Hp2 (Gl & Np & Rm) c i j k Hc Hi Hj Hk.
    destruct (made_conf _ _ _ _ _ Hm) as (s0 & Hg & Hco & A1 & _ & A3 & _ & _ & A6 & A7 & A8 & _).
    destruct (construct_spec env g ar s0 g' (grid_obj_ok env g Hg) Hco) as
      (bo & M & Hbo & Hbc & HM & (S1 & _ & S3) & Hms & _ & _ & _ & _ & _ & _ & _ & _ & _ & _ & _ & _ & Ep & _).
    destruct (made_values _ _ _ _ _ Hm2) as (M2 & bo2 & _ & HM2 & _ & _ & _ & _ & _ & V2).
    destruct (V2 Hp2) as [B1 B3]. rewrite Eb, Es in HM2.
    destruct (build_maps _ _ _ _ _ _ _ _ _ _ HM HM2) as (C1 & _ & C3). rewrite B1, B3, <- C1, <- C3, A1, A3, A6, A7.
    destruct (bo_pml bo) eqn:Eq.
    - destruct (fill_spec env (ar_npml ar) (sbl s0) (sbh s0) _ _ _ Gl Np Rm _ _ S1 S3) as (ie & sg & E & _ & _ & A).
      rewrite Hms in E. injection E as -> ->. exact (A c i j k Hc Hi Hj Hk).
    - injection Hms as <- <-. split; [auto|].
      intros f (l1 & l2 & El & Hcv & _). exfalso.
      destruct (apply_bc_spec g (sbl s0) (sbh s0) (grid_obj_ok env g Hg)) as (bo' & Fr & Fc & Hbo' & _ & _ & _ & _ & _ & _ & _ & Ep').
      rewrite Hbo in Hbo'. injection Hbo' as <-. rewrite Eq in Ep'.
      refine (outside_none (sbl s0) (sbh s0) (ar_npml ar) (gNx g) (gNy g) (gNz g) i j k _ f _ Hcv); [symmetry; exact Ep'|].
      rewrite El. apply in_or_app. right. left. reflexivity.
  Qed.
End ConstructOk.

Section Settings.
  Context {T : Type} {NT : Num T} {LT : NumLaws T} {OT : NumOrd T}.
  (** Wall names and the layer flag of a solver. *)
  Lemma made_walls env g g' ar (s : Solver T) : made env g g' ar s ->
    (sbl s, sbh s) = mpi_bc (ar_mpi ar) (ar_bl ar) (ar_bh ar) /\ spml s = has_pml (sbl s) (sbh s).
  Proof.
    intros Hm. destruct (made_values _ _ _ _ _ Hm) as (M & bo & Hbo & _ & A & _ & _ & B & _).
    split; [exact A|]. rewrite B. pose proof (grid_obj_ok _ _ (made_grid _ _ _ _ _ Hm)) as Hg.
    destruct (apply_bc_spec g (sbl s) (sbh s) Hg) as (bo' & Fr & Fc & Hbo' & _ & _ & _ & _ & _ & _ & _ & Ep).
    rewrite Hbo in Hbo'. injection Hbo' as <-. exact Ep.
  Qed.
End Settings.
