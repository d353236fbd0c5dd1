(** Lemmas: material assignment, PML fill, time step, constructor. *)
From Coq Require Import List Arith ZArith Bool String Lia Ring Field.
From Verif Require Import Num Vec Index Matrix FieldModel FieldSpec FieldProofs FieldProofs2
  GridModel GridProofs SolverModel SolverPlanes SolverBuild.
Import ListNotations.

Section Sizes.
  Context {T : Type} {NT : Num T} {OT : NumOrd T}.
  Implicit Types F G : Field T.

  Lemma sized_with_arr F Nx Ny Nz l : sized F Nx Ny Nz ->
    List.length l = List.length (farr F) -> sized (with_arr F l) Nx Ny Nz.
  Proof. intros [W [X [Y Z]]] H. split; [|auto]. unfold wf in *; cbn [farr with_arr fNx fNy fNz]. rewrite H. exact W. Qed.

  Lemma from_matrix_c_sized F m c G Nx Ny Nz :
    from_matrix_c F m c = Ok G -> sized F Nx Ny Nz -> sized G Nx Ny Nz.
  Proof.
    unfold from_matrix_c. destruct (_ =? _); [|discriminate]. intros H S. injection H as <-.
    apply sized_with_arr; [exact S|apply tab_length].
  Qed.

  Lemma setitem_sized F k v G Nx Ny Nz :
    setitem F k v = Ok G -> sized F Nx Ny Nz -> sized G Nx Ny Nz.
  Proof.
    intros H S. destruct k as [kx ky kz ck| |z|a b s|]; cbn [setitem] in H; try discriminate.
    - unfold to_matrix in H. destruct (comp_of ck) as [c|] eqn:Ec; cbn [option_map] in H; [|discriminate].
      binv H m Hm. unfold from_matrix in H. rewrite Ec in H.
      eapply from_matrix_c_sized; eassumption.
    - destruct (_ <=? _)%Z; [|discriminate]. destruct (resolve _ _) as [[|n [|]]|]; try discriminate.
      destruct (bcast_ok v []); [|discriminate]. injection H as <-.
      apply sized_with_arr; [exact S|apply upd_length].
    - destruct (resolve _ _) as [l|]; [|discriminate]. destruct (bcast_ok v _); [|discriminate].
      injection H as <-. apply sized_with_arr; [exact S|apply tab_length].
  Qed.

  Lemma fromarray_sized F a G Nx Ny Nz :
    fromarray F a = Ok G -> sized F Nx Ny Nz -> sized G Nx Ny Nz.
  Proof.
    unfold fromarray. destruct (Nat.eqb_spec (List.length a) (List.length (farr F))) as [E|E].
    - intros H S. injection H as <-. apply sized_with_arr; assumption.
    - destruct (_ =? 1); [|discriminate]. intros H S. injection H as <-.
      apply sized_with_arr; [exact S|apply tab_length].
  Qed.

  Lemma pml_face_sized a zref zs prof st c st' Nx Ny Nz :
    pml_face a zref zs prof st c = Ok st' ->
    sized (fst st) Nx Ny Nz /\ sized (snd st) Nx Ny Nz ->
    sized (fst st') Nx Ny Nz /\ sized (snd st') Nx Ny Nz.
  Proof.
    unfold pml_face. intros H S. binv H ie0 H1. binv H sg0 H2.
    revert H. apply (seq_upd_inv (fun st => sized (fst st) Nx Ny Nz /\ sized (snd st) Nx Ny Nz)); [exact S|].
    intros [u v] z [u' v'] _ [Su Sv] E. cbn [fst snd] in *. binv E ie Hie. binv E sg Hsg.
    injection E as <- <-. split; eapply setitem_sized; eassumption.
  Qed.

  Lemma fill_pml_sized env n bl bh ie sg r Nx Ny Nz :
    fill_pml env n bl bh ie sg = Ok r -> sized ie Nx Ny Nz -> sized sg Nx Ny Nz ->
    sized (fst r) Nx Ny Nz /\ sized (snd r) Nx Ny Nz.
  Proof.
    unfold fill_pml. intros H Si Ss. binv H P1 H1. binv H P2 H2. injection H as <-. cbn [fst snd].
    set (ok := fun P : @Pml T => sized (pm_ie P) Nx Ny Nz /\ sized (pm_sg P) Nx Ny Nz).
    assert (A1 : ok P1).
    { revert H1. apply (seq_upd_inv ok); [split; assumption|].
      intros P a P' _ OP E. unfold pml_low in E. destruct (named _ _); [|injection E as <-; exact OP].
      binv E sx Hsx. binv E st Hst. injection E as <-. unfold ok. cbn [pm_ie pm_sg].
      revert Hst. apply (seq_upd_inv (fun st => sized (fst st) Nx Ny Nz /\ sized (snd st) Nx Ny Nz)); [exact OP|].
      intros st0 c st1 _ S0 E0. eapply pml_face_sized; eassumption. }
    revert H2. apply (seq_upd_inv ok); [exact A1|].
    intros P a P' _ OP E. unfold pml_high in E. destruct (named _ _); [|injection E as <-; exact OP].
    binv E sx Hsx. binv E st Hst. injection E as <-. unfold ok. cbn [pm_ie pm_sg].
    revert Hst. apply (seq_upd_inv (fun st => sized (fst st) Nx Ny Nz /\ sized (snd st) Nx Ny Nz)); [exact OP|].
    intros st0 c st1 _ S0 E0. eapply pml_face_sized; eassumption.
  Qed.
End Sizes.

(** Mask value of cell (i,j,k) (C-order reshape of the flat mask). *)
Definition cell_mask (Ny Nz : nat) (mask : list bool) (i j k : nat) : bool :=
  nth ((i * Ny + j) * Nz + k) mask false.

Section Mats.
  Context {T : Type} {NT : Num T} {LT : NumLaws T} {OT : NumOrd T}.
  Add Field field_T_mats : (@num_field T NT LT).
  Implicit Types F G : Field T.

  Lemma mask_arr_ok Nx Ny Nz mask (f : T -> T) a : mask_arr Nx Ny Nz mask f = Ok a ->
    List.length mask = Nx * Ny * Nz /\ shape a = [Nx; Ny; Nz] /\
    forall i j k, i < Nx -> j < Ny -> k < Nz ->
      get (dat a) ((i * Ny + j) * Nz + k) =
      f (if cell_mask Ny Nz mask i j k then none_ else nzero).
  Proof.
    unfold mask_arr. destruct (Nat.eqb_spec (List.length mask) (Nx * Ny * Nz)) as [E|E]; [|discriminate].
    intros H. injection H as <-. split; [exact E|]. split; [reflexivity|].
    intros i j k Hi Hj Hk. cbn [dat]. unfold get, cell_mask.
    pose proof (corder_lt _ _ _ _ _ _ Hi Hj Hk) as Hp.
    rewrite (nth_indep _ nzero (f (if false then none_ else nzero))).
    - exact (map_nth (fun b : bool => f (if b then none_ else nzero)) mask false _).
    - rewrite map_length, E. exact Hp.
  Qed.

  Lemma clear_mask_spec F mask G Nx Ny Nz :
    sized F Nx Ny Nz -> clear_mask Nx Ny Nz F mask = Ok G ->
    sized G Nx Ny Nz /\ forall c i j k, c < 3 -> i < Nx -> j < Ny -> k < Nz ->
      entry G c i j k = if cell_mask Ny Nz mask i j k then nzero else entry F c i j k.
  Proof.
    intros S H. unfold clear_mask in H. binv H m Hm. binv H P HP.
    destruct (mask_arr_ok _ _ _ _ _ _ Hm) as [_ [Sh Am]].
    destruct S as [W [X [Y Z]]].
    destruct (mul_matrix F m W) as [P' [EP [WP [XP [YP [ZP AP]]]]]]; [congruence|].
    rewrite HP in EP. injection EP as <-.
    destruct (add_field_spec F P W WP XP YP ZP) as [G' [EG [WG [XG [YG [ZG AG]]]]]].
    rewrite H in EG. injection EG as <-.
    split; [split; [exact WG|]; split; [|split]; congruence|].
    intros c i j k Hc Hi Hj Hk. rewrite AG, AP by congruence.
    rewrite Y, Z, Am by assumption.
    destruct (cell_mask Ny Nz mask i j k); ring.
  Qed.

  Lemma add_mask_spec F mask f G Nx Ny Nz :
    sized F Nx Ny Nz -> add_mask Nx Ny Nz F mask f = Ok G ->
    sized G Nx Ny Nz /\ forall c i j k, c < 3 -> i < Nx -> j < Ny -> k < Nz ->
      entry G c i j k = nadd (entry F c i j k)
                          (f (if cell_mask Ny Nz mask i j k then none_ else nzero)).
  Proof.
    intros S H. unfold add_mask in H. binv H m Hm.
    destruct (mask_arr_ok _ _ _ _ _ _ Hm) as [_ [Sh Am]].
    destruct S as [W [X [Y Z]]].
    destruct (add_matrix F m W) as [G' [EG [WG [XG [YG [ZG AG]]]]]]; [congruence|].
    rewrite H in EG. injection EG as <-.
    split; [split; [exact WG|]; split; [|split]; congruence|].
    intros c i j k Hc Hi Hj Hk. rewrite AG by congruence.
    rewrite Y, Z, Am by assumption. reflexivity.
  Qed.

  Lemma over_ext_0 e x0 : over_ext (nmul nzero none_) e x0 = nzero.
  Proof.
    destruct e as [x|]; [|reflexivity]. cbn [over_ext].
    rewrite (Fdiv_def num_field). ring.
  Qed.
  Lemma over_ext_1 e x0 : over_ext (nmul none_ none_) e x0 = over_ext none_ e x0.
  Proof.
    destruct e as [x|]; [|reflexivity]. cbn [over_ext]. f_equal. ring.
  Qed.

  Definition mats_sized (M : Mats T) (Nx Ny Nz : nat) : Prop :=
    sized (mt_ieps M) Nx Ny Nz /\ sized (mt_imu M) Nx Ny Nz /\ sized (mt_sigma M) Nx Ny Nz.

  Lemma apply_solid_spec env Nx Ny Nz sbg M so M' :
    mats_sized M Nx Ny Nz -> apply_solid env Nx Ny Nz sbg M so = Ok M' ->
    mats_sized M' Nx Ny Nz /\ exists e, find_material (so_mat so) = Ok e /\
      mt_cond M' = (match me_sigma e with Some _ => true | None => mt_cond M end) /\
      forall c i j k, c < 3 -> i < Nx -> j < Ny -> k < Nz ->
        let inside := cell_mask Ny Nz (so_mask so) i j k in
        entry (mt_ieps M') c i j k =
          (if inside then over_ext none_ (me_eps e) (e_eps0 env) else entry (mt_ieps M) c i j k) /\
        entry (mt_imu M') c i j k =
          (if inside then over_ext none_ (me_mu e) (e_mu0 env) else entry (mt_imu M) c i j k) /\
        entry (mt_sigma M') c i j k =
          match me_sigma e with
          | Some s => if inside then s else entry (mt_sigma M) c i j k
          | None => if nltb nzero sbg && inside then nzero else entry (mt_sigma M) c i j k
          end.
  Proof.
    intros [S1 [S2 S3]] H. unfold apply_solid in H. binv H e He.
    binv H ie0 H1. binv H im0 H2. binv H ie H3. binv H im H4.
    destruct (clear_mask_spec _ _ _ _ _ _ S1 H1) as [Sa Aa].
    destruct (clear_mask_spec _ _ _ _ _ _ S2 H2) as [Sb Ab].
    destruct (add_mask_spec _ _ _ _ _ _ _ Sa H3) as [Sc Ac].
    destruct (add_mask_spec _ _ _ _ _ _ _ Sb H4) as [Sd Ad].
    assert (Aie : forall c i j k, c < 3 -> i < Nx -> j < Ny -> k < Nz ->
      entry ie c i j k = if cell_mask Ny Nz (so_mask so) i j k
        then over_ext none_ (me_eps e) (e_eps0 env) else entry (mt_ieps M) c i j k).
    { intros c i j k Hc Hi Hj Hk. rewrite Ac, Aa by assumption.
      destruct (cell_mask _ _ _ _ _ _); [rewrite over_ext_1|rewrite over_ext_0]; ring. }
    assert (Aim : forall c i j k, c < 3 -> i < Nx -> j < Ny -> k < Nz ->
      entry im c i j k = if cell_mask Ny Nz (so_mask so) i j k
        then over_ext none_ (me_mu e) (e_mu0 env) else entry (mt_imu M) c i j k).
    { intros c i j k Hc Hi Hj Hk. rewrite Ad, Ab by assumption.
      destruct (cell_mask _ _ _ _ _ _); [rewrite over_ext_1|rewrite over_ext_0]; ring. }
    destruct (me_sigma e) as [s|] eqn:Es.
    - binv H sg0 H5. binv H sg H6. injection H as <-.
      destruct (clear_mask_spec _ _ _ _ _ _ S3 H5) as [Se Ae].
      destruct (add_mask_spec _ _ _ _ _ _ _ Se H6) as [Sf Af].
      split; [split; [exact Sc|split; [exact Sd|exact Sf]]|].
      exists e. split; [exact He|]. rewrite Es. split; [reflexivity|].
      intros c i j k Hc Hi Hj Hk. cbn [mt_ieps mt_imu mt_sigma].
      split; [apply Aie; assumption|]. split; [apply Aim; assumption|].
      rewrite Af, Ae by assumption. destruct (cell_mask _ _ _ _ _ _); ring.
    - destruct (nltb nzero sbg) eqn:El.
      + binv H sg H5. injection H as <-. destruct (clear_mask_spec _ _ _ _ _ _ S3 H5) as [Se Ae].
        split; [split; [exact Sc|split; [exact Sd|exact Se]]|].
        exists e. split; [exact He|]. rewrite Es. split; [reflexivity|].
        intros c i j k Hc Hi Hj Hk. cbn [mt_ieps mt_imu mt_sigma].
        split; [apply Aie; assumption|]. split; [apply Aim; assumption|].
        rewrite Ae by assumption. reflexivity.
      + injection H as <-. split; [split; [exact Sc|split; [exact Sd|exact S3]]|].
        exists e. split; [exact He|]. rewrite Es. split; [reflexivity|].
        intros c i j k Hc Hi Hj Hk. cbn [mt_ieps mt_imu mt_sigma].
        split; [apply Aie; assumption|]. split; [apply Aim; assumption|]. reflexivity.
  Qed.

  Lemma uniform_field_spec Nx Ny Nz (x : T) :
    exists F, uniform_field Nx Ny Nz x = Ok F /\ sized F Nx Ny Nz /\
      forall c i j k, c < 3 -> i < Nx -> j < Ny -> k < Nz -> entry F c i j k = x.
  Proof.
    unfold uniform_field.
    destruct (mul_number (field_ones Nx Ny Nz) x (wf_ones _ _ _)) as [F [E [W [X [Y [Z A]]]]]].
    exists F. split; [exact E|]. split; [split; auto|].
    intros c i j k Hc Hi Hj Hk. rewrite A by assumption. rewrite entry_ones by assumption. ring.
  Qed.

  (** Value of a cell: the last solid containing it, else the background. *)
  Definition last_hit (Ny Nz : nat) (solids : list (solid T)) (i j k : nat) : option (material T) :=
    fold_left (fun acc so => if cell_mask Ny Nz (so_mask so) i j k then Some (so_mat so) else acc)
              solids None.

  Lemma build_materials_sized env Nx Ny Nz bg c0 solids M :
    build_materials env Nx Ny Nz bg c0 solids = Ok M -> mats_sized M Nx Ny Nz.
  Proof.
    unfold build_materials. intros H. binv H e He. binv H ie H1. binv H im H2. binv H sg H3.
    destruct (uniform_field_spec Nx Ny Nz (over_ext none_ (me_eps e) (e_eps0 env))) as [F1 [E1 [S1 _]]].
    destruct (uniform_field_spec Nx Ny Nz (over_ext none_ (me_mu e) (e_mu0 env))) as [F2 [E2 [S2 _]]].
    destruct (uniform_field_spec Nx Ny Nz (match me_sigma e with Some s => s | None => nzero end)) as [F3 [E3 [S3 _]]].
    rewrite H1 in E1. rewrite H2 in E2. rewrite H3 in E3.
    injection E1 as <-. injection E2 as <-. injection E3 as <-.
    revert H. apply (seq_upd_inv (fun M => mats_sized M Nx Ny Nz)); [repeat split; try apply S1; try apply S2; try apply S3|].
    intros M0 so M1 _ S0 E. destruct (apply_solid_spec _ _ _ _ _ _ _ _ S0 E) as [S _]. exact S.
  Qed.

  (** ** What a constructed solver contains *)
  Lemma construct_spec env (g : Grid T) ar s g' :
    grid_ok g -> construct env g ar = Ok (s, g') ->
    let Nx := gNx g in let Ny := gNy g in let Nz := gNz g in
    exists bo M, apply_bc g (sbl s) (sbh s) = Ok bo /\
      (sbl s, sbh s) = mpi_bc (ar_mpi ar) (ar_bl ar) (ar_bh ar) /\
      build_materials env Nx Ny Nz (ar_bg ar) (bo_pml bo) (ar_solids ar) = Ok M /\
      mats_sized M Nx Ny Nz /\
      (if bo_pml bo then fill_pml env (ar_npml ar) (sbl s) (sbh s) (mt_ieps M) (mt_sigma M)
       else Ok (mt_ieps M, mt_sigma M)) = Ok (sieps s, ssigma s) /\
      (exists dt0, (match ar_dt ar with
               | Some dt => Ok dt
               | None => cfl_dt env (ar_cfln ar) (diff (gx g)) (diff (gy g)) (diff (gz g))
               end) = Ok dt0 /\ relax_dt (mt_cond M) dt0 (sieps s) (ssigma s) = Ok (sdt s)) /\
      sNx s = Nx /\ sNy s = Ny /\ sNz s = Nz /\
      sE s = field_zeros Nx Ny Nz /\ sH s = field_zeros Nx Ny Nz /\ sJ s = field_zeros Nx Ny Nz /\
      simu s = mt_imu M /\ siDeps s = farr (sieps s) /\ siDmu s = farr (simu s) /\
      scond s = mt_cond M /\ sabc s = bo_abc bo /\ spml s = bo_pml bo /\
      sized (sieps s) Nx Ny Nz /\ sized (simu s) Nx Ny Nz /\ sized (ssigma s) Nx Ny Nz /\
      sstep0 s = true /\
      smH s = prodH (3 * (Nx * Ny * Nz)) (giA g) (siDmu s) (bo_C bo) (gL g) /\
      smE s = prodE (3 * (Nx * Ny * Nz)) (siDeps s) (bo_itA bo) (bo_C bo) (bo_tL bo) /\
      sops s = Some {| opL := gL g; opiA := giA g; optL := bo_tL bo; opitA := bo_itA bo;
                       opC := bo_C bo |} /\
      g' = with_dual g (bo_tL bo) (bo_itA bo).
  Proof.
    intros Hg H Nx Ny Nz. unfold construct in H. fold Nx Ny Nz in H.
    destruct (mpi_bc (ar_mpi ar) (ar_bl ar) (ar_bh ar)) as [bl bh] eqn:Em.
    binv H bo Hbo. binv H M HM. binv H ms Hms. binv H dt0 Hdt0. binv H dt Hdt.
    injection H as <- <-. cbn. exists bo, M.
    pose proof (build_materials_sized _ _ _ _ _ _ _ _ HM) as SM.
    assert (Sms : sized (fst ms) Nx Ny Nz /\ sized (snd ms) Nx Ny Nz).
    { destruct (bo_pml bo).
      - eapply fill_pml_sized; [exact Hms|apply SM|apply SM].
      - injection Hms as <-. split; apply SM. }
    destruct Sms as [Sie Ssg]. destruct ms as [ie sg]. cbn [fst snd] in *.
    repeat (split; [first [assumption|reflexivity|apply SM|eauto]|]). reflexivity.
  Qed.
End Mats.
