(** Lemmas: materials of a cell, boundary names, sharing of the grid. *)
From Coq Require Import List Arith ZArith Bool String Lia Ring Field.
From Verif Require Import Num Vec Index Matrix FieldModel FieldSpec FieldProofs FieldProofs2
  GridModel GridProofs SolverModel SolverPlanes SolverBuild SolverMaterials SolverKern SolverCons SolverSpec
  SolverFlux SolverEnergy SolverOps SolverFrozen SolverLocal SolverRestart.
Import ListNotations.

Section Cells.
  Context {T : Type} {NT : Num T} {LT : NumLaws T} {OT : NumOrd T}.

  Lemma marked_mask Ny Nz (so : solid T) i j k : marked Ny Nz so i j k <-> cell_mask Ny Nz (so_mask so) i j k = true.
  Proof. unfold marked, cell_mask. replace ((i * Ny + j) * Nz + k) with (k + Nz * (j + Ny * i)) by lia. reflexivity. Qed.

  Lemma cell_material_decides bg (solids : list (solid T)) Ny Nz i j k m :
    decides Ny Nz bg solids i j k m -> cell_material bg solids Ny Nz i j k = m.
  Proof.
    assert (Z : forall (l : list (solid T)) (m0 : material T), (forall t, In t l -> ~ marked Ny Nz t i j k) ->
      fold_left (fun acc so => if cell_mask Ny Nz (so_mask so) i j k then so_mat so else acc) l m0 = m0).
    { induction l as [|t l IH]; intros m0 H; [reflexivity|]. cbn [fold_left].
      destruct (cell_mask Ny Nz (so_mask t) i j k) eqn:E.
      - exfalso. apply (H t); [left; reflexivity|apply marked_mask, E].
      - apply IH. intros u Hu. apply H. right. exact Hu. }
    unfold cell_material. intros [(b & so & a & -> & Hm & Ha & ->)|[H ->]]; [|apply Z, H].
    rewrite fold_left_app. cbn [fold_left]. rewrite Z by exact Ha.
    apply marked_mask in Hm. rewrite Hm. reflexivity.
  Qed.

  Lemma decides_exists bg (solids : list (solid T)) Ny Nz i j k : exists m, decides Ny Nz bg solids i j k m.
  Proof.
    induction solids as [|t l [m IH]] using rev_ind.
    - exists bg. right. split; [intros t []|reflexivity].
    - destruct (cell_mask Ny Nz (so_mask t) i j k) eqn:E.
      + exists (so_mat t). left. exists l, t, []. split; [reflexivity|]. split; [apply marked_mask, E|]. split; [intros u []|reflexivity].
      + assert (N : ~ marked Ny Nz t i j k) by (rewrite marked_mask, E; discriminate).
        exists m. destruct IH as [(b & so & a & -> & Hm & Ha & ->)|[H ->]].
        * left. exists b, so, (a ++ [t]). split; [rewrite <- app_assoc; reflexivity|]. split; [exact Hm|].
          split; [|reflexivity]. intros u Hu. apply in_app_iff in Hu. destruct Hu as [Hu|[<-|[]]]; [apply Ha, Hu|exact N].
        * right. split; [|reflexivity]. intros u Hu. apply in_app_iff in Hu. destruct Hu as [Hu|[<-|[]]]; [apply H, Hu|exact N].
  Qed.

  Lemma over_ext_inverse (x : ext_num T) u v : v = over_ext none_ x u <-> is_inverse v x u.
  Proof. destruct x; reflexivity. Qed.

  Lemma cell_values env g g' ar (s : Solver T) i j k m e : made env g g' ar s -> spml s = false ->
    i < gNx g -> j < gNy g -> k < gNz g ->
    decides (gNy g) (gNz g) (ar_bg ar) (ar_solids ar) i j k m -> find_material m = Ok e ->
    forall c, c < 3 -> is_inverse (entry (sieps s) c i j k) (me_eps e) (e_eps0 env) /\
                       is_inverse (entry (simu s) c i j k) (me_mu e) (e_mu0 env).
  Proof.
    intros Hm Hp Hi Hj Hk Hd Hf c Hc.
    destruct (made_values _ _ _ _ _ Hm) as (M & bo & _ & HM & _ & Emu & _ & _ & _ & Ee).
    destruct (build_values _ _ _ _ _ _ _ _ HM i j k Hi Hj Hk) as (e' & He' & V).
    rewrite (cell_material_decides _ _ _ _ _ _ _ _ Hd), Hf in He'. injection He' as <-.
    destruct (V c Hc) as [V1 V2]. destruct (Ee Hp) as [-> _]. rewrite Emu.
    split; apply over_ext_inverse; assumption.
  Qed.
  Lemma cell_mu env g g' ar (s : Solver T) i j k m e : made env g g' ar s ->
    i < gNx g -> j < gNy g -> k < gNz g ->
    decides (gNy g) (gNz g) (ar_bg ar) (ar_solids ar) i j k m -> find_material m = Ok e ->
    forall c, c < 3 -> is_inverse (entry (simu s) c i j k) (me_mu e) (e_mu0 env).
  Proof.
    intros Hm Hi Hj Hk Hd Hf c Hc.
    destruct (made_values _ _ _ _ _ Hm) as (M & bo & _ & HM & _ & Emu & _ & _ & _ & Ee).
    destruct (build_values _ _ _ _ _ _ _ _ HM i j k Hi Hj Hk) as (e' & He' & V).
    rewrite (cell_material_decides _ _ _ _ _ _ _ _ Hd), Hf in He'. injection He' as <-.
    destruct (V c Hc) as [V1 V2]. rewrite Emu. apply over_ext_inverse; assumption.
  Qed.

  Lemma cell_sigma env g g' ar (s : Solver T) i j k m e ebg : made env g g' ar s -> spml s = false ->
    i < gNx g -> j < gNy g -> k < gNz g ->
    decides (gNy g) (gNz g) (ar_bg ar) (ar_solids ar) i j k m -> find_material m = Ok e ->
    find_material (ar_bg ar) = Ok ebg ->
    ((exists b, me_sigma ebg = Some b /\ nltb nzero b = true) \/
     forall so e', In so (ar_solids ar) -> marked (gNy g) (gNz g) so i j k ->
       find_material (so_mat so) = Ok e' -> me_sigma e' <> None) ->
    forall c, c < 3 -> entry (ssigma s) c i j k = match me_sigma e with Some x => x | None => nzero end.
  Proof.
    intros Hm Hp Hi Hj Hk Hd Hf Hb Hcond c Hc.
    destruct (made_values _ _ _ _ _ Hm) as (M & bo & _ & HM & _ & Emu & _ & _ & _ & Ee).
    destruct (build_sigma _ _ _ _ _ _ _ _ _ HM Hb i j k Hi Hj Hk) as (e' & He' & V).
    { destruct Hcond as [Hq|Hq]; [left; exact Hq|right]. intros so e0 Hin Hmk. apply Hq; [exact Hin|]. apply marked_mask, Hmk. }
    rewrite (cell_material_decides _ _ _ _ _ _ _ _ Hd), Hf in He'. injection He' as <-.
    destruct (Ee Hp) as [_ ->]. apply V, Hc.
  Qed.

  Lemma pec_frozen env g g' ar (s : Solver T) h s' i j k m d : made env g g' ar s -> spml s = false ->
    run s h = Ok s' -> in_box (gNx g) (gNy g) (gNz g) d i j k ->
    decides (gNy g) (gNz g) (ar_bg ar) (ar_solids ar) i j k (MName m) -> lower m = "pec"%string ->
    Forall keeps_E h ->
    (sstep0 s = false \/ ~ ghost_edge (gNx g) (gNy g) (gNz g) d i j k \/ entry (sE s) d i j k = nzero) ->
    entry (sE s') d i j k = entry (sE s) d i j k.
  Proof.
    intros Hm Hp Hr Hin Hd Hl Hh Hf. pose proof Hin as (Hc & Hi & Hj & Hk).
    assert (F : find_material (MName m : material T) =
      Ok {| me_eps := Inf; me_mu := Fin none_; me_sigma := None |}) by (cbn [find_material]; rewrite Hl; reflexivity).
    destruct (cell_values _ _ _ _ _ _ _ _ _ _ Hm Hp Hi Hj Hk Hd F d Hc) as [Z _].
    eapply dead_E; try eassumption.
  Qed.
End Cells.

Section Recase.
  Context {T : Type} {NT : Num T} {LT : NumLaws T} {OT : NumOrd T}.

  Lemma seq_upd_ext {A B} (f g : A -> B -> result A) l : (forall a b, In b l -> f a b = g a b) ->
    forall a, seq_upd f a l = seq_upd g a l.
  Proof.
    induction l as [|b l IH]; intros H a; [reflexivity|]. cbn [seq_upd].
    rewrite H by (left; reflexivity). destruct (g a b); cbn [bind]; [|reflexivity].
    apply IH. intros a' b' Hb. apply H. right. exact Hb.
  Qed.

  Lemma recased_named s t n : recased s t -> named s n = named t n.
  Proof. intros [H _]. unfold named. rewrite H. reflexivity. Qed.
  Lemma recased_pec s t : recased s t -> is_pec s = is_pec t.
  Proof. intros H. unfold is_pec. rewrite !(recased_named s t) by exact H. reflexivity. Qed.
  Lemma recased_pmc_any s t : recased s t -> is_pmc_any s = is_pmc_any t.
  Proof. intros H. unfold is_pmc_any. rewrite !(recased_named s t) by exact H. reflexivity. Qed.
  Lemma recased_pmc_face s t : recased s t -> is_pmc_face s = is_pmc_face t.
  Proof.
    intros H. unfold is_pmc_face. rewrite !(recased_named s t) by exact H. f_equal.
    destruct H as [H1 H2]. destruct (String.eqb_spec s "pmc") as [->|N].
    - rewrite <- H2 by reflexivity. reflexivity.
    - destruct (String.eqb_spec t "pmc") as [E|N']; [|reflexivity]. exfalso. apply N. subst t.
      apply H2. rewrite H1. reflexivity.
  Qed.

  Lemma any_bc_ext p b b' : (forall a, a < 3 -> p (bc_at b a) = p (bc_at b' a)) -> any_bc p b = any_bc p b'.
  Proof. intros H. unfold any_bc, axes. cbn [existsb]. rewrite !H by lia. reflexivity. Qed.
  Lemma bc_mask_ext Nx Ny Nz (lo hi lo' hi' : nat -> T) :
    (forall a, a < 3 -> lo a = lo' a /\ hi a = hi' a) -> bc_mask Nx Ny Nz lo hi = bc_mask Nx Ny Nz lo' hi'.
  Proof.
    intros H. unfold bc_mask. f_equal. unfold mask_assigns, axes. cbn.
    destruct (H 0) as [-> ->]; [lia|]. destruct (H 1) as [-> ->]; [lia|]. destruct (H 2) as [-> ->]; [lia|]. reflexivity.
  Qed.

  Lemma axes_lt a : In a axes -> a < 3.
  Proof. cbn. lia. Qed.

  Lemma apply_bc_recased (g : Grid T) bl bh bl' bh' : recased3 bl bl' -> recased3 bh bh' ->
    apply_bc g bl bh = apply_bc g bl' bh'.
  Proof.
    intros Hl Hh. unfold apply_bc.
    rewrite (any_bc_ext (fun s => named s "periodic") bl bl') by (intros; apply recased_named, Hl; assumption).
    rewrite (any_bc_ext is_pec bl bl') by (intros; apply recased_pec, Hl; assumption).
    rewrite (any_bc_ext is_pec bh bh') by (intros; apply recased_pec, Hh; assumption).
    rewrite (any_bc_ext is_pmc_any bl bl') by (intros; apply recased_pmc_any, Hl; assumption).
    rewrite (any_bc_ext is_pmc_any bh bh') by (intros; apply recased_pmc_any, Hh; assumption).
    rewrite (any_bc_ext (fun s => named s "abc") bl bl') by (intros; apply recased_named, Hl; assumption).
    rewrite (any_bc_ext (fun s => named s "abc") bh bh') by (intros; apply recased_named, Hh; assumption).
    rewrite (any_bc_ext (fun s => named s "pml") bl bl') by (intros; apply recased_named, Hl; assumption).
    rewrite (any_bc_ext (fun s => named s "pml") bh bh') by (intros; apply recased_named, Hh; assumption).
    rewrite (seq_upd_ext (fun tm a => if named (bc_at bl a) "periodic" && named (bc_at bh a) "periodic"
        then wrap_axis (gL g) (giA g) tm a else Ok tm)
      (fun tm a => if named (bc_at bl' a) "periodic" && named (bc_at bh' a) "periodic"
        then wrap_axis (gL g) (giA g) tm a else Ok tm)).
    2:{ intros tm a Ha. apply axes_lt in Ha.
        rewrite (recased_named _ _ _ (Hl a Ha)), (recased_named _ _ _ (Hh a Ha)). reflexivity. }
    destruct (if any_bc (fun s => named s "periodic") bl' then _ else _) as [tm|]; [|reflexivity]. cbn [bind].
    rewrite (bc_mask_ext _ _ _ (fun a => if is_pec (bc_at bl a) then nzero else none_)
      (fun a => if is_pec (bc_at bh a) then nzero else none_)
      (fun a => if is_pec (bc_at bl' a) then nzero else none_)
      (fun a => if is_pec (bc_at bh' a) then nzero else none_)).
    2:{ intros a Ha. rewrite (recased_pec _ _ (Hl a Ha)), (recased_pec _ _ (Hh a Ha)). auto. }
    destruct (if any_bc is_pec bl' || any_bc is_pec bh' then _ else _) as [C1|]; [|reflexivity]. cbn [bind].
    rewrite (bc_mask_ext _ _ _
      (fun a => if is_pmc_face (bc_at bl a) then nzero else if is_pec (bc_at bl a) then nzero else none_)
      (fun a => if is_pmc_face (bc_at bh a) then nzero else if is_pec (bc_at bh a) then nzero else none_)
      (fun a => if is_pmc_face (bc_at bl' a) then nzero else if is_pec (bc_at bl' a) then nzero else none_)
      (fun a => if is_pmc_face (bc_at bh' a) then nzero else if is_pec (bc_at bh' a) then nzero else none_)).
    2:{ intros a Ha. rewrite (recased_pec _ _ (Hl a Ha)), (recased_pec _ _ (Hh a Ha)),
          (recased_pmc_face _ _ (Hl a Ha)), (recased_pmc_face _ _ (Hh a Ha)). auto. }
    destruct (if any_bc is_pmc_any bl' || any_bc is_pmc_any bh' then _ else _) as [C2|]; [|reflexivity]. cbn [bind].
    rewrite (seq_upd_ext (fun tm a => if named (bc_at bh a) "abc" then wrap_axis (gL g) (giA g) tm a else Ok tm)
      (fun tm a => if named (bc_at bh' a) "abc" then wrap_axis (gL g) (giA g) tm a else Ok tm)).
    2:{ intros t a Ha. apply axes_lt in Ha. rewrite (recased_named _ _ _ (Hh a Ha)). reflexivity. }
    reflexivity.
  Qed.

  Lemma fill_pml_recased (env : Env T) n bl bh bl' bh' ie sg : recased3 bl bl' -> recased3 bh bh' ->
    fill_pml env n bl bh ie sg = fill_pml env n bl' bh' ie sg.
  Proof.
    intros Hl Hh. unfold fill_pml.
    rewrite (seq_upd_ext (pml_low env n bl) (pml_low env n bl')).
    2:{ intros P a Ha. apply axes_lt in Ha. unfold pml_low. rewrite (recased_named _ _ _ (Hl a Ha)). reflexivity. }
    destruct (seq_upd (pml_low env n bl') _ axes) as [P|]; [|reflexivity]. cbn [bind].
    rewrite (seq_upd_ext (pml_high env n bh) (pml_high env n bh')); [reflexivity|].
    intros Q a Ha. apply axes_lt in Ha. unfold pml_high. rewrite (recased_named _ _ _ (Hh a Ha)). reflexivity.
  Qed.

  Definition with_bc (s : Solver T) (bl bh : bc3) : Solver T :=
    {| sNx := sNx s; sNy := sNy s; sNz := sNz s; sE := sE s; sH := sH s; sJ := sJ s;
       sieps := sieps s; simu := simu s; ssigma := ssigma s; siDeps := siDeps s; siDmu := siDmu s;
       sdt := sdt s; scond := scond s; sabc := sabc s; spml := spml s; sbl := bl; sbh := bh;
       sstep0 := sstep0 s; smH := smH s; smE := smE s; sops := sops s |}.

  Lemma mpi_recased mpi bl bh bl' bh' : recased3 bl bl' -> recased3 bh bh' ->
    recased3 (fst (mpi_bc mpi bl bh)) (fst (mpi_bc mpi bl' bh')) /\
    recased3 (snd (mpi_bc mpi bl bh)) (snd (mpi_bc mpi bl' bh')).
  Proof.
    intros Hl Hh. destruct mpi as [[r n]|]; [|auto]. cbn [mpi_bc fst snd].
    split; [destruct (0 <? r)|destruct (r <? n - 1)]; try assumption; intros a Ha; split; reflexivity.
  Qed.

  Lemma construct_recased env g (ar : Args T) bl' bh' s g' :
    recased3 (ar_bl ar) bl' -> recased3 (ar_bh ar) bh' -> construct env g ar = Ok (s, g') ->
    exists bl bh, construct env g (with_names ar bl' bh') = Ok (with_bc s bl bh, g').
  Proof.
    intros Hl Hh. unfold construct. cbn [with_names ar_bl ar_bh ar_bg ar_solids ar_npml ar_cfln ar_dt ar_mpi].
    destruct (mpi_recased (ar_mpi ar) _ _ _ _ Hl Hh) as [Rl Rh].
    destruct (mpi_bc (ar_mpi ar) (ar_bl ar) (ar_bh ar)) as [bl bh].
    destruct (mpi_bc (ar_mpi ar) bl' bh') as [bl2 bh2]. cbn [fst snd] in Rl, Rh.
    rewrite (apply_bc_recased g _ _ _ _ Rl Rh).
    destruct (apply_bc g bl2 bh2) as [bo|]; [|discriminate]. cbn [bind].
    destruct (build_materials env _ _ _ _ _ _) as [M|]; [|discriminate]. cbn [bind].
    rewrite (fill_pml_recased env _ _ _ _ _ _ _ Rl Rh).
    destruct (if bo_pml bo then _ else _) as [ms|]; [|discriminate]. cbn [bind].
    destruct (match ar_dt ar with Some _ => _ | None => _ end) as [dt0|]; [|discriminate]. cbn [bind].
    destruct (relax_dt _ _ _ _) as [dt|]; [|discriminate]. cbn [bind].
    intros E. injection E as <- <-. exists bl2, bh2. reflexivity.
  Qed.

  Lemma first_step_bc (s : Solver T) bl bh :
    first_step (with_bc s bl bh) = match first_step s with Ok s' => Ok (with_bc s' bl bh) | Err e => Err e end.
  Proof.
    unfold first_step. change (sstep0 (with_bc s bl bh)) with (sstep0 s).
    destruct (sstep0 s); [|reflexivity]. unfold set_ghosts.
    change (sH (with_bc s bl bh)) with (sH s). change (sE (with_bc s bl bh)) with (sE s).
    destruct (seq_upd set_plane (sH s) ghost_assigns_H) as [H|]; [|reflexivity]. cbn [bind].
    destruct (seq_upd set_plane (sE s) ghost_assigns_E) as [E|]; [|reflexivity]. cbn [bind].
    unfold attrcleanup, with_bc, with_fields. cbn [sops]. destruct (sops s); reflexivity.
  Qed.

  Lemma one_step_bc (s : Solver T) bl bh :
    one_step (with_bc s bl bh) = match one_step s with Ok s' => Ok (with_bc s' bl bh) | Err e => Err e end.
  Proof.
    unfold one_step. rewrite first_step_bc. destruct (first_step s) as [t|]; [|reflexivity]. cbn [bind].
    change (updH (with_bc t bl bh)) with (updH t). destruct (updH t) as [H|]; [|reflexivity]. cbn [bind].
    change (updE (with_bc t bl bh) H) with (updE t H). destruct (updE t H) as [E|]; [|reflexivity]. cbn [bind].
    change (updJ (with_bc t bl bh) E) with (updJ t E). destruct (updJ t E) as [J|]; reflexivity.
  Qed.

  Lemma do_op_bc (s : Solver T) bl bh o :
    do_op (with_bc s bl bh) o = match do_op s o with Ok s' => Ok (with_bc s' bl bh) | Err e => Err e end.
  Proof.
    destruct o as [|l|l|l| |f]; cbn [do_op].
    - apply one_step_bc.
    - change (sE (with_bc s bl bh)) with (sE s). destruct (fromarray (sE s) l); reflexivity.
    - change (sH (with_bc s bl bh)) with (sH s). destruct (fromarray (sH s) l); reflexivity.
    - change (sJ (with_bc s bl bh)) with (sJ s). destruct (fromarray (sJ s) l); reflexivity.
    - unfold reset_fields. change (sE (with_bc s bl bh)) with (sE s). change (sH (with_bc s bl bh)) with (sH s).
      change (sJ (with_bc s bl bh)) with (sJ s).
      destruct (zero_field (sE s)); [|reflexivity]. cbn [bind].
      destruct (zero_field (sH s)); [|reflexivity]. cbn [bind]. destruct (zero_field (sJ s)); reflexivity.
    - unfold load_state. change (sE (with_bc s bl bh)) with (sE s). change (sH (with_bc s bl bh)) with (sH s).
      change (sJ (with_bc s bl bh)) with (sJ s).
      destruct (fromarray (sE s) (stE f)); [|reflexivity]. cbn [bind].
      destruct (fromarray (sH s) (stH f)); [|reflexivity]. cbn [bind]. destruct (fromarray (sJ s) (stJ f)); reflexivity.
  Qed.

  Lemma run_bc h : forall (s : Solver T) bl bh,
    run (with_bc s bl bh) h = match run s h with Ok s' => Ok (with_bc s' bl bh) | Err e => Err e end.
  Proof.
    induction h as [|o h IH]; intros s bl bh; [reflexivity|]. unfold run in *. cbn [seq_upd].
    rewrite do_op_bc. destruct (do_op s o); [|reflexivity]. cbn [bind]. apply IH.
  Qed.

  Lemma names_case env g (ar : Args T) bl' bh' s g' :
    recased3 (ar_bl ar) bl' -> recased3 (ar_bh ar) bh' -> construct env g ar = Ok (s, g') ->
    exists s2, construct env g (with_names ar bl' bh') = Ok (s2, g') /\
      forall h, match run s h, run s2 h with
                | Ok t, Ok t2 => same_fields t t2
                | Err e, Err e2 => e = e2
                | _, _ => False
                end.
  Proof.
    intros Hl Hh Hc. destruct (construct_recased env g ar bl' bh' s g' Hl Hh Hc) as (bl & bh & E).
    exists (with_bc s bl bh). split; [exact E|]. intros h. rewrite run_bc.
    destruct (run s h); [repeat split|]; reflexivity.
  Qed.

  (** ** The grid object *)
  Lemma seq_upd_id {A B} (f : A -> B -> result A) l : (forall a b, In b l -> f a b = Ok a) ->
    forall a, seq_upd f a l = Ok a.
  Proof.
    induction l as [|b l IH]; intros H a; [reflexivity|]. cbn [seq_upd].
    rewrite H by (left; reflexivity). cbn [bind]. apply IH. intros a' b' Hb. apply H. right. exact Hb.
  Qed.

  Lemma grid_kept env g (ar : Args T) s g' : construct env g ar = Ok (s, g') ->
    (forall a, a < 3 -> ~ (lower (bc_at (sbl s) a) = "periodic" /\ lower (bc_at (sbh s) a) = "periodic")%string /\
                        lower (bc_at (sbh s) a) <> "abc"%string) ->
    g' = g.
  Proof.
    unfold construct. destruct (mpi_bc (ar_mpi ar) (ar_bl ar) (ar_bh ar)) as [bl bh].
    intros H Hn.
    destruct (apply_bc g bl bh) as [bo|] eqn:Eb; [|discriminate]. cbn [bind] in H.
    destruct (build_materials env _ _ _ _ _ _) as [M|]; [|discriminate]. cbn [bind] in H.
    destruct (if bo_pml bo then _ else _) as [ms|]; [|discriminate]. cbn [bind] in H.
    destruct (match ar_dt ar with Some _ => _ | None => _ end) as [dt0|]; [|discriminate]. cbn [bind] in H.
    destruct (relax_dt _ _ _ _) as [dt|]; [|discriminate]. cbn [bind] in H.
    injection H as Hs Hg. subst s. cbn [sbl sbh] in Hn.
    assert (W : bo_tL bo = gtL g /\ bo_itA bo = gitA g).
    { unfold apply_bc in Eb.
      rewrite (seq_upd_id (fun tm a => if named (bc_at bl a) "periodic" && named (bc_at bh a) "periodic"
        then wrap_axis (gL g) (giA g) tm a else Ok tm)) in Eb.
      2:{ intros tm a Ha. apply axes_lt in Ha. destruct (Hn a Ha) as [N _].
          destruct (named (bc_at bl a) "periodic") eqn:E1; [|reflexivity].
          destruct (named (bc_at bh a) "periodic") eqn:E2; [|reflexivity].
          exfalso. apply N. split; apply named_true; assumption. }
      assert (E0 : (if any_bc (fun s => named s "periodic") bl then Ok (gtL g, gitA g) else Ok (gtL g, gitA g)) =
                   @Ok (Field T * Field T) (gtL g, gitA g)) by (destruct (any_bc _ bl); reflexivity).
      rewrite E0 in Eb. cbn [bind] in Eb.
      destruct (if any_bc is_pec bl || any_bc is_pec bh then _ else _) as [C1|]; [|discriminate]. cbn [bind] in Eb.
      destruct (if any_bc is_pmc_any bl || any_bc is_pmc_any bh then _ else _) as [C2|]; [|discriminate]. cbn [bind] in Eb.
      rewrite (seq_upd_id (fun tm a => if named (bc_at bh a) "abc" then wrap_axis (gL g) (giA g) tm a else Ok tm)) in Eb.
      2:{ intros tm a Ha. apply axes_lt in Ha. destruct (Hn a Ha) as [_ N].
          destruct (named (bc_at bh a) "abc") eqn:E1; [|reflexivity]. exfalso. apply N, named_true. exact E1. }
      destruct (any_bc (fun s => named s "abc") bl || any_bc (fun s => named s "abc") bh); cbn [bind fst snd] in Eb;
        injection Eb as <-; auto. }
    destruct W as [W1 W2]. rewrite <- Hg, W1, W2. destruct g; reflexivity.
  Qed.
End Recase.
