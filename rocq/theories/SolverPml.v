(** Lemmas: the absorbing layers. *)
From Coq Require Import List Arith ZArith Bool String Lia Ring Field.
From Verif Require Import Num Vec Index Matrix FieldModel FieldSpec FieldProofs FieldProofs2
  GridModel GridProofs SolverModel SolverPlanes SolverBuild SolverMaterials SolverPmlSpec.
Import ListNotations.

Section Pml.
  Context {T : Type} {NT : Num T} {OT : NumOrd T}.
  Implicit Types F G : Field T.

  Lemma read_cell_spec F Nx Ny Nz zx zy zz c : sized F Nx Ny Nz -> c < 3 ->
    in_axis Nx zx -> in_axis Ny zy -> in_axis Nz zz ->
    read_cell F zx zy zz c = Ok (entry F c (pypos Nx zx) (pypos Ny zy) (pypos Nz zz)).
  Proof.
    intros [W [X [Y Z]]] Hc Hx Hy Hz. unfold read_cell, cell_key.
    rewrite (getitem_cell _ F zx zy zz (cname c) c (pypos Nx zx) (pypos Ny zy) (pypos Nz zz)).
    - reflexivity.
    - unfold names_component, cname. destruct c as [|[|[|c]]]; [auto..|lia].
    - rewrite X. apply pypos_pyindex, Hx.
    - rewrite Y. apply pypos_pyindex, Hy.
    - rewrite Z. apply pypos_pyindex, Hz.
  Qed.

  Lemma half_in d : 0 < d -> in_axis d (Z.of_nat (d / 2)) /\ pypos d (Z.of_nat (d / 2)) = d / 2.
  Proof.
    intros H. pose proof (Nat.div_lt d 2 H ltac:(lia)). unfold in_axis, pypos. split; [lia|].
    replace (Z.of_nat (d / 2) <? 0)%Z with false by lia. apply Nat2Z.id.
  Qed.

  Lemma pml_ref_spec F Nx Ny Nz a z c : sized F Nx Ny Nz -> c < 3 -> a < 3 ->
    0 < Nx -> 0 < Ny -> 0 < Nz -> in_axis (dim a Nx Ny Nz) z ->
    pml_ref F a z c = Ok (entry3 F c (set_coord a (pypos (dim a Nx Ny Nz) z) (Nx / 2) (Ny / 2) (Nz / 2))).
  Proof.
    intros S Hc Ha Px Py Pz Hz. pose proof S as [W [X [Y Z]]].
    destruct (half_in Nx Px) as [A1 A2]. destruct (half_in Ny Py) as [B1 B2]. destruct (half_in Nz Pz) as [C1 C2].
    unfold pml_ref. rewrite X, Y, Z.
    destruct a as [|[|[|a]]]; [| | |lia]; cbn [dim set_coord entry3] in *;
      rewrite (read_cell_spec F Nx Ny Nz) by assumption; rewrite ?A2, ?B2, ?C2; reflexivity.
  Qed.

  (** One component of one face. *)
  Definition in_zone (a : nat) (zs : list nat) (i j k : nat) : bool := existsb (Nat.eqb (coord a i j k)) zs.

  Lemma layers_spec a c ie0 f Nx Ny Nz (prof : Z -> T) (g : nat -> T) zs : a < 3 -> c < 3 ->
    (forall z, In z zs -> in_axis (dim a Nx Ny Nz) z /\ f (prof z) = g (pypos (dim a Nx Ny Nz) z)) ->
    forall st, sized (fst st) Nx Ny Nz -> sized (snd st) Nx Ny Nz ->
    exists st', seq_upd (fun st z =>
        do ie <- setitem (fst st) (plane_key a z c) (VNum ie0);
        do sg <- setitem (snd st) (plane_key a z c) (VNum (f (prof z)));
        Ok (ie, sg)) st zs = Ok st' /\ sized (fst st') Nx Ny Nz /\ sized (snd st') Nx Ny Nz /\
      forall c' i j k, c' < 3 -> i < Nx -> j < Ny -> k < Nz ->
        let b := (c' =? c) && in_zone a (map (pypos (dim a Nx Ny Nz)) zs) i j k in
        entry (fst st') c' i j k = (if b then ie0 else entry (fst st) c' i j k) /\
        entry (snd st') c' i j k = (if b then g (coord a i j k) else entry (snd st) c' i j k).
  Proof.
    intros Ha Hc. induction zs as [|z zs IH]; intros Hz st S1 S2.
    - exists st. split; [reflexivity|]. split; [exact S1|]. split; [exact S2|].
      intros c' i j k _ _ _ _. unfold in_zone. cbn. rewrite andb_false_r. auto.
    - destruct (Hz z (or_introl eq_refl)) as [Az Gz]. cbn [seq_upd].
      destruct (set_plane_spec (fst st) Nx Ny Nz (c, a, z, ie0) S1 (conj Hc (conj Ha Az))) as [F1 [E1 [T1 A1]]].
      destruct (set_plane_spec (snd st) Nx Ny Nz (c, a, z, f (prof z)) S2 (conj Hc (conj Ha Az))) as [F2 [E2 [T2 A2]]].
      unfold set_plane in E1, E2. rewrite E1. cbn [bind]. rewrite E2. cbn [bind].
      destruct (IH (fun z' H => Hz z' (or_intror H)) (F1, F2) T1 T2) as [st' [E [U1 [U2 A]]]].
      exists st'. split; [exact E|]. split; [exact U1|]. split; [exact U2|].
      intros c' i j k Hc' Hi Hj Hk. destruct (A c' i j k Hc' Hi Hj Hk) as [P1 P2]. cbn zeta in *.
      rewrite P1, P2. cbn [fst snd]. rewrite A1, A2 by assumption. unfold hit, in_zone. cbn [map existsb snd].
      destruct (c' =? c); cbn [andb]; [|auto].
      destruct (existsb (Nat.eqb (coord a i j k)) (map (pypos (dim a Nx Ny Nz)) zs)); cbn [orb].
      + rewrite orb_true_r. auto.
      + rewrite orb_false_r. destruct (Nat.eqb_spec (coord a i j k) (pypos (dim a Nx Ny Nz) z)) as [->|]; [|auto].
        rewrite <- Gz. auto.
  Qed.

  Definition body (ref prof : T) : T := nadd ref (nmul (if nltb ref none_ then none_ else ref) prof).

  Lemma pml_face_spec a zref zs prof g c Nx Ny Nz st : a < 3 -> c < 3 ->
    0 < Nx -> 0 < Ny -> 0 < Nz -> in_axis (dim a Nx Ny Nz) zref ->
    (forall z, In z zs -> in_axis (dim a Nx Ny Nz) z /\ prof z = g (pypos (dim a Nx Ny Nz) z)) ->
    sized (fst st) Nx Ny Nz -> sized (snd st) Nx Ny Nz ->
    exists st', pml_face a zref zs prof st c = Ok st' /\ sized (fst st') Nx Ny Nz /\ sized (snd st') Nx Ny Nz /\
      forall c' i j k, c' < 3 -> i < Nx -> j < Ny -> k < Nz ->
        let b := (c' =? c) && in_zone a (map (pypos (dim a Nx Ny Nz)) zs) i j k in
        let r := set_coord a (pypos (dim a Nx Ny Nz) zref) (Nx / 2) (Ny / 2) (Nz / 2) in
        entry (fst st') c' i j k = (if b then entry3 (fst st) c r else entry (fst st) c' i j k) /\
        entry (snd st') c' i j k =
          (if b then body (entry3 (snd st) c r) (g (coord a i j k)) else entry (snd st) c' i j k).
  Proof.
    intros Ha Hc Px Py Pz Hr Hz S1 S2. unfold pml_face.
    rewrite (pml_ref_spec (fst st) Nx Ny Nz) by assumption. cbn [bind].
    rewrite (pml_ref_spec (snd st) Nx Ny Nz) by assumption. cbn [bind].
    set (r := set_coord a (pypos (dim a Nx Ny Nz) zref) (Nx / 2) (Ny / 2) (Nz / 2)).
    apply (layers_spec a c (entry3 (fst st) c r) (body (entry3 (snd st) c r)) Nx Ny Nz prof
             (fun p => body (entry3 (snd st) c r) (g p)) zs Ha Hc); [|exact S1|exact S2].
    intros z Hin. destruct (Hz z Hin) as [A B]. split; [exact A|]. rewrite B. reflexivity.
  Qed.

  (** All three components of one face whose reference cell is outside the face. *)
  Lemma face_spec a zref zs prof g Nx Ny Nz st : a < 3 ->
    0 < Nx -> 0 < Ny -> 0 < Nz -> in_axis (dim a Nx Ny Nz) zref ->
    (forall z, In z zs -> in_axis (dim a Nx Ny Nz) z /\ prof z = g (pypos (dim a Nx Ny Nz) z)) ->
    ~ In (pypos (dim a Nx Ny Nz) zref) (map (pypos (dim a Nx Ny Nz)) zs) ->
    sized (fst st) Nx Ny Nz -> sized (snd st) Nx Ny Nz ->
    exists st', seq_upd (pml_face a zref zs prof) st axes = Ok st' /\
      sized (fst st') Nx Ny Nz /\ sized (snd st') Nx Ny Nz /\
      forall c i j k, c < 3 -> i < Nx -> j < Ny -> k < Nz ->
        let b := in_zone a (map (pypos (dim a Nx Ny Nz)) zs) i j k in
        let r := set_coord a (pypos (dim a Nx Ny Nz) zref) (Nx / 2) (Ny / 2) (Nz / 2) in
        entry (fst st') c i j k = (if b then entry3 (fst st) c r else entry (fst st) c i j k) /\
        entry (snd st') c i j k =
          (if b then body (entry3 (snd st) c r) (g (coord a i j k)) else entry (snd st) c i j k).
  Proof.
    intros Ha Px Py Pz Hr Hz Hn S1 S2. unfold axes. cbn [seq seq_upd].
    set (zone := in_zone a (map (pypos (dim a Nx Ny Nz)) zs)).
    set (r := set_coord a (pypos (dim a Nx Ny Nz) zref) (Nx / 2) (Ny / 2) (Nz / 2)).
    assert (Rb : let '(i, j, k) := r in i < Nx /\ j < Ny /\ k < Nz /\ zone i j k = false).
    { pose proof (pypos_pyindex _ _ Hr) as Hp. unfold pyindex in Hp.
      pose proof (Nat.div_lt Nx 2 Px ltac:(lia)). pose proof (Nat.div_lt Ny 2 Py ltac:(lia)).
      pose proof (Nat.div_lt Nz 2 Pz ltac:(lia)).
      unfold r, zone, in_zone.
      assert (B : pypos (dim a Nx Ny Nz) zref < dim a Nx Ny Nz) by (unfold pypos; unfold in_axis in Hr; destruct (zref <? 0)%Z eqn:?; lia).
      assert (Q : existsb (Nat.eqb (pypos (dim a Nx Ny Nz) zref)) (map (pypos (dim a Nx Ny Nz)) zs) = false).
      { destruct (existsb _ _) eqn:E; [|reflexivity]. apply existsb_exists in E. destruct E as [x [I J]].
        apply Nat.eqb_eq in J. subst x. contradiction. }
      destruct a as [|[|[|a]]]; [| | |lia]; cbn [set_coord coord dim] in *; auto. }
    destruct (pml_face_spec a zref zs prof g 0 Nx Ny Nz st) as [s1 [E1 [U1 [V1 A1]]]]; try assumption; [lia|].
    rewrite E1. cbn [bind].
    destruct (pml_face_spec a zref zs prof g 1 Nx Ny Nz s1) as [s2 [E2 [U2 [V2 A2]]]]; try assumption; [lia|].
    rewrite E2. cbn [bind].
    destruct (pml_face_spec a zref zs prof g 2 Nx Ny Nz s2) as [s3 [E3 [U3 [V3 A3]]]]; try assumption; [lia|].
    rewrite E3. cbn [bind].
    exists s3. split; [reflexivity|]. split; [exact U3|]. split; [exact V3|].
    cbn zeta in *. fold zone in A1, A2, A3. fold r in A1, A2, A3.
    destruct r as [[ri rj] rk]. destruct Rb as (Ri & Rj & Rk & Rz). cbn [entry3] in *.
    intros c i j k Hc Hi Hj Hk.
    destruct (A3 c i j k Hc Hi Hj Hk) as [-> ->].
    destruct (A2 c i j k Hc Hi Hj Hk) as [-> ->].
    destruct (A1 c i j k Hc Hi Hj Hk) as [-> ->].
    destruct (A2 2 ri rj rk ltac:(lia) Ri Rj Rk) as [-> ->].
    destruct (A1 2 ri rj rk ltac:(lia) Ri Rj Rk) as [-> ->].
    destruct (A1 1 ri rj rk ltac:(lia) Ri Rj Rk) as [-> ->].
    rewrite Rz. cbn [Nat.eqb andb].
    destruct c as [|[|[|c]]]; [| | |lia]; cbn [Nat.eqb andb]; auto.
  Qed.

  (** v[a:a+m] = w with len(w) = m. *)
  Lemma slice_write_spec (v w : list T) key p : resolve (List.length v) key = Ok (seq p (List.length w)) ->
    p + List.length w <= List.length v ->
    exists v', slice_write v key w = Ok v' /\ List.length v' = List.length v /\
      forall x, x < List.length w -> get v' (p + x) = get w x.
  Proof.
    intros E L. unfold slice_write. rewrite E. cbn [bind]. rewrite seq_length.
    unfold bcompat. cbn [rev app]. rewrite Nat.eqb_refl. cbn [orb andb].
    destruct (List.length w =? 1) eqn:E1; cbn [orb andb].
    all: eexists; split; [reflexivity|]; rewrite tab_length; split; [reflexivity|].
    all: intros x Hx; rewrite get_tab by lia; rewrite pos_of_seq;
      replace ((p <=? p + x) && (p + x <? p + List.length w)) with true
        by (symmetry; apply andb_true_intro; split; [apply Nat.leb_le|apply Nat.ltb_lt]; lia).
    all: unfold bget, bflat; cbn [rev app shape dat]; rewrite ?E1; f_equal; try lia.
  Qed.

  Lemma resolve_tail d n : 1 <= n -> n <= d ->
    resolve d (KS (Some (- Z.of_nat n)%Z) None None) = Ok (seq (d - n) n).
  Proof.
    intros H1 H2. unfold resolve, slice_count, clip_pos. cbn [Z.eqb].
    replace (0 <? 1)%Z with true by reflexivity.
    replace (- Z.of_nat n <? 0)%Z with true by lia.
    replace (- Z.of_nat n + Z.of_nat d <? 0)%Z with false by lia.
    replace (Z.of_nat d <? - Z.of_nat n + Z.of_nat d)%Z with false by lia.
    replace (- Z.of_nat n + Z.of_nat d <? Z.of_nat d)%Z with true by lia.
    rewrite Z.div_1_r. replace (- Z.of_nat n + Z.of_nat d)%Z with (Z.of_nat (d - n)) by lia.
    rewrite slice_list_off. do 2 f_equal. lia.
  Qed.

  Context (env : Env T) (n : nat) (bl bh : bc3) (Nx Ny Nz : nat).
  (** The layers fit, and no layer reaches the cell another one takes its material from. *)
  Context (geom_len : forall a b m, List.length (e_geom env a b m) = m) (n_pos : 1 <= n)
          (some_cells : forall a, a < 3 -> 1 <= dim a Nx Ny Nz)
          (room : forall f, snd f < 3 -> named (wall_name bl bh f) "pml" = true -> n + 2 <= dim (snd f) Nx Ny Nz)
          (refs : forall f f', snd f < 3 -> snd f' < 3 -> named (wall_name bl bh f) "pml" = true -> named (wall_name bl bh f') "pml" = true ->
             let '(i, j, k) := ref_cell n Nx Ny Nz f in n <= depth Nx Ny Nz f' i j k).

  Let cover (f : face) (i j k : nat) : bool :=
    named (wall_name bl bh f) "pml" && (depth Nx Ny Nz f i j k <? n).
  Let rc (f : face) := ref_cell n Nx Ny Nz f.

  Definition face_step (P : @Pml T) (f : face) : result (@Pml T) :=
    if fst f then pml_high env n bh P (snd f) else pml_low env n bl P (snd f).

  (** Reference cells lie inside the grid and outside every layer. *)
  Lemma ref_free f f' : snd f < 3 -> snd f' < 3 -> named (wall_name bl bh f) "pml" = true ->
    let '(i, j, k) := rc f in i < Nx /\ j < Ny /\ k < Nz /\ cover f' i j k = false.
  Proof.
    intros H H' Hn. pose proof (refs f f' H H' Hn) as Q. pose proof (room f H Hn) as Rf.
    pose proof (some_cells 0 ltac:(lia)) as Cx. pose proof (some_cells 1 ltac:(lia)) as Cy. pose proof (some_cells 2 ltac:(lia)) as Cz. cbn [dim] in Cx, Cy, Cz.
    pose proof (Nat.div_lt Nx 2 ltac:(lia) ltac:(lia)). pose proof (Nat.div_lt Ny 2 ltac:(lia) ltac:(lia)). pose proof (Nat.div_lt Nz 2 ltac:(lia) ltac:(lia)).
    assert (G : let '(i, j, k) := rc f in i < Nx /\ j < Ny /\ k < Nz).
    { destruct f as [h a]. cbn [snd] in *. unfold rc, ref_cell. cbn [fst snd].
      destruct a as [|[|[|a]]]; [| | |lia]; destruct h; cbn [set_coord dim] in *; lia. }
    fold (rc f) in Q. destruct (rc f) as [[i j] k]. destruct G as (G1 & G2 & G3). repeat (split; [assumption|]).
    unfold cover. destruct (named (wall_name bl bh f') "pml"); [|reflexivity]. cbn [andb]. apply Nat.ltb_ge. apply Q. reflexivity.
  Qed.

  (** What one face leaves. *)
  Lemma face_step_spec P f : snd f < 3 -> sized (pm_ie P) Nx Ny Nz -> sized (pm_sg P) Nx Ny Nz ->
    (forall a, a < 3 -> List.length (pm_prof P a) = dim a Nx Ny Nz) ->
    exists P', face_step P f = Ok P' /\ sized (pm_ie P') Nx Ny Nz /\ sized (pm_sg P') Nx Ny Nz /\
      (forall a, a < 3 -> List.length (pm_prof P' a) = dim a Nx Ny Nz) /\
      forall c i j k, c < 3 -> i < Nx -> j < Ny -> k < Nz ->
        entry (pm_ie P') c i j k = (if cover f i j k then entry3 (pm_ie P) c (rc f) else entry (pm_ie P) c i j k) /\
        entry (pm_sg P') c i j k =
          (if cover f i j k then graded (entry3 (pm_sg P) c (rc f)) (profile env n f (depth Nx Ny Nz f i j k))
           else entry (pm_sg P) c i j k).
  Proof.
    intros Ha S1 S2 HL.
    pose proof (some_cells 0 ltac:(lia)) as Rx. pose proof (some_cells 1 ltac:(lia)) as Ry. pose proof (some_cells 2 ltac:(lia)) as Rz. cbn [dim] in Rx, Ry, Rz.
    destruct f as [hi a]. cbn [snd] in Ha. pose proof (room (hi, a) Ha) as Ra. cbn [snd] in Ra. set (d := dim a Nx Ny Nz) in *.
    unfold face_step, pml_high, pml_low. cbn [fst snd].
    replace (named (bc_at bh a) "pml") with (named (wall_name bl bh (true, a)) "pml") by reflexivity.
    replace (named (bc_at bl a) "pml") with (named (wall_name bl bh (false, a)) "pml") by reflexivity.
    destruct hi.
    - destruct (named (wall_name bl bh (true, a)) "pml") eqn:En.
      2:{ exists P. split; [reflexivity|]. split; [exact S1|]. split; [exact S2|]. split; [exact HL|].
          intros. unfold cover. rewrite En. cbn [andb]. auto. }
      specialize (Ra eq_refl). set (w := e_geom env (e_pml_lo env) (e_pml_hi env) n).
      assert (Lw : List.length w = n) by apply geom_len.
      destruct (slice_write_spec (pm_prof P a) w (KS (Some (- Z.of_nat n)%Z) None None) (d - n)) as [v [Ev [Lv Av]]].
      { rewrite Lw, (HL a Ha). fold d. apply resolve_tail; lia. }
      { rewrite Lw, (HL a Ha). fold d. lia. }
      rewrite Ev. cbn [bind]. rewrite (HL a Ha) in Lv. fold d in Lv.
      set (zs := map (fun i => (- Z.of_nat (i + 1))%Z) (seq 0 n)).
      assert (Hzs : forall z, In z zs -> in_axis d z /\ exists x, x < n /\ pypos d z = d - 1 - x).
      { intros z Hz. unfold zs in Hz. apply in_map_iff in Hz. destruct Hz as [x [<- Hx]]. apply in_seq in Hx.
        unfold in_axis, pypos. split; [lia|]. exists x. split; [lia|].
        replace (- Z.of_nat (x + 1) <? 0)%Z with true by lia. lia. }
      destruct (face_spec a (- (Z.of_nat n + 1)) zs (pyget v) (fun p => get w (p - (d - n))) Nx Ny Nz
                  (pm_ie P, pm_sg P)) as [st [E [U1 [U2 A]]]]; try assumption; try lia.
      { fold d. unfold in_axis. lia. }
      { fold d. intros z Hz. destruct (Hzs z Hz) as [B [x [Hx Ex]]]. split; [exact B|]. rewrite Ex.
        unfold pyget. rewrite Lv. fold (pypos d z). rewrite Ex.
        replace (d - 1 - x) with ((d - n) + (n - 1 - x)) by lia. rewrite Av by lia. f_equal. lia. }
      { fold d. intros Hin. apply in_map_iff in Hin. destruct Hin as [z [Ez Hz]].
        destruct (Hzs z Hz) as [B [x [Hx Ex]]]. rewrite Ex in Ez. unfold pypos in Ez.
        replace (- (Z.of_nat n + 1) <? 0)%Z with true in Ez by lia. lia. }
      rewrite E. cbn [bind]. eexists. split; [reflexivity|]. cbn [pm_ie pm_sg pm_prof].
      split; [exact U1|]. split; [exact U2|]. split.
      { intros b Hb. unfold pm_set. destruct (Nat.eqb_spec b a) as [->|]; [exact Lv|apply HL; exact Hb]. }
      intros c i j k Hc Hi Hj Hk. destruct (A c i j k Hc Hi Hj Hk) as [A1 A2]. cbn zeta in A1, A2. fold d in A1, A2.
      cbn [fst snd] in A1, A2.
      assert (Hx : coord a i j k < d) by (unfold d; destruct a as [|[|[|a]]]; cbn; lia).
      assert (Ez : in_zone a (map (pypos d) zs) i j k = cover (true, a) i j k).
      { unfold cover, depth. rewrite En. cbn [fst snd andb]. fold d. unfold in_zone.
        destruct (Nat.ltb_spec (d - 1 - coord a i j k) n) as [H|H].
        - apply existsb_exists. exists (coord a i j k). split; [|apply Nat.eqb_refl].
          apply in_map_iff. exists (- Z.of_nat (d - 1 - coord a i j k + 1))%Z. split.
          + unfold pypos. replace (- Z.of_nat (d - 1 - coord a i j k + 1) <? 0)%Z with true by lia. lia.
          + unfold zs. apply in_map_iff. exists (d - 1 - coord a i j k). split; [reflexivity|]. apply in_seq. lia.
        - destruct (existsb _ _) eqn:Ee; [|reflexivity]. apply existsb_exists in Ee. destruct Ee as [y [I J]].
          apply Nat.eqb_eq in J. subst y. apply in_map_iff in I. destruct I as [z [Ez Hz]].
          destruct (Hzs z Hz) as [_ [x [Hx' Ex]]]. lia. }
      rewrite Ez in A1, A2. rewrite A1, A2.
      assert (Er : set_coord a (pypos d (- (Z.of_nat n + 1))) (Nx / 2) (Ny / 2) (Nz / 2) = rc (true, a)).
      { unfold rc, ref_cell. cbn [fst snd]. fold d. f_equal. unfold pypos.
        replace (- (Z.of_nat n + 1) <? 0)%Z with true by lia. lia. }
      rewrite Er. split; [reflexivity|]. destruct (cover (true, a) i j k) eqn:Ec; [|reflexivity].
      unfold profile, depth. cbn [fst snd]. fold d. fold w.
      unfold cover, depth in Ec. cbn [fst snd] in Ec. fold d in Ec. apply andb_prop in Ec. destruct Ec as [_ Ec].
      apply Nat.ltb_lt in Ec. unfold graded, body. do 3 f_equal. lia.
    - destruct (named (wall_name bl bh (false, a)) "pml") eqn:En.
      2:{ exists P. split; [reflexivity|]. split; [exact S1|]. split; [exact S2|]. split; [exact HL|].
          intros. unfold cover. rewrite En. cbn [andb]. auto. }
      specialize (Ra eq_refl). set (w := e_geom env (e_pml_hi env) (e_pml_lo env) n).
      assert (Lw : List.length w = n) by apply geom_len.
      destruct (slice_write_spec (pm_prof P a) w (krange 0 (Z.of_nat n)) 0) as [v [Ev [Lv Av]]].
      { rewrite Lw, (HL a Ha). fold d. change 0%Z with (Z.of_nat 0). rewrite resolve_range by lia. do 2 f_equal. lia. }
      { rewrite Lw, (HL a Ha). fold d. lia. }
      rewrite Ev. cbn [bind]. rewrite (HL a Ha) in Lv. fold d in Lv.
      set (zs := map Z.of_nat (seq 0 n)).
      assert (Hzs : forall z, In z zs -> in_axis d z /\ exists x, x < n /\ pypos d z = x).
      { intros z Hz. unfold zs in Hz. apply in_map_iff in Hz. destruct Hz as [x [<- Hx]]. apply in_seq in Hx.
        unfold in_axis, pypos. split; [lia|]. exists x. split; [lia|].
        replace (Z.of_nat x <? 0)%Z with false by lia. lia. }
      destruct (face_spec a (Z.of_nat n + 1) zs (pyget v) (fun p => get w p) Nx Ny Nz
                  (pm_ie P, pm_sg P)) as [st [E [U1 [U2 A]]]]; try assumption; try lia.
      { fold d. unfold in_axis. lia. }
      { fold d. intros z Hz. destruct (Hzs z Hz) as [B [x [Hx Ex]]]. split; [exact B|]. rewrite Ex.
        unfold pyget. rewrite Lv. fold (pypos d z). rewrite Ex. rewrite <- (Av x) by lia. reflexivity. }
      { fold d. intros Hin. apply in_map_iff in Hin. destruct Hin as [z [Ez Hz]].
        destruct (Hzs z Hz) as [B [x [Hx Ex]]]. rewrite Ex in Ez. unfold pypos in Ez.
        replace (Z.of_nat n + 1 <? 0)%Z with false in Ez by lia. lia. }
      rewrite E. cbn [bind]. eexists. split; [reflexivity|]. cbn [pm_ie pm_sg pm_prof].
      split; [exact U1|]. split; [exact U2|]. split.
      { intros b Hb. unfold pm_set. destruct (Nat.eqb_spec b a) as [->|]; [exact Lv|apply HL; exact Hb]. }
      intros c i j k Hc Hi Hj Hk. destruct (A c i j k Hc Hi Hj Hk) as [A1 A2]. cbn zeta in A1, A2. fold d in A1, A2.
      cbn [fst snd] in A1, A2.
      assert (Ez : in_zone a (map (pypos d) zs) i j k = cover (false, a) i j k).
      { unfold cover, depth. rewrite En. cbn [fst snd andb]. unfold in_zone.
        destruct (Nat.ltb_spec (coord a i j k) n) as [H|H].
        - apply existsb_exists. exists (coord a i j k). split; [|apply Nat.eqb_refl].
          apply in_map_iff. exists (Z.of_nat (coord a i j k)). split.
          + unfold pypos. replace (Z.of_nat (coord a i j k) <? 0)%Z with false by lia. lia.
          + unfold zs. apply in_map_iff. exists (coord a i j k). split; [reflexivity|]. apply in_seq. lia.
        - destruct (existsb _ _) eqn:Ee; [|reflexivity]. apply existsb_exists in Ee. destruct Ee as [y [I J]].
          apply Nat.eqb_eq in J. subst y. apply in_map_iff in I. destruct I as [z [Ez Hz]].
          destruct (Hzs z Hz) as [_ [x [Hx' Ex]]]. lia. }
      rewrite Ez in A1, A2. rewrite A1, A2.
      assert (Er : set_coord a (pypos d (Z.of_nat n + 1)) (Nx / 2) (Ny / 2) (Nz / 2) = rc (false, a)).
      { unfold rc, ref_cell. cbn [fst snd]. f_equal. unfold pypos.
        replace (Z.of_nat n + 1 <? 0)%Z with false by lia. lia. }
      rewrite Er. split; reflexivity.
  Qed.

  (** Faces one after the other. *)
  Lemma faces_spec (ie sg : Field T) l : forall done P, (forall f, In f (done ++ l) -> snd f < 3) ->
    sized (pm_ie P) Nx Ny Nz -> sized (pm_sg P) Nx Ny Nz ->
    (forall a, a < 3 -> List.length (pm_prof P a) = dim a Nx Ny Nz) ->
    let val_ie (done : list face) c i j k :=
      fold_left (fun acc f => if cover f i j k then entry3 ie c (rc f) else acc) done (entry ie c i j k) in
    let val_sg (done : list face) c i j k :=
      fold_left (fun acc f => if cover f i j k
                              then graded (entry3 sg c (rc f)) (profile env n f (depth Nx Ny Nz f i j k)) else acc)
        done (entry sg c i j k) in
    (forall c i j k, c < 3 -> i < Nx -> j < Ny -> k < Nz ->
       entry (pm_ie P) c i j k = val_ie done c i j k /\ entry (pm_sg P) c i j k = val_sg done c i j k) ->
    exists P', seq_upd face_step P l = Ok P' /\ sized (pm_ie P') Nx Ny Nz /\ sized (pm_sg P') Nx Ny Nz /\
      (forall a, a < 3 -> List.length (pm_prof P' a) = dim a Nx Ny Nz) /\
      forall c i j k, c < 3 -> i < Nx -> j < Ny -> k < Nz ->
        entry (pm_ie P') c i j k = val_ie (done ++ l) c i j k /\
        entry (pm_sg P') c i j k = val_sg (done ++ l) c i j k.
  Proof.
    induction l as [|f l IH]; intros done P Hf S1 S2 HL vi vs A.
    - exists P. rewrite app_nil_r. auto.
    - assert (Hsf : snd f < 3) by (apply Hf; apply in_or_app; right; left; reflexivity).
      destruct (face_step_spec P f Hsf S1 S2 HL) as [P1 [E1 [U1 [U2 [L1 A1]]]]].
      cbn [seq_upd]. rewrite E1. cbn [bind].
      assert (Eq : done ++ f :: l = (done ++ [f]) ++ l) by (rewrite <- app_assoc; reflexivity).
      rewrite Eq in Hf |- *. apply IH; try assumption.
      intros c i j k Hc Hi Hj Hk. destruct (A1 c i j k Hc Hi Hj Hk) as [-> ->].
      destruct (A c i j k Hc Hi Hj Hk) as [-> ->]. rewrite !fold_left_app. cbn [fold_left].
      destruct (cover f i j k) eqn:Ecv; [|split; reflexivity].
      assert (Hnf : named (wall_name bl bh f) "pml" = true) by (unfold cover in Ecv; apply andb_prop in Ecv; apply Ecv).
      assert (R : entry3 (pm_ie P) c (rc f) = entry3 ie c (rc f) /\ entry3 (pm_sg P) c (rc f) = entry3 sg c (rc f)).
      { assert (Hr : forall f', In f' done -> let '(i, j, k) := rc f in i < Nx /\ j < Ny /\ k < Nz /\ cover f' i j k = false).
        { intros f' Hin. apply ref_free; [exact Hsf| |exact Hnf]. apply Hf. do 2 (apply in_or_app; left). exact Hin. }
        pose proof (ref_free f f Hsf Hsf Hnf) as Rf. destruct (rc f) as [[ri rj] rk]. destruct Rf as (Ri & Rj & Rk & _).
        cbn [entry3]. destruct (A c ri rj rk Hc Ri Rj Rk) as [-> ->].
        unfold vi, vs. clear -Hr. induction done as [|f' done IHd]; [auto|]. cbn [fold_left].
        destruct (Hr f' (or_introl eq_refl)) as (_ & _ & _ & ->). apply IHd. intros g Hg. apply Hr. right. exact Hg. }
      destruct R as [-> ->]. split; reflexivity.
  Qed.

  Lemma seq_upd_map {A B C} (h : C -> B) (f : A -> B -> result A) l : forall a,
    seq_upd f a (map h l) = seq_upd (fun a c => f a (h c)) a l.
  Proof. induction l as [|c l IH]; intros a; cbn; [reflexivity|]. destruct (f a (h c)); cbn; [apply IH|reflexivity]. Qed.

  Lemma fill_faces ie sg :
    fill_pml env n bl bh ie sg =
    (do P <- seq_upd face_step {| pm_ie := ie; pm_sg := sg;
        pm_prof := fun a => tab (match a with 0 => fNx ie | 1 => fNy ie | _ => fNz ie end) (fun _ => nzero) |} pml_faces;
     Ok (pm_ie P, pm_sg P)).
  Proof.
    unfold fill_pml. change pml_faces with (map (fun a => (false, a) : face) axes ++ map (fun a => (true, a) : face) axes).
    rewrite seq_upd_app, (seq_upd_map (fun a => (false, a) : face)).
    change (fun a c => face_step a (false, c)) with (pml_low env n bl).
    destruct (seq_upd (pml_low env n bl) _ axes) as [P1|]; cbn [bind]; [|reflexivity].
    rewrite (seq_upd_map (fun a => (true, a) : face)). change (fun a c => face_step a (true, c)) with (pml_high env n bh).
    destruct (seq_upd (pml_high env n bh) P1 axes); reflexivity.
  Qed.

  Lemma fold_last {A} (v : face -> A) (b : face -> bool) l : forall x,
    (forall f, In f l -> b f = false) -> fold_left (fun acc f => if b f then v f else acc) l x = x.
  Proof.
    induction l as [|f l IH]; intros x H; cbn; [reflexivity|]. rewrite (H f (or_introl eq_refl)).
    apply IH. intros g Hg. apply H. right. exact Hg.
  Qed.

  Lemma cover_covers f i j k : cover f i j k = true <-> covers n bl bh Nx Ny Nz f i j k.
  Proof.
    unfold cover, covers, named. rewrite andb_true_iff, String.eqb_eq, Nat.ltb_lt. reflexivity.
  Qed.
  Lemma cover_false f i j k : ~ covers n bl bh Nx Ny Nz f i j k -> cover f i j k = false.
  Proof. intros H. destruct (cover f i j k) eqn:E; [|reflexivity]. apply cover_covers in E. contradiction. Qed.

  (** The layers, for any materials. *)
  Lemma fill_gen ie sg : sized ie Nx Ny Nz -> sized sg Nx Ny Nz ->
    exists ie' sg', fill_pml env n bl bh ie sg = Ok (ie', sg') /\ sized ie' Nx Ny Nz /\ sized sg' Nx Ny Nz /\
      forall c i j k, c < 3 -> i < Nx -> j < Ny -> k < Nz ->
        (outside n bl bh Nx Ny Nz i j k ->
           entry ie' c i j k = entry ie c i j k /\ entry sg' c i j k = entry sg c i j k) /\
        (forall f, decided_by n bl bh Nx Ny Nz f i j k ->
           entry ie' c i j k = entry3 ie c (ref_cell n Nx Ny Nz f) /\
           entry sg' c i j k = graded (entry3 sg c (ref_cell n Nx Ny Nz f)) (profile env n f (depth Nx Ny Nz f i j k))).
  Proof.
    intros S1 S2. rewrite fill_faces. pose proof S1 as [W [X [Y Z]]].
    set (P0 := {| pm_ie := ie; pm_sg := sg;
        pm_prof := fun a => tab (match a with 0 => fNx ie | 1 => fNy ie | _ => fNz ie end) (fun _ => nzero) |}).
    destruct (faces_spec ie sg pml_faces [] P0) as [P [E [U1 [U2 [_ A]]]]].
    - intros f Hf. cbn in Hf. repeat (destruct Hf as [<- | Hf]; [cbn; lia|]). destruct Hf.
    - exact S1.
    - exact S2.
    - intros a Ha. cbn [pm_prof P0]. rewrite tab_length. rewrite X, Y, Z. destruct a as [|[|[|a]]]; [reflexivity..|lia].
    - intros c i j k _ _ _ _. split; reflexivity.
    - rewrite E. cbn [bind]. exists (pm_ie P), (pm_sg P). split; [reflexivity|]. split; [exact U1|]. split; [exact U2|].
      intros c i j k Hc Hi Hj Hk. destruct (A c i j k Hc Hi Hj Hk) as [A1 A2]. cbn [app] in A1, A2. split.
      + intros Ho. rewrite A1, A2.
        rewrite (fold_last (fun f => entry3 ie c (rc f)) (fun f => cover f i j k)) by (intros f Hf; apply cover_false, Ho, Hf).
        rewrite (fold_last (fun f => graded (entry3 sg c (rc f)) (profile env n f (depth Nx Ny Nz f i j k))) (fun f => cover f i j k))
          by (intros f Hf; apply cover_false, Ho, Hf). auto.
      + intros f (l1 & l2 & El & Hcv & Hno). rewrite A1, A2, El, !fold_left_app. cbn [fold_left].
        rewrite (proj2 (cover_covers f i j k) Hcv).
        rewrite (fold_last (fun f => entry3 ie c (rc f)) (fun f => cover f i j k)) by (intros f' Hf; apply cover_false, Hno, Hf).
        rewrite (fold_last (fun f => graded (entry3 sg c (rc f)) (profile env n f (depth Nx Ny Nz f i j k))) (fun f => cover f i j k))
          by (intros f' Hf; apply cover_false, Hno, Hf). auto.
  Qed.
End Pml.

(** Room for two layers in every direction is enough. *)
Section PmlRoom.
  Context {T : Type} {NT : Num T} {OT : NumOrd T}.
  Context (env : Env T) (n : nat) (bl bh : bc3) (Nx Ny Nz : nat).
  Context (geom_len : forall a b m, List.length (e_geom env a b m) = m) (n_pos : 1 <= n)
          (room : forall a, a < 3 -> 2 * n + 2 <= dim a Nx Ny Nz).

  Lemma room_x : 2 * n + 2 <= Nx. Proof. exact (room 0 ltac:(lia)). Qed.
  Lemma room_y : 2 * n + 2 <= Ny. Proof. exact (room 1 ltac:(lia)). Qed.
  Lemma room_z : 2 * n + 2 <= Nz. Proof. exact (room 2 ltac:(lia)). Qed.

  Lemma half_room d : 2 * n + 2 <= d -> n + 1 <= d / 2 /\ d / 2 + n + 1 <= d.
  Proof.
    intros H. pose proof (Nat.div_mod d 2 ltac:(lia)). pose proof (Nat.mod_upper_bound d 2 ltac:(lia)). lia.
  Qed.

  (** Reference cells lie inside the grid and outside every layer. *)
  Lemma ref_outside f f' : snd f < 3 -> snd f' < 3 ->
    let '(i, j, k) := ref_cell n Nx Ny Nz f in i < Nx /\ j < Ny /\ k < Nz /\
      named (wall_name bl bh f') "pml" && (depth Nx Ny Nz f' i j k <? n) = false.
  Proof.
    intros H H'. pose proof room_x as Rx. pose proof room_y as Ry. pose proof room_z as Rz.
    destruct (half_room _ Rx). destruct (half_room _ Ry). destruct (half_room _ Rz).
    destruct f as [h a], f' as [h' a']. cbn [snd] in *. unfold ref_cell, depth. cbn [fst snd].
    assert (G : forall x y : bool, y = false -> x && y = false) by (intros [] []; auto).
    destruct a as [|[|[|a]]]; [| | |lia]; destruct a' as [|[|[|a']]]; try lia;
      destruct h, h'; cbn [set_coord dim coord];
      (split; [lia|]); (split; [lia|]); (split; [lia|]); apply G; apply Nat.ltb_ge; lia.
  Qed.

  Lemma fill_spec ie sg : sized ie Nx Ny Nz -> sized sg Nx Ny Nz ->
    exists ie' sg', fill_pml env n bl bh ie sg = Ok (ie', sg') /\ sized ie' Nx Ny Nz /\ sized sg' Nx Ny Nz /\
      forall c i j k, c < 3 -> i < Nx -> j < Ny -> k < Nz ->
        (outside n bl bh Nx Ny Nz i j k ->
           entry ie' c i j k = entry ie c i j k /\ entry sg' c i j k = entry sg c i j k) /\
        (forall f, decided_by n bl bh Nx Ny Nz f i j k ->
           entry ie' c i j k = entry3 ie c (ref_cell n Nx Ny Nz f) /\
           entry sg' c i j k = graded (entry3 sg c (ref_cell n Nx Ny Nz f)) (profile env n f (depth Nx Ny Nz f i j k))).
  Proof.
    apply fill_gen; try assumption.
    - intros a Ha. pose proof (room a Ha). lia.
    - intros f Hf _. pose proof (room _ Hf). lia.
    - intros f f' Hf Hf' Hn Hn'. pose proof (ref_outside f f' Hf Hf') as Q. destruct (ref_cell n Nx Ny Nz f) as [[i j] k].
      destruct Q as (_ & _ & _ & Q). rewrite Hn' in Q. apply Nat.ltb_ge, Q.
  Qed.
End PmlRoom.

