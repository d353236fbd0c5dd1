(** Lemmas about plane waves, wave packets, dipoles and pulses. *)
From Coq Require Import List Arith ZArith Bool String Lia Ring Field.
From Verif Require Import Num Vec FieldModel FieldSpec FieldProofs FieldProofs2 GridModel GridProofs SolverModel SolverPlanes SolverBuild SolverKern SolverCons
  SolverMaterials SolverFrozen SolverConstruct MpiBc WakeModel WakeNum WakeProofs WakeCells WakeRun WakeTotal SourceModel SourceProofs.
Import ListNotations.

Section SP2.
  Context {T : Type} {NT : Num T} {LT : NumLaws T} {OT : NumOrd T} {FT : NumFl T} {FL : NumFlLaws T} {TR : NumTr T}.
  Add Field s2num : (@num_field T NT LT).
  Local Open Scope num_scope.

  (** A cell the three keys select *)
  Definition chosen (Nx Ny Nz : nat) (kx ky kz : ikey) (i j k : nat) : Prop :=
    (exists p, selects Nx kx i p) /\ (exists p, selects Ny ky j p) /\ (exists p, selects Nz kz k p).
  Definition keys_ok (Nx Ny Nz : nat) (kx ky kz : ikey) : Prop := key_ok Nx kx /\ key_ok Ny ky /\ key_ok Nz kz.
  (** After: component c of the chosen cells is v, everything else as in F. *)
  Definition put_at (F G : Field T) (Nx Ny Nz : nat) (kx ky kz : ikey) (c : nat) (v : T) : Prop :=
    sized G Nx Ny Nz /\
    (forall i j k, chosen Nx Ny Nz kx ky kz i j k -> entry G c i j k = v) /\
    (forall c' i j k, (c' < 3)%nat -> (i < Nx)%nat -> (j < Ny)%nat -> (k < Nz)%nat ->
       c' <> c \/ ~ chosen Nx Ny Nz kx ky kz i j k -> entry G c' i j k = entry F c' i j k).

  Lemma number_write (F : Field T) Nx Ny Nz kx ky kz ck c v : sized F Nx Ny Nz -> names_component ck c -> keys_ok Nx Ny Nz kx ky kz ->
    exists G, setitem F (KTup kx ky kz ck) (VNum v) = Ok G /\ put_at F G Nx Ny Nz kx ky kz c v.
  Proof.
    intros [W [<- [<- <-]]] Hc (Kx & Ky & Kz).
    destruct (resolve_selects _ _ Kx) as [sx [Ex Sx]]. destruct (resolve_selects _ _ Ky) as [sy [Ey Sy]]. destruct (resolve_selects _ _ Kz) as [sz [Ez Sz]].
    destruct (setitem_spec F kx ky kz ck c (VNum v) sx sy sz W (proj1 (names_comp _ _) Hc) Ex Ey Ez eq_refl)
      as (G & E & W' & X & Y & Z & A).
    exists G. split; [exact E|]. split; [split; auto|].
    assert (P : forall d k l i, resolve d k = Ok l -> (forall i p, selects d k i p <-> (p < List.length l)%nat /\ nth p l 0%nat = i) ->
       match pos_of i l with Some p => selects d k i p | None => forall p, ~ selects d k i p end).
    { intros d k l i R Sl. destruct (pos_of i l) as [p|] eqn:Q.
      - apply Sl. apply pos_of_Some. exact Q.
      - intros p Hp. apply Sl in Hp. destruct Hp as [Hp1 Hp2]. apply (pos_of_None i l) in Q. apply Q. rewrite <- Hp2. apply nth_In. exact Hp1. }
    split.
    - intros i j k ((p & Hp) & (q & Hq) & (r & Hr)).
      assert (Bi : (i < fNx F)%nat) by (eapply selects_bound; eassumption).
      assert (Bj : (j < fNy F)%nat) by (eapply selects_bound; eassumption).
      assert (Bk : (k < fNz F)%nat) by (eapply selects_bound; eassumption).
      rewrite entry_at, A; [|eapply comp_lt; apply names_comp; exact Hc|assumption..].
      pose proof (P _ _ _ i Ex Sx) as P1. pose proof (P _ _ _ j Ey Sy) as P2. pose proof (P _ _ _ k Ez Sz) as P3.
      destruct (pos_of i sx); [|exfalso; eapply P1; eassumption]. destruct (pos_of j sy); [|exfalso; eapply P2; eassumption].
      destruct (pos_of k sz); [|exfalso; eapply P3; eassumption]. rewrite Nat.eqb_refl. reflexivity.
    - intros c' i j k Hc' Hi Hj Hk H. rewrite !entry_at, A by assumption.
      pose proof (P _ _ _ i Ex Sx) as P1. pose proof (P _ _ _ j Ey Sy) as P2. pose proof (P _ _ _ k Ez Sz) as P3.
      destruct (pos_of i sx) as [p|]; [|reflexivity]. destruct (pos_of j sy) as [q|]; [|reflexivity].
      destruct (pos_of k sz) as [r|]; [|reflexivity]. destruct H as [H|H].
      + apply Nat.eqb_neq in H. rewrite H. reflexivity.
      + exfalso. apply H. repeat split; eexists; eassumption.
  Qed.

  Lemma all_ok k d : match k with Some k => key_ok d k | None => True end -> key_ok d (or_all k d).
  Proof. destruct k; cbn; [auto|]. discriminate. Qed.

  (** ** Plane wave *)
  Lemma pw_update_spec env g g' ar (p : PlaneWave T) (s : Solver T) t : made env g g' ar s ->
    keys_ok (gNx g) (gNy g) (gNz g) (or_all (pw_xs p) (gNx g)) (or_all (pw_ys p) (gNy g)) (pw_zs p) ->
    exists p' E H, pw_update env p s t = Ok (p', with_fields s E H (sJ s)) /\ made env g g' ar (with_fields s E H (sJ s)) /\
      let on := match pw_tmax p with Some tm => negb (nltb tm t) | None => true end in
      let c := ncos (pw_w p * t + pw_phase p) in
      put_at (sE s) E (gNx g) (gNy g) (gNz g) (or_all (pw_xs p) (gNx g)) (or_all (pw_ys p) (gNy g)) (pw_zs p) 0
        (if on then pw_amp p * c / (pw_kz p / (e_mu0 env * pw_vp p)) else 0) /\
      put_at (sH s) H (gNx g) (gNy g) (gNz g) (or_all (pw_xs p) (gNx g)) (or_all (pw_ys p) (gNy g)) (pw_zs p) 1
        (if on then - pw_amp p * c else 0).
  Proof.
    intros M K. destruct (made_dims _ _ _ _ _ M) as (N1 & N2 & N3 & _). destruct (made_sized _ _ _ _ _ M) as (SE & SH & SJ).
    unfold pw_update. rewrite N1, N2. cbv zeta.
    set (h := if match pw_tmax p with Some tm => negb (nltb tm t) | None => true end then - pw_amp p * _ else 0).
    set (e := if match pw_tmax p with Some tm => negb (nltb tm t) | None => true end then pw_amp p * _ / _ else 0).
    destruct (number_write (sH s) _ _ _ _ _ _ (CStr "y") 1 h SH ltac:(cbn; auto) K) as (H & -> & PH). cbn [bind].
    destruct (number_write (sE s) _ _ _ _ _ _ (CStr "x") 0 e SE ltac:(cbn; auto) K) as (E & -> & PE). cbn [bind].
    do 3 eexists. split; [reflexivity|]. split; [apply write_EH; [exact M|apply PE|apply PH]|]. split; assumption.
  Qed.

  (** ** Dipole and pulse *)
  Definition letter (f : nat) : string := match f with 0 => "E" | 1 => "H" | _ => "J" end.
  Definition fld (f : nat) (s : Solver T) : Field T := match f with 0 => sE s | 1 => sH s | _ => sJ s end.
  (** Only component c of field f changed, at the chosen cells, to v. *)
  Definition only_put (s s' : Solver T) (Nx Ny Nz f : nat) (kx ky kz : ikey) (c : nat) (v : T) : Prop :=
    put_at (fld f s) (fld f s') Nx Ny Nz kx ky kz c v /\ forall f', (f' < 3)%nat -> f' <> f -> fld f' s' = fld f' s.
  Lemma point_write_spec env g g' ar (s : Solver T) f comp c kx ky kz v : made env g g' ar s -> (f < 3)%nat ->
    names_component (CStr comp) c -> keys_ok (gNx g) (gNy g) (gNz g) kx ky kz ->
    exists s', point_write (letter f) comp kx ky kz s v = Ok s' /\ made env g g' ar s' /\
      only_put s s' (gNx g) (gNy g) (gNz g) f kx ky kz c v.
  Proof.
    intros M Hf Hc K. destruct (made_sized _ _ _ _ _ M) as (SE & SH & SJ). unfold point_write.
    destruct f as [|[|[|f]]]; [| | |lia]; cbn [letter fld String.eqb Ascii.eqb Bool.eqb].
    - destruct (number_write (sE s) _ _ _ _ _ _ (CStr comp) c v SE Hc K) as (E & -> & PE). cbn [bind].
      eexists. split; [reflexivity|]. split; [apply write_E; [exact M|apply PE]|]. split; [exact PE|].
      intros f' Hf' Hn. destruct f' as [|[|f']]; [congruence|reflexivity..].
    - destruct (number_write (sH s) _ _ _ _ _ _ (CStr comp) c v SH Hc K) as (H & -> & PH). cbn [bind].
      eexists. split; [reflexivity|]. split; [apply write_H; [exact M|apply PH]|]. split; [exact PH|].
      intros f' Hf' Hn. destruct f' as [|[|f']]; [reflexivity|congruence|reflexivity].
    - destruct (number_write (sJ s) _ _ _ _ _ _ (CStr comp) c v SJ Hc K) as (J & -> & PJ). cbn [bind].
      eexists. split; [reflexivity|]. split; [apply write_J; [exact M|apply PJ]|]. split; [exact PJ|].
      intros f' Hf' Hn. destruct f' as [|[|[|f']]]; [reflexivity|reflexivity|congruence|lia].
  Qed.
  Lemma mid_ok k d : (0 < d)%nat -> match k with Some k => key_ok d k | None => True end -> key_ok d (or_mid k d).
  Proof.
    intros Hd. destruct k; cbn [or_mid key_ok]; [auto|]. intros _. pose proof (Nat.div_lt d 2 Hd ltac:(lia)). lia.
  Qed.

  Lemma dp_update_spec env g g' ar (d : Dipole T) (s : Solver T) t f c : made env g g' ar s -> (f < 3)%nat ->
    dp_field d = letter f -> names_component (CStr (dp_comp d)) c ->
    match dp_xs d with Some k => key_ok (gNx g) k | None => True end ->
    match dp_ys d with Some k => key_ok (gNy g) k | None => True end ->
    match dp_zs d with Some k => key_ok (gNz g) k | None => True end ->
    exists d' s' fr, dp_update env g d s t = Ok (d', s') /\ made env g g' ar s' /\
      match dp_f d with
      | Some x => fr = x
      | None => exists zmax zmin, np_max (centres (gz g)) = Ok zmax /\ np_min (centres (gz g)) = Ok zmin /\ fr = dp_nodes d / ((zmax - zmin) / e_c env)
      end /\
      only_put s s' (gNx g) (gNy g) (gNz g) f (or_mid (dp_xs d) (gNx g)) (or_mid (dp_ys d) (gNy g)) (or_mid (dp_zs d) (gNz g)) c
        (dp_amp d * nsin (nofnat 2 * npi * fr * t + dp_phase d)).
  Proof.
    intros M Hf Ef Hc Kx Ky Kz. destruct (made_dims _ _ _ _ _ M) as (N1 & N2 & N3 & _ & _ & _ & P1 & P2 & P3).
    assert (Lz : List.length (centres (gz g)) = gNz g) by (rewrite centres_length; reflexivity).
    assert (Fr : exists fr, match dp_f d with Some f => Ok f | None => do zmax <- np_max (centres (gz g)); do zmin <- np_min (centres (gz g));
                      Ok (dp_nodes d / ((zmax - zmin) / e_c env)) end = Ok fr /\
      match dp_f d with
      | Some x => fr = x
      | None => exists zmax zmin, np_max (centres (gz g)) = Ok zmax /\ np_min (centres (gz g)) = Ok zmin /\ fr = dp_nodes d / ((zmax - zmin) / e_c env)
      end).
    { destruct (dp_f d) as [x|]; [exists x; auto|].
      destruct (np_max_ok (centres (gz g))) as [zmax ->]; [intros X; rewrite X in Lz; cbn in Lz; lia|].
      destruct (np_min_ok (centres (gz g))) as [zmin ->]; [intros X; rewrite X in Lz; cbn in Lz; lia|]. cbn [bind].
      eexists. split; [reflexivity|]. exists zmax, zmin. auto. }
    destruct Fr as (fr & E1 & E2). unfold dp_update. rewrite N1, N2, N3, E1. cbn [bind]. rewrite Ef.
    destruct (point_write_spec env g g' ar s f (dp_comp d) c (or_mid (dp_xs d) (gNx g)) (or_mid (dp_ys d) (gNy g)) (or_mid (dp_zs d) (gNz g))
      (dp_amp d * nsin (nofnat 2 * npi * fr * t + dp_phase d)) M Hf Hc) as (s' & -> & M' & O).
    { repeat split; apply mid_ok; assumption. }
    cbn [bind]. do 3 eexists. split; [reflexivity|]. split; [exact M'|]. split; [exact E2|exact O].
  Qed.
  Lemma pu_update_spec env g g' ar (p : Pulse T) (s : Solver T) t f c sh : made env g g' ar s -> (f < 3)%nat ->
    pu_field p = letter f -> names_component (CStr (pu_comp p)) c -> pu_shape p = Some sh ->
    match pu_xs p with Some k => key_ok (gNx g) k | None => True end ->
    match pu_ys p with Some k => key_ok (gNy g) k | None => True end ->
    match pu_zs p with Some k => key_ok (gNz g) k | None => True end ->
    exists p' s', pu_update env p s t = Ok (p', s') /\ made env g g' ar s' /\ sdt s' = sdt s /\
      pu_field p' = pu_field p /\ pu_comp p' = pu_comp p /\ pu_shape p' = pu_shape p /\ pu_amp p' = pu_amp p /\ pu_delay p' = pu_delay p /\
      pu_xs p' = Some (or_mid (pu_xs p) (gNx g)) /\ pu_ys p' = Some (or_mid (pu_ys p) (gNy g)) /\ pu_zs p' = Some (or_mid (pu_zs p) (gNz g)) /\
      pu_L p' = Some (match pu_L p with Some L => L | None => nofnat 50 * sdt s end) /\
      only_put s s' (gNx g) (gNy g) (gNz g) f (or_mid (pu_xs p) (gNx g)) (or_mid (pu_ys p) (gNy g)) (or_mid (pu_zs p) (gNz g)) c
        (pu_amp p * tprofile env sh (match pu_L p with Some L => L | None => nofnat 50 * sdt s end) (pu_delay p) t).
  Proof.
    intros M Hf Ef Hc Es Kx Ky Kz. destruct (made_dims _ _ _ _ _ M) as (N1 & N2 & N3 & _ & _ & _ & P1 & P2 & P3).
    unfold pu_update. rewrite N1, N2, N3, Ef, Es.
    destruct (point_write_spec env g g' ar s f (pu_comp p) c (or_mid (pu_xs p) (gNx g)) (or_mid (pu_ys p) (gNy g)) (or_mid (pu_zs p) (gNz g))
      (pu_amp p * tprofile env sh (match pu_L p with Some L => L | None => nofnat 50 * sdt s end) (pu_delay p) t) M Hf Hc) as (s' & E & M' & O).
    { repeat split; apply mid_ok; assumption. }
    assert (D : sdt s' = sdt s).
    { unfold point_write in E. destruct f as [|[|[|f]]]; [| | |lia]; cbn [letter String.eqb Ascii.eqb Bool.eqb] in E;
        binv E G EG; apply (f_equal (fun r => match r with Ok s => sdt s | Err _ => sdt s end)) in E; cbn in E; symmetry; exact E. }
    assert (B : (String.eqb (letter f) "E" || String.eqb (letter f) "H" || String.eqb (letter f) "J")%bool = true).
    { destruct f as [|[|[|f]]]; [reflexivity..|lia]. }
    rewrite B, E. cbn [bind]. do 2 eexists. split; [reflexivity|]. cbn [pu_field pu_comp pu_shape pu_amp pu_delay pu_xs pu_ys pu_zs pu_L]. do 11 (split; [auto|]). exact O.
  Qed.

  (** ** Wave packet *)
  Lemma take_range (v : list T) n : List.length v = n -> take (krange 0 (Z.of_nat n)) v = Ok v.
  Proof.
    intros <-. unfold take. change (krange 0 (Z.of_nat (List.length v))) with (krange (Z.of_nat 0) (Z.of_nat (List.length v))).
    rewrite resolve_range by lia. cbn [bind]. rewrite Nat.sub_0_r. f_equal.
    change (map (get v) (seq 0 (List.length v))) with (tab (List.length v) (get v)). apply tab_get.
  Qed.
  Lemma wp_nonsquare env g g' ar (p : WavePacket T) (s : Solver T) t z : made env g g' ar s -> gNx g <> gNy g ->
    wp_xs p = None -> wp_ys p = None -> wp_zs p = KI z -> key_ok (gNz g) (KI z) ->
    wp_update env g p s t = Err ValueError.
  Proof.
    intros M Hn Ex Ey Ez Kz. destruct (made_dims _ _ _ _ _ M) as (N1 & N2 & N3 & _ & _ & _ & P1 & P2 & P3).
    assert (Lx : List.length (centres (gx g)) = gNx g) by (rewrite centres_length; reflexivity).
    assert (Ly : List.length (centres (gy g)) = gNy g) by (rewrite centres_length; reflexivity).
    assert (Lz : List.length (centres (gz g)) = gNz g) by (rewrite centres_length; reflexivity).
    destruct (made_sized _ _ _ _ _ M) as (_ & (_ & X & Y & Z) & _).
    unfold wp_update. rewrite Ex, Ey, Ez, N1, N2. cbn [or_all].
    destruct (np_min_ok (centres (gz g))) as [zmin ->]; [intros Q; rewrite Q in Lz; cbn in Lz; lia|]. cbn [bind].
    rewrite !take_range by assumption. cbn [bind]. unfold setitem. cbn [to_matrix comp_of String.eqb Ascii.eqb Bool.eqb option_map].
    unfold mat_setitem. cbn [to_matrix_c m0 m1 m2 mtab]. rewrite X, Y, Z.
    destruct (resolve_selects _ _ Kz) as [sz [Rz _]].
    change (krange 0 (Z.of_nat (gNx g))) with (krange (Z.of_nat 0) (Z.of_nat (gNx g))).
    change (krange 0 (Z.of_nat (gNy g))) with (krange (Z.of_nat 0) (Z.of_nat (gNy g))).
    rewrite !resolve_range by lia. rewrite Rz. cbn [bcast_ok scale_arr mesh shape keep3 kept app rev krange bcompat].
    rewrite !seq_length, !Nat.sub_0_r, Lx, Ly.
    replace (((gNx g =? 1) || (gNx g =? gNy g)) && (((gNy g =? 1) || (gNy g =? gNx g)) && true))%nat with false; [reflexivity|].
    symmetry. destruct (Nat.eqb_spec (gNx g) (gNy g)), (Nat.eqb_spec (gNx g) 1), (Nat.eqb_spec (gNy g) 1), (Nat.eqb_spec (gNy g) (gNx g)); try reflexivity; lia.
  Qed.

  (** What one packet write leaves at a cell of the injection plane: x and y exchanged. *)
  Lemma mesh_write (F : Field T) N Nz z0 ck c (h : T -> T -> T) (f : T -> T) (x y : list T) : sized F N N Nz -> names_component ck c -> (z0 < Nz)%nat ->
    List.length x = N -> List.length y = N ->
    exists G, setitem F (KTup (krange 0 (Z.of_nat N)) (krange 0 (Z.of_nat N)) (KI (Z.of_nat z0)) ck) (VArr (scale_arr f (mesh h x y))) = Ok G /\
      sized G N N Nz /\
      forall c' i j k, (c' < 3)%nat -> (i < N)%nat -> (j < N)%nat -> (k < Nz)%nat ->
        entry G c' i j k = if ((c' =? c) && (k =? z0))%nat then f (h (get x j) (get y i)) else entry F c' i j k.
  Proof.
    intros [W [EX [EY EZ]]] Hc Hz Lx Ly.
    assert (Rx : resolve (fNx F) (krange 0 (Z.of_nat N)) = Ok (seq 0 N)).
    { change 0%Z with (Z.of_nat 0). rewrite resolve_range by lia. rewrite Nat.sub_0_r. reflexivity. }
    assert (Ry : resolve (fNy F) (krange 0 (Z.of_nat N)) = Ok (seq 0 N)).
    { change 0%Z with (Z.of_nat 0). rewrite resolve_range by lia. rewrite Nat.sub_0_r. reflexivity. }
    rewrite <- EZ in Hz.
    destruct (setitem_spec F _ _ _ ck c (VArr (scale_arr f (mesh h x y))) _ _ _ W (proj1 (names_comp _ _) Hc) Rx Ry (resolve_nat _ _ Hz))
      as (G & E & W' & X & Y & Z & A).
    { cbn [bcast_ok scale_arr mesh shape]. unfold keep3. cbn [kept krange app rev bcompat]. rewrite !seq_length, Lx, Ly, Nat.eqb_refl, !orb_true_r. reflexivity. }
    exists G. split; [exact E|]. split; [repeat split; congruence|]. intros c' i j k Hc' Hi Hj Hk.
    rewrite !entry_at, A by congruence. rewrite !pos_of_full by assumption. rewrite pos_of_one.
    destruct (Nat.eqb_spec c' c) as [->|Hn]; [|destruct (k =? z0)%nat; reflexivity]. destruct (k =? z0)%nat; [|reflexivity]. cbn [andb].
    cbn [bget]. unfold keep3. cbn [kept krange app rev scale_arr mesh shape dat bflat]. rewrite Lx, Ly.
    assert (NP : (0 < N)%nat) by lia.
    assert (Q : ((if N =? 1 then 0 else j) * 1 + ((if N =? 1 then 0 else i) * (1 * N) + 0) = i * N + j)%nat).
    { destruct (Nat.eqb_spec N 1); lia. }
    rewrite Q. assert (B : (i * N + j < N * N)%nat) by nia.
    unfold get at 1. rewrite (nth_indep _ nzero (f nzero)) by (rewrite map_length, tab_length; exact B).
    rewrite map_nth. f_equal. change (nth ?n ?l nzero) with (get l n). rewrite get_tab by exact B.
    assert (D1 : ((i * N + j) mod N = j)%nat) by (rewrite Nat.add_comm, Nat.mod_add by lia; apply Nat.mod_small; exact Hj).
    assert (D2 : ((i * N + j) / N = i)%nat) by (rewrite Nat.div_add_l by lia; rewrite Nat.div_small by exact Hj; lia).
    rewrite D1, D2. reflexivity.
  Qed.
  Lemma wp_square env g g' ar (p : WavePacket T) (s : Solver T) t z0 sz sxy tinj N : made env g g' ar s -> gNx g = N -> gNy g = N ->
    wp_xs p = None -> wp_ys p = None -> wp_zs p = KI (Z.of_nat z0) -> (z0 < gNz g)%nat ->
    wp_sigmaz p = Some sz -> wp_sigmaxy p = Some sxy -> wp_tinj p = Some tinj ->
    exists p' E H, wp_update env g p s t = Ok (p', with_fields s E H (sJ s)) /\ made env g g' ar (with_fields s E H (sJ s)) /\
      let c := ncos (wp_w p * t + wp_phase p) in
      let u := tinj - wp_beta p * e_c env * t in
      let gt := nexp (- (u * u) / (nofnat 2 * (sz * sz))) in
      let gxy a b := nexp (- (a * a + b * b) / (nofnat 2 * (sxy * sxy))) in
      forall c' i j k, (c' < 3)%nat -> (i < N)%nat -> (j < N)%nat -> (k < gNz g)%nat ->
        entry H c' i j k = (if ((c' =? 1) && (k =? z0))%nat
          then - wp_amp p * c * gxy (get (centres (gx g)) j) (get (centres (gy g)) i) * gt else entry (sH s) c' i j k) /\
        entry E c' i j k = (if ((c' =? 0) && (k =? z0))%nat
          then wp_amp p * e_mu0 env * e_c env * c * gxy (get (centres (gx g)) j) (get (centres (gy g)) i) * gt else entry (sE s) c' i j k).
  Proof.
    intros M Nx Ny Ex Ey Ez Hz Sz Sxy St. destruct (made_dims _ _ _ _ _ M) as (N1 & N2 & N3 & _ & _ & _ & P1 & P2 & P3).
    assert (Lx : List.length (centres (gx g)) = N) by (rewrite centres_length; exact Nx).
    assert (Ly : List.length (centres (gy g)) = N) by (rewrite centres_length; exact Ny).
    assert (Lz : List.length (centres (gz g)) = gNz g) by (rewrite centres_length; reflexivity).
    destruct (made_sized _ _ _ _ _ M) as (SE & SH & SJ).
    unfold wp_update. rewrite Ex, Ey, Ez, N1, N2, Sz, Sxy, St. cbn [or_all].
    destruct (np_min_ok (centres (gz g))) as [zmin ->]; [intros Q; rewrite Q in Lz; cbn in Lz; lia|]. cbn [bind].
    rewrite !take_range by congruence. cbn [bind]. cbv zeta.
    replace (zmin - wp_beta p * e_c env * t - (zmin - tinj)) with (tinj - wp_beta p * e_c env * t) by ring.
    rewrite Nx, Ny in *.
    match goal with |- context [setitem (sH s) _ (VArr (scale_arr ?f (mesh ?h _ _)))] =>
      destruct (mesh_write (sH s) N (gNz g) z0 (CStr "y") 1 h f (centres (gx g)) (centres (gy g)) SH ltac:(cbn; auto) Hz Lx Ly) as (H & -> & HS & HA) end.
    cbn [bind].
    match goal with |- context [setitem (sE s) _ (VArr (scale_arr ?f (mesh ?h _ _)))] =>
      destruct (mesh_write (sE s) N (gNz g) z0 (CStr "x") 0 h f (centres (gx g)) (centres (gy g)) SE ltac:(cbn; auto) Hz Lx Ly) as (E & -> & ES & EA) end.
    cbn [bind]. do 3 eexists. split; [reflexivity|]. split; [apply write_EH; [exact M|rewrite Nx, Ny; assumption..]|].
    intros c' i j k H1 H2 H3 H4. rewrite HA, EA by assumption. split; reflexivity.
  Qed.

  (** An empty box with electric walls can be built on any grid. *)
  Definition box_args (dt : T) : Args T :=
    {| ar_bl := {| bcx := "pec"; bcy := "pec"; bcz := "pec" |}; ar_bh := {| bcx := "pec"; bcy := "pec"; bcz := "pec" |};
       ar_bg := MName "vacuum"; ar_solids := []; ar_npml := 1; ar_cfln := 1; ar_dt := Some dt; ar_mpi := None |}.
  Lemma box_made env (x y z : list T) dt : (2 <= List.length x)%nat -> (2 <= List.length y)%nat -> (2 <= List.length z)%nat ->
    exists g g' s, made env g g' (box_args dt) s /\ gx g = x /\ gy g = y /\ gz g = z /\ sdt s = dt /\ scond s = false /\
      (forall c i j k, (c < 3)%nat -> (i < gNx g)%nat -> (j < gNy g)%nat -> (k < gNz g)%nat -> entry (sJ s) c i j k = 0).
  Proof.
    intros Hx Hy Hz. destruct (compute_grid_spec x y z Hx Hy Hz) as (g & Hc & Ex & Ey & Ez & _).
    assert (Hg : grid_obj env g) by exact (go_axes env _ _ _ _ Hc).
    destruct (construct_conductive env g (box_args dt) {| me_eps := Fin 1; me_mu := Fin 1; me_sigma := None |}
       (ar_bl (box_args dt)) (ar_bh (box_args dt)) Hg eq_refl) as (s & g' & Hk).
    { intros so []. }
    { reflexivity. }
    { discriminate. }
    { left. split; [reflexivity|]. split; [reflexivity|]. intros so e []. }
    assert (Hm : made env g g' (box_args dt) s) by (constructor; assumption).
    exists g, g', s. split; [exact Hm|]. do 3 (split; [assumption|]).
    assert (C : scond s = false).
    { destruct (made_walls _ _ _ _ _ Hm) as [Wl P]. cbn in Wl. injection Wl as W1 W2. rewrite W1, W2 in P.
      destruct (made_values _ _ _ _ _ Hm) as (M & bo & _ & HM & _ & _ & Cd & Pb & _). rewrite <- Pb, P in HM.
      rewrite Cd. eapply (build_cond _ _ _ _ _ _ _ _ HM); [reflexivity|reflexivity|intros so e []]. }
    split; [pose proof (construct_dt env g _ s g' Hk C) as D; injection D as D; symmetry; exact D|]. split; [exact C|].
    intros c i j k H1 H2 H3 H4. destruct (construct_new _ _ _ _ _ Hg Hk) as (_ & _ & EJ & _). rewrite EJ.
    rewrite (entry_ix _ (gNx g) (gNy g) (gNz g)) by apply sized_zeros.
    unfold field_zeros. cbn [farr]. pose proof (ix_lt (gNx g) (gNy g) (gNz g) c i j k H1 H2 H3 H4).
    rewrite get_tab; [reflexivity|lia].
  Qed.
End SP2.
