(** Lemmas about sources on the ranks of a distributed run, and about reusing a source. *)
From Coq Require Import List Arith ZArith Bool String Lia Ring Field.
From Verif Require Import Num Vec FieldModel FieldSpec FieldProofs FieldProofs2 GridModel GridProofs SolverModel SolverPlanes SolverBuild SolverKern SolverCons
  SolverMaterials SolverFrozen SolverConstruct MpiModel MpiSolverModel MpiTiles MpiBc WakeModel WakeNum WakeProofs WakeCells WakeRun WakeTotal WakeWin WakeZProofs
  SourceModel SourceProofs SourceProofs2.
Import ListNotations.

Section SP3.
  Context {T : Type} {NT : Num T} {LT : NumLaws T} {OT : NumOrd T} {FT : NumFl T} {FL : NumFlLaws T} {TR : NumTr T}.
  Add Field s3num : (@num_field T NT LT).
  Local Open Scope num_scope.

  Lemma char0_T : char0 T.
  Proof. intros n Hn. apply pos_neq. apply nofnat_pos. exact Hn. Qed.
  Lemma two_ne : (nofnat 2 : T) <> 0.
  Proof. apply char0_T. lia. Qed.
  (** Cells of a uniform piece of axis *)
  Lemma uniform_cells (ax : list T) n z0 d : List.length ax = (n + 1)%nat -> (forall i, (i <= n)%nat -> get ax i = z0 + nofnat i * d) ->
    forall k, (k < n)%nat -> get (centres ax) k = z0 + nofnat k * d + d / nofnat 2 /\ get (widths ax) k = d.
  Proof.
    intros L H k Hk. unfold centres, widths. rewrite !get_tab by lia. rewrite !H by lia. cbn [nofnat]. split; [|ring].
    field. apply two_neq.
  Qed.
  Lemma half_pos d : nltb 0 d = true -> nltb 0 (d / nofnat 2) = true.
  Proof. intros H. apply div_pos; [exact H|apply nofnat_pos; lia]. Qed.
  Lemma uniform_min (ax : list T) n z0 d : List.length ax = (n + 1)%nat -> (forall i, (i <= n)%nat -> get ax i = z0 + nofnat i * d) ->
    (0 < n)%nat -> nltb 0 d = true -> np_min (centres ax) = Ok (z0 + d / nofnat 2).
  Proof.
    intros L H Hn Hd. pose proof (uniform_cells ax n z0 d L H) as C.
    assert (Lc : List.length (centres ax) = n) by (rewrite centres_length; lia).
    destruct (np_min_ok (centres ax)) as [m Hm]; [intros Q; rewrite Q in Lc; cbn in Lc; lia|].
    rewrite Hm. f_equal. destruct (np_min_le _ _ Hm) as [I B].
    apply (In_nth _ _ nzero) in I. destruct I as (k & Hk & Ek). rewrite Lc in Hk. change (get (centres ax) k = m) in Ek.
    destruct (C k Hk) as [Ck _]. destruct (C 0%nat Hn) as [C0 _].
    assert (E0 : z0 + d / nofnat 2 = get (centres ax) 0%nat) by (rewrite C0; cbn [nofnat]; ring).
    destruct k as [|k]; [rewrite <- Ek, E0; reflexivity|].
    exfalso. assert (X : nltb (get (centres ax) 0%nat) m = false) by (apply B; apply nth_In; lia).
    rewrite <- Ek, Ck, <- E0 in X.
    assert (P : nltb 0 (nofnat (S k) * d) = true) by (apply mul_pos; [apply nofnat_pos; lia|exact Hd]).
    rewrite <- (ol_add _ _ (z0 + d / nofnat 2)) in P.
    replace (0 + (z0 + d / nofnat 2)) with (z0 + d / nofnat 2) in P by ring.
    replace (nofnat (S k) * d + (z0 + d / nofnat 2)) with (z0 + nofnat (S k) * d + d / nofnat 2) in P by ring. congruence.
  Qed.

  (** The first update on a rank: the same line and the same entry point as in a single process. *)
  Lemma rank_first (b : Beam T) (g : Grid T) z0 d k0 : bm_first b = None -> (0 < gNx g)%nat -> (0 < gNy g)%nat -> (0 < gNz g)%nat ->
    (forall i, (i <= gNz g)%nat -> get (gz g) i = z0 + nofnat (k0 + i) * d) ->
    exists ix iy, beam_first b g (Some z0) = Ok (ix, iy, z0 + d / nofnat 2) /\ (ix < gNx g)%nat /\ (iy < gNy g)%nat /\
      nearest (centres (gx g)) (bm_x b) = Ok ix /\ nearest (centres (gy g)) (bm_y b) = Ok iy.
  Proof.
    intros Hf Px Py Pz H. unfold beam_first. rewrite Hf.
    assert (Lx : List.length (centres (gx g)) = gNx g) by (rewrite centres_length; reflexivity).
    assert (Ly : List.length (centres (gy g)) = gNy g) by (rewrite centres_length; reflexivity).
    assert (Lz : List.length (centres (gz g)) = gNz g) by (rewrite centres_length; reflexivity).
    destruct (nearest_ok (centres (gx g)) (bm_x b)) as (ix & -> & Hx); [lia|].
    destruct (nearest_ok (centres (gy g)) (bm_y b)) as (iy & -> & Hy); [lia|]. cbn [bind].
    destruct (nearest_ok (centres (gz g)) z0) as (iz & -> & Hz); [lia|]. cbn [bind].
    rewrite item_ok by (rewrite widths_length; rewrite Lz in Hz; exact Hz). cbn [bind].
    assert (L : List.length (gz g) = (gNz g + 1)%nat) by (unfold gNz in *; lia).
    assert (H' : forall i, (i <= gNz g)%nat -> get (gz g) i = (z0 + nofnat k0 * d) + nofnat i * d).
    { intros i Hi. rewrite H by exact Hi. rewrite nofnat_add. ring. }
    destruct (uniform_cells _ _ _ _ L H' iz) as [_ ->]; [lia|].
    exists ix, iy. rewrite <- Lx, <- Ly. auto.
  Qed.

  (** One update on a rank and in a single process write the same numbers at corresponding cells. *)
  Lemma rank_beam env (g gS : Grid T) (b : Beam T) (sl sg : Solver T) t z0 d NZ k0 : bm_first b = None ->
    gx g = gx gS -> gy g = gy gS -> (0 < gNx g)%nat -> (0 < gNy g)%nat -> (0 < gNz g)%nat -> nltb 0 d = true ->
    (forall i, (i <= gNz g)%nat -> get (gz g) i = z0 + nofnat (k0 + i) * d) ->
    gNz gS = NZ -> (0 < NZ)%nat -> (forall i, (i <= NZ)%nat -> get (gz gS) i = z0 + nofnat i * d) ->
    sized (sJ sl) (gNx g) (gNy g) (gNz g) -> sized (sJ sg) (gNx gS) (gNy gS) (gNz gS) ->
    exists ix iy bl bs Jl Js, beam_update env g (Some z0) b sl t = Ok (bl, with_fields sl (sE sl) (sH sl) Jl) /\
      beam_update env gS None b sg t = Ok (bs, with_fields sg (sE sg) (sH sg) Js) /\ (ix < gNx g)%nat /\ (iy < gNy g)%nat /\
      (forall k, (k < gNz g)%nat -> (k0 + k < NZ)%nat -> entry Jl 2 ix iy k = entry Js 2 ix iy (k0 + k)) /\
      (forall c i j k, (c < 3)%nat -> (i < gNx g)%nat -> (j < gNy g)%nat -> (k < gNz g)%nat -> ~ (c = 2 /\ i = ix /\ j = iy)%nat ->
         entry Jl c i j k = entry (sJ sl) c i j k) /\
      (forall c i j k, (c < 3)%nat -> (i < gNx g)%nat -> (j < gNy g)%nat -> (k < NZ)%nat -> ~ (c = 2 /\ i = ix /\ j = iy)%nat ->
         entry Js c i j k = entry (sJ sg) c i j k).
  Proof.
    intros Hf Ex Ey Px Py Pz Hd HL HN PN HS SL SG.
    destruct (rank_first b g z0 d k0 Hf Px Py Pz HL) as (ix & iy & F1 & Hx & Hy & Nx & Ny).
    assert (L : List.length (gz gS) = (NZ + 1)%nat) by (unfold gNz in *; lia).
    assert (F2 : beam_first b gS None = Ok (ix, iy, z0 + d / nofnat 2)).
    { unfold beam_first. rewrite Hf, <- Ex, <- Ey, Nx, Ny. cbn [bind]. rewrite (uniform_min _ NZ z0 d L HS PN Hd). reflexivity. }
    assert (NX : gNx gS = gNx g) by (unfold gNx; rewrite Ex; reflexivity).
    assert (NY : gNy gS = gNy g) by (unfold gNy; rewrite Ey; reflexivity).
    destruct (beam_update_spec env g (Some z0) b sl t _ _ _ F1 Hx Hy SL) as (bl & Jl & U1 & _ & _ & _ & _ & _ & A1).
    destruct (beam_update_spec env gS None b sg t _ _ _ F2 ltac:(rewrite NX; exact Hx) ltac:(rewrite NY; exact Hy) SG) as (bs & Js & U2 & _ & _ & _ & _ & _ & A2).
    exists ix, iy, bl, bs, Jl, Js. split; [exact U1|]. split; [exact U2|]. split; [exact Hx|]. split; [exact Hy|].
    rewrite NX, NY, HN in A2. repeat split.
    - intros k Hk Hg. rewrite A1, A2 by (assumption || lia). rewrite !Nat.eqb_refl. cbn [andb]. rewrite <- Ex, <- Ey.
      assert (L' : List.length (gz g) = (gNz g + 1)%nat) by (unfold gNz in *; lia).
      assert (HL' : forall i, (i <= gNz g)%nat -> get (gz g) i = (z0 + nofnat k0 * d) + nofnat i * d).
      { intros i Hi. rewrite HL by exact Hi. rewrite nofnat_add. ring. }
      destruct (uniform_cells _ _ _ _ L' HL' k Hk) as [-> _]. destruct (uniform_cells _ _ _ _ L HS (k0 + k)%nat Hg) as [-> _].
      rewrite nofnat_add. do 3 f_equal. f_equal. ring.
    - intros c i j k H1 H2 H3 H4 H5. rewrite A1 by assumption.
      destruct (Nat.eqb_spec c 2), (Nat.eqb_spec i ix), (Nat.eqb_spec j iy); cbn [andb]; try reflexivity. exfalso. auto.
    - intros c i j k H1 H2 H3 H4 H5. rewrite A2 by assumption.
      destruct (Nat.eqb_spec c 2), (Nat.eqb_spec i ix), (Nat.eqb_spec j iy); cbn [andb]; try reflexivity. exfalso. auto.
  Qed.

  (** The density the code writes, around its centre. *)
  Definition density env (sg zc z : T) : T :=
    1 / e_sqrt env (nofnat 2 * npi * (sg * sg)) * nexp (- ((z - zc) * (z - zc)) / (nofnat 2 * (sg * sg))).
  Lemma profile_density env (b : Beam T) zmin z t :
    beam_profile env b zmin z t = density env (bm_sigmaz b) (zmin + bm_v b * (t - bm_ti b)) z.
  Proof.
    unfold beam_profile, density.
    replace (z - bm_v b * t - (zmin - bm_v b * bm_ti b)) with (z - (zmin + bm_v b * (t - bm_ti b))) by ring. reflexivity.
  Qed.

  Lemma beam_reuse env (g : Grid T) ZM (b b' : Beam T) (s s1 s2 : Solver T) t1 t2 : beam_update env g ZM b s t1 = Ok (b', s1) ->
    beam_update env g ZM b' s2 t2 = beam_update env g ZM b s2 t2.
  Proof.
    unfold beam_update at 1. intros H. binv H f Hf. destruct f as [[ix iy] zmin]. binv H dx Hx. binv H dy Hy. binv H J HJ. injection H as <- _.
    unfold beam_update. rewrite Hf. unfold beam_first at 1. cbn [bm_first bind bm_x bm_y bm_sigmaz bm_q bm_v bm_ti]. reflexivity.
  Qed.

  (** A plane wave's two fields at one cell *)
  Lemma pw_ratio env xs ys zs nodes f amp beta phase p : pw_init env xs ys zs nodes (Some f) amp beta phase = Ok p ->
    e_c env <> 0 -> e_mu0 env <> 0 -> beta <> 0 -> pw_w p <> 0 -> forall c : T,
    (amp * c / (pw_kz p / (e_mu0 env * pw_vp p))) * pw_w p = - (e_mu0 env * pw_vp p * e_c env) * (- amp * c).
  Proof.
    intros H Hc Hm Hb Hw c. assert (K : pw_kz p = pw_w p / e_c env /\ pw_vp p = beta * e_c env) by (injection H as <-; split; reflexivity).
    destruct K as [-> ->]. field. repeat split; assumption.
  Qed.
  Lemma packet_ratio env amp c a g : amp * e_mu0 env * e_c env * c * a * g = - (e_mu0 env * e_c env) * (- amp * c * a * g) :> T.
  Proof. ring. Qed.
  Lemma sym_sum (a b : T) : a * a + b * b = b * b + a * a.
  Proof. ring. Qed.
  Lemma zero_zero (a b : T) : 0 * a = - b * 0.
  Proof. ring. Qed.
  Lemma step_pos (a b : T) n : nltb a b = true -> (0 < n)%nat -> nltb 0 ((b - a) / nofnat n) = true.
  Proof.
    intros H Hn. apply div_pos; [|apply nofnat_pos; exact Hn]. rewrite <- (ol_add _ _ a). replace (0 + a) with a by ring. replace (b - a + a) with b by ring. exact H.
  Qed.
End SP3.
