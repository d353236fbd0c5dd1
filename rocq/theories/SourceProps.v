(** Properties C63, C65, C83, C84, C86-C90: what the sources write. *)
From Coq Require Import List Arith ZArith Bool String Lia Reals Lra QArith Qcanon.
From Verif Require Import Num Vec FieldModel FieldSpec FieldProofs FieldProofs2 GridModel GridProofs GridProofs2 SolverModel SolverKern SolverCons SolverKit
  SolverProps4 MpiModel MpiSolverModel MpiTiles WakeModel WakeNum WakeProofs WakeCells WakeRun WakeTotal WakeWin SourceModel SourceProofs SourceProofs2 SourceProofs3.
Import ListNotations.
Open Scope nat_scope.

(** ** C63.  [made]: a constructed solver after any history.  The line is a nearest one in x and in y,
    the centre of the bunch is v (t - ti) behind the first cell centre. *)
Theorem C63_beam_line : forall (T : Type) (NT : Num T) (LT : NumLaws T) (OT : NumOrd T) (FT : NumFl T) (FL : NumFlLaws T) (TR : NumTr T)
    env (g g' : Grid T) ar (b : Beam T) (s : Solver T) (t : T),
  made env g g' ar s -> bm_first b = None ->
  exists ix iy zmin b' J, beam_update env g None b s t = Ok (b', with_fields s (sE s) (sH s) J) /\
    made env g g' ar (with_fields s (sE s) (sH s) J) /\ ix < gNx g /\ iy < gNy g /\
    (forall i, i < gNx g -> nltb (nabs (get (centres (gx g)) i - bm_x b)) (nabs (get (centres (gx g)) ix - bm_x b)) = false)%num /\
    (forall j, j < gNy g -> nltb (nabs (get (centres (gy g)) j - bm_y b)) (nabs (get (centres (gy g)) iy - bm_y b)) = false)%num /\
    In zmin (centres (gz g)) /\ (forall z, In z (centres (gz g)) -> nltb z zmin = false) /\
    (forall c i j k, c < 3 -> i < gNx g -> j < gNy g -> k < gNz g -> ~ (c = 2 /\ i = ix /\ j = iy) ->
       entry J c i j k = entry (sJ s) c i j k) /\
    forall k, k < gNz g -> entry J 2 ix iy k =
      (let zc := zmin + bm_v b * (t - bm_ti b) in let z := get (centres (gz g)) k in let sg := bm_sigmaz b in
       bm_q b * bm_v b * (1 / e_sqrt env (nofnat 2 * npi * (sg * sg)) * nexp (- ((z - zc) * (z - zc)) / (nofnat 2 * (sg * sg))))
         / get (widths (gx g)) ix / get (widths (gy g)) iy)%num.
Proof.
  intros T NT LT OT FT FL TR env g g' ar b s t M Hf.
  destruct (made_dims _ _ _ _ _ M) as (_ & _ & _ & _ & _ & _ & P1 & P2 & P3).
  destruct (beam_first_ok b g Hf P1 P2 P3) as (ix & iy & zmin & E & Hx & Hy & N1 & N2 & N3).
  destruct (beam_update_spec env g None b s t ix iy zmin E Hx Hy (proj2 (proj2 (made_sized _ _ _ _ _ M)))) as (b' & J & U & _ & _ & _ & _ & SJ & A).
  exists ix, iy, zmin, b', J. split; [exact U|]. split; [apply write_J; assumption|]. split; [exact Hx|]. split; [exact Hy|].
  assert (Lx : List.length (centres (gx g)) = gNx g) by (rewrite centres_length; reflexivity).
  assert (Ly : List.length (centres (gy g)) = gNy g) by (rewrite centres_length; reflexivity).
  split. { intros i Hi. apply (nearest_spec _ _ _ N1). lia. }
  split. { intros j Hj. apply (nearest_spec _ _ _ N2). lia. }
  destruct (np_min_le _ _ N3) as [I L]. split; [exact I|]. split; [exact L|]. split.
  - intros c i j k H1 H2 H3 H4 H5. rewrite A by assumption.
    destruct (Nat.eqb_spec c 2), (Nat.eqb_spec i ix), (Nat.eqb_spec j iy); cbn [andb]; try reflexivity. exfalso. auto.
  - intros k Hk. rewrite A by (assumption || lia). rewrite !Nat.eqb_refl. cbn [andb]. rewrite profile_density. reflexivity.
Qed.
Print Assumptions C63_beam_line.

(** ** C89.  A whole run of n + 1 steps driven by a beam, no conductors. *)
Theorem C89_run_current : forall (T : Type) (NT : Num T) (LT : NumLaws T) (OT : NumOrd T) (FT : NumFl T) (FL : NumFlLaws T) (TR : NumTr T)
    env (g g' : Grid T) ar (b : Beam T) (s : Solver T),
  made env g g' ar s -> bm_first b = None -> scond s = false ->
  exists ix iy zmin, ix < gNx g /\ iy < gNy g /\
    nearest (centres (gx g)) (bm_x b) = Ok ix /\ nearest (centres (gy g)) (bm_y b) = Ok iy /\ np_min (centres (gz g)) = Ok zmin /\
  forall n, exists bn sn, src_run (beam_update env g None) b s (S n) = Ok (bn, sn) /\ made env g g' ar sn /\
    (forall c i j k, c < 3 -> i < gNx g -> j < gNy g -> k < gNz g -> ~ (c = 2 /\ i = ix /\ j = iy) ->
       entry (sJ sn) c i j k = entry (sJ s) c i j k) /\
    forall k, k < gNz g -> entry (sJ sn) 2 ix iy k =
      (let zc := zmin + bm_v b * (nofnat n * sdt s - bm_ti b) in let z := get (centres (gz g)) k in let sg := bm_sigmaz b in
       bm_q b * bm_v b * (1 / e_sqrt env (nofnat 2 * npi * (sg * sg)) * nexp (- ((z - zc) * (z - zc)) / (nofnat 2 * (sg * sg))))
         / get (widths (gx g)) ix / get (widths (gy g)) iy)%num.
Proof.
  intros T NT LT OT FT FL TR env g g' ar b s M Hf Hc.
  destruct (beam_run env g g' ar b s M Hf) as (ix & iy & zmin & Hx & Hy & N1 & N2 & N3 & R).
  exists ix, iy, zmin. do 5 (split; [assumption|]). intros n.
  destruct (R (S n)) as (bn & sn & E & Mn & _ & _ & _ & _ & _ & _ & A). exists bn, sn. split; [exact E|]. split; [exact Mn|].
  specialize (A Hc). split.
  - intros c i j k H1 H2 H3 H4 H5. rewrite A by assumption.
    destruct (Nat.eqb_spec c 2), (Nat.eqb_spec i ix), (Nat.eqb_spec j iy); cbn [andb]; try reflexivity. exfalso. auto.
  - intros k Hk. rewrite A by (assumption || lia). rewrite !Nat.eqb_refl. cbn [andb]. unfold line_J. rewrite profile_density. reflexivity.
Qed.
Print Assumptions C89_run_current.

(** ** C86 *)
Theorem C86_same_grid_partial : forall (T : Type) (NT : Num T) (LT : NumLaws T) (OT : NumOrd T) (FT : NumFl T) (FL : NumFlLaws T) (TR : NumTr T)
    env (g : Grid T) ZM (b b' : Beam T) (s s1 s2 : Solver T) (t1 t2 : T),
  beam_update env g ZM b s t1 = Ok (b', s1) -> beam_update env g ZM b' s2 t2 = beam_update env g ZM b s2 t2.
Proof. intros T NT LT OT FT FL TR env g ZM b b' s s1 s2 t1 t2. apply beam_reuse. Qed.
Print Assumptions C86_same_grid_partial.

(** ** C88.  [letter f] is E, H or J; [only_put]: component c of that field at the selected cells is
    the value, every other entry of the three fields is what it was.  Unset positions are N // 2. *)
Theorem C88_dipole : forall (T : Type) (NT : Num T) (LT : NumLaws T) (OT : NumOrd T) (FT : NumFl T) (FL : NumFlLaws T) (TR : NumTr T)
    env (g g' : Grid T) ar (s : Solver T) (t : T) f c comp kx ky kz nodes freq amp phase,
  made env g g' ar s -> f < 3 -> names_component (CStr comp) c ->
  match kx with Some k => key_ok (gNx g) k | None => True end ->
  match ky with Some k => key_ok (gNy g) k | None => True end ->
  match kz with Some k => key_ok (gNz g) k | None => True end ->
  let mid k n := match k with Some k => k | None => KI (Z.of_nat (n / 2)) end in
  exists d' s', dp_update env g (dp_init (letter f) comp kx ky kz nodes (Some freq) amp phase) s t = Ok (d', s') /\ made env g g' ar s' /\
    only_put s s' (gNx g) (gNy g) (gNz g) f (mid kx (gNx g)) (mid ky (gNy g)) (mid kz (gNz g)) c
      (amp * nsin (nofnat 2 * npi * freq * t + phase))%num.
Proof.
  intros T NT LT OT FT FL TR env g g' ar s t f c comp kx ky kz nodes freq amp phase M Hf Hc Kx Ky Kz mid.
  assert (E : split_field (letter f) comp = (letter f, comp)) by (destruct f as [|[|[|f]]]; [reflexivity..|lia]).
  destruct (dp_update_spec env g g' ar (dp_init (letter f) comp kx ky kz nodes (Some freq) amp phase) s t f c M Hf) as (d' & s' & fr & U & M' & F & O);
    try (unfold dp_init; rewrite E; cbn [fst snd dp_field dp_comp dp_xs dp_ys dp_zs]; assumption || reflexivity).
  exists d', s'. split; [exact U|]. split; [exact M'|]. unfold dp_init in F, O. rewrite E in O. cbn [dp_f] in F. subst fr. exact O.
Qed.
Print Assumptions C88_dipole.

Theorem C88_pulse : forall (T : Type) (NT : Num T) (LT : NumLaws T) (OT : NumOrd T) (FT : NumFl T) (FL : NumFlLaws T) (TR : NumTr T)
    env (g g' : Grid T) ar (s : Solver T) (t : T) f c comp kx ky kz name sh L amp delay,
  made env g g' ar s -> f < 3 -> names_component (CStr comp) c -> shape_of name = Some sh ->
  match kx with Some k => key_ok (gNx g) k | None => True end ->
  match ky with Some k => key_ok (gNy g) k | None => True end ->
  match kz with Some k => key_ok (gNz g) k | None => True end ->
  let mid k n := match k with Some k => k | None => KI (Z.of_nat (n / 2)) end in
  exists p' s', pu_update env (pu_init (letter f) comp kx ky kz name L amp delay) s t = Ok (p', s') /\ made env g g' ar s' /\
    only_put s s' (gNx g) (gNy g) (gNz g) f (mid kx (gNx g)) (mid ky (gNy g)) (mid kz (gNz g)) c
      (amp * tprofile env sh (match L with Some L => L | None => nofnat 50 * sdt s end) delay t)%num.
Proof.
  intros T NT LT OT FT FL TR env g g' ar s t f c comp kx ky kz name sh L amp delay M Hf Hc Hs Kx Ky Kz mid.
  assert (E : split_field (letter f) comp = (letter f, comp)) by (destruct f as [|[|[|f]]]; [reflexivity..|lia]).
  destruct (pu_update_spec env g g' ar (pu_init (letter f) comp kx ky kz name L amp delay) s t f c sh M Hf) as (p' & s' & U & M' & _ & _ & _ & _ & _ & _ & _ & _ & _ & _ & O);
    try (unfold pu_init; rewrite E; cbn [fst snd pu_field pu_comp pu_xs pu_ys pu_zs pu_shape]; assumption || reflexivity).
  exists p', s'. split; [exact U|]. split; [exact M'|]. exact O.
Qed.
Print Assumptions C88_pulse.

(** A two-letter field name is field and component. *)
Theorem C88_two_letters : forall (T : Type) (NT : Num T) f c comp kx ky kz nodes (freq : option T) amp phase,
  f < 3 -> c < 3 ->
  let l := nth c ["x"; "y"; "z"]%string ""%string in
  dp_init (letter f ++ l) comp kx ky kz nodes freq amp phase = dp_init (letter f) l kx ky kz nodes freq amp phase.
Proof.
  intros T NT f c comp kx ky kz nodes freq amp phase Hf Hc.
  destruct f as [|[|[|f]]]; [| | |lia]; (destruct c as [|[|[|c]]]; [reflexivity..|lia]).
Qed.
Print Assumptions C88_two_letters.

(** ** C65.  The documented impedance would give E = - mu0 vp H. *)
Theorem C65_ratio_partial : forall (T : Type) (NT : Num T) (LT : NumLaws T) (OT : NumOrd T) (FT : NumFl T) (FL : NumFlLaws T) (TR : NumTr T)
    env (g g' : Grid T) ar (s : Solver T) (t : T) xs ys zs nodes f amp beta phase p,
  made env g g' ar s -> pw_init env xs ys zs nodes (Some f) amp beta phase = Ok p ->
  e_c env <> nzero -> e_mu0 env <> nzero -> beta <> nzero -> (nofnat 2 * npi * f)%num <> nzero ->
  let kx := match xs with Some k => k | None => krange 0 (Z.of_nat (gNx g)) end in
  let ky := match ys with Some k => k | None => krange 0 (Z.of_nat (gNy g)) end in
  keys_ok (gNx g) (gNy g) (gNz g) kx ky zs ->
  exists p' E H, pw_update env p s t = Ok (p', with_fields s E H (sJ s)) /\ made env g g' ar (with_fields s E H (sJ s)) /\
    (forall i j k, chosen (gNx g) (gNy g) (gNz g) kx ky zs i j k ->
       (entry E 0 i j k * (nofnat 2 * npi * f) = - (e_mu0 env * (beta * e_c env) * e_c env) * entry H 1 i j k)%num /\
       entry H 1 i j k = (if match nodes with Some n => nltb (n / f) t | None => false end then 0 else - amp * ncos (nofnat 2 * npi * f * t + phase))%num) /\
    (forall c i j k, c < 3 -> i < gNx g -> j < gNy g -> k < gNz g ->
       (c <> 0 \/ ~ chosen (gNx g) (gNy g) (gNz g) kx ky zs i j k -> entry E c i j k = entry (sE s) c i j k) /\
       (c <> 1 \/ ~ chosen (gNx g) (gNy g) (gNz g) kx ky zs i j k -> entry H c i j k = entry (sH s) c i j k)).
Proof.
  intros T NT LT OT FT FL TR env g g' ar s t xs ys zs nodes f amp beta phase p M Hp Hc Hm Hb Hw kx ky K.
  assert (P : pw_xs p = xs /\ pw_ys p = ys /\ pw_zs p = zs /\ pw_amp p = amp /\ pw_phase p = phase /\ pw_w p = (nofnat 2 * npi * f)%num /\
    pw_vp p = (beta * e_c env)%num /\ pw_tmax p = match nodes with Some n => Some (n / f)%num | None => None end) by (injection Hp as <-; auto 10).
  destruct P as (P1 & P2 & P3 & P4 & P5 & P6 & P7 & P8).
  destruct (pw_update_spec env g g' ar p s t M) as (p' & E & H & U & M' & PE & PH).
  { rewrite P1, P2, P3. exact K. }
  exists p', E, H. split; [exact U|]. split; [exact M'|].
  pose proof (pw_ratio env xs ys zs nodes f amp beta phase p Hp Hc Hm Hb ltac:(rewrite P6; exact Hw) (ncos (pw_w p * t + pw_phase p))%num) as R.
  rewrite P1, P2, P3, P4, P8 in PE, PH. destruct PE as (_ & E1 & E2), PH as (_ & H1 & H2).
  split.
  - intros i j k Hch. rewrite (E1 _ _ _ Hch), (H1 _ _ _ Hch).
    assert (Z : forall (a b : T), (0 * a = - b * 0)%num).
    { intros a b. apply zero_zero. }
    destruct nodes as [n|].
    + destruct (nltb (n / f)%num t); cbn [negb]; [split; [apply Z|reflexivity]|]. rewrite P6, P7, P5 in *. split; [exact R|reflexivity].
    + rewrite P6, P7, P5 in *. split; [exact R|reflexivity].
  - intros c i j k I1 I2 I3 I4. split; intros Hn; [apply E2|apply H2]; assumption.
Qed.
Print Assumptions C65_ratio_partial.

(** ** C83 *)
(** On a grid with different numbers of cells in x and y no packet can be injected at all. *)
Theorem C83_nonsquare : forall (T : Type) (NT : Num T) (LT : NumLaws T) (OT : NumOrd T) (FT : NumFl T) (FL : NumFlLaws T) (TR : NumTr T)
    env (g g' : Grid T) ar (p : WavePacket T) (s : Solver T) (t : T) z,
  made env g g' ar s -> gNx g <> gNy g -> wp_xs p = None -> wp_ys p = None -> wp_zs p = KI z -> key_ok (gNz g) (KI z) ->
  wp_update env g p s t = Err ValueError.
Proof. intros T NT LT OT FT FL TR env g g' ar p s t z. apply wp_nonsquare. Qed.
Print Assumptions C83_nonsquare.

(** With equal x and y axes the packet is the Gaussian of the cell's own coordinates, and E = - mu0 c H. *)
Theorem C83_square_partial : forall (T : Type) (NT : Num T) (LT : NumLaws T) (OT : NumOrd T) (FT : NumFl T) (FL : NumFlLaws T) (TR : NumTr T)
    env (g g' : Grid T) ar (p : WavePacket T) (s : Solver T) (t : T) z0 sz sxy tinj,
  made env g g' ar s -> gx g = gy g -> wp_xs p = None -> wp_ys p = None -> wp_zs p = KI (Z.of_nat z0) -> z0 < gNz g ->
  wp_sigmaz p = Some sz -> wp_sigmaxy p = Some sxy -> wp_tinj p = Some tinj ->
  exists p' E H, wp_update env g p s t = Ok (p', with_fields s E H (sJ s)) /\ made env g g' ar (with_fields s E H (sJ s)) /\
    (forall i j, i < gNx g -> j < gNy g ->
       (let x := get (centres (gx g)) i in let y := get (centres (gy g)) j in let u := tinj - wp_beta p * e_c env * t in
        entry H 1 i j z0 = - wp_amp p * ncos (wp_w p * t + wp_phase p) * nexp (- (x * x + y * y) / (nofnat 2 * (sxy * sxy)))
          * nexp (- (u * u) / (nofnat 2 * (sz * sz))))%num /\
       entry E 0 i j z0 = (- (e_mu0 env * e_c env) * entry H 1 i j z0)%num) /\
    (forall c i j k, c < 3 -> i < gNx g -> j < gNy g -> k < gNz g ->
       (c <> 0 \/ k <> z0 -> entry E c i j k = entry (sE s) c i j k) /\ (c <> 1 \/ k <> z0 -> entry H c i j k = entry (sH s) c i j k)).
Proof.
  intros T NT LT OT FT FL TR env g g' ar p s t z0 sz sxy tinj M Exy Ex Ey Ez Hz S1 S2 S3.
  assert (N : gNy g = gNx g) by (unfold gNx, gNy; rewrite Exy; reflexivity).
  destruct (wp_square env g g' ar p s t z0 sz sxy tinj (gNx g) M eq_refl N Ex Ey Ez Hz S1 S2 S3) as (p' & E & H & U & M' & A).
  exists p', E, H. split; [exact U|]. split; [exact M'|]. cbv zeta in A. rewrite N. split.
  - intros i j Hi Hj. destruct (A 1 i j z0 ltac:(lia) Hi Hj Hz) as [AH _]. destruct (A 0 i j z0 ltac:(lia) Hi Hj Hz) as [_ AE].
    rewrite !Nat.eqb_refl in AH, AE. cbn [andb] in AH, AE. rewrite AH, AE. cbv zeta. rewrite <- Exy.
    split; [|apply packet_ratio]. rewrite (sym_sum (get (centres (gx g)) i)). reflexivity.
  - intros c i j k H1 H2 H3 H4. destruct (A c i j k H1 H2 H3 H4) as [AH AE]. rewrite AH, AE. split; intros [Hn|Hn];
      apply Nat.eqb_neq in Hn; rewrite Hn, ?andb_false_r; reflexivity.
Qed.
Print Assumptions C83_square_partial.

(** ** C84 *)
Theorem C84_defaults : forall (T : Type) (NT : Num T) (TR : NumTr T) (env : Env T) xs ys zs (amp beta phase : T),
  (forall nodes, pw_init env xs ys zs nodes None amp beta phase = Err TypeError) /\
  (forall sz sxy tinj, wp_init env xs ys zs sz sxy tinj None None amp beta phase = Err TypeError) /\
  (forall sxy l f, (l <> None \/ f <> None) -> wp_init env xs ys zs None sxy None l f amp beta phase = Err TypeError).
Proof.
  intros T NT TR env xs ys zs amp beta phase. split; [reflexivity|]. split; [reflexivity|].
  intros sxy [l|] [f|] [H|H]; try reflexivity; congruence.
Qed.
Print Assumptions C84_defaults.

(** ** C87.  A rank of a distributed run and a single process on the same uniform grid. *)
Theorem C87_ranks_inject_the_same_bunch : forall (T : Type) (NT : Num T) (LT : NumLaws T) (OT : NumOrd T) (FT : NumFl T) (FL : NumFlLaws T) (TR : NumTr T)
    env (g g' gS gS' : Grid T) ar arS (sl sg : Solver T) (b : Beam T) (t ZMIN ZMAX : T) Nz size r tl,
  made env g g' ar sl -> made env gS gS' arS sg -> bm_first b = None ->
  nltb ZMIN ZMAX = true -> size <= Nz -> r < size -> mpi_tile ZMIN ZMAX Nz size r = Ok tl -> gz g = tl_z tl ->
  gx g = gx gS -> gy g = gy gS -> gz gS = linspace ZMIN ZMAX (tl_NZ tl) ->
  let NZ := tl_NZ tl in let low := if 0 <? r then r * (NZ / size) - 1 else 0 in
  exists ix iy bl bs Jl Js, beam_update env g (Some ZMIN) b sl t = Ok (bl, with_fields sl (sE sl) (sH sl) Jl) /\
    beam_update env gS None b sg t = Ok (bs, with_fields sg (sE sg) (sH sg) Js) /\ ix < gNx g /\ iy < gNy g /\
    (forall k, k < gNz g -> low + k < NZ -> entry Jl 2 ix iy k = entry Js 2 ix iy (low + k)) /\
    (forall c i j k, c < 3 -> i < gNx g -> j < gNy g -> k < gNz g -> ~ (c = 2 /\ i = ix /\ j = iy) -> entry Jl c i j k = entry (sJ sl) c i j k) /\
    (forall c i j k, c < 3 -> i < gNx g -> j < gNy g -> k < NZ -> ~ (c = 2 /\ i = ix /\ j = iy) -> entry Js c i j k = entry (sJ sg) c i j k).
Proof.
  intros T NT LT OT FT FL TR env g g' gS gS' ar arS sl sg b t ZMIN ZMAX Nz size r tl M MS Hf Ho Hs Hr Ht Ez Ex Ey EzS NZ low.
  destruct (made_dims _ _ _ _ _ M) as (_ & _ & _ & _ & _ & _ & P1 & P2 & P3).
  destruct (tile_spec ZMIN ZMAX Nz size r char0_T Hs Hr) as (tl' & Et & T1 & T2 & T3 & T4 & _). rewrite Et in Ht. injection Ht as ->.
  destruct (NZ_facts Nz size ltac:(lia) Hs) as (F1 & F2 & F3 & _). rewrite <- T1 in *. fold NZ in F1, F2, F3, T2, T3, T4. 
  assert (EN : gNz g = lay NZ size r) by (unfold gNz; rewrite Ez, T3; lia).
  apply (rank_beam env g gS b sl sg t ZMIN ((ZMAX - ZMIN) / nofnat NZ)%num NZ low Hf Ex Ey P1 P2 P3).
  - apply step_pos; [exact Ho|lia].
  - intros i Hi. rewrite Ez, T4 by lia. f_equal. f_equal. f_equal. unfold glob, low, glo, own. fold (own NZ size).
    destruct (Nat.ltb_spec 0 r); unfold own in *; nia.
  - unfold gNz. rewrite EzS. unfold linspace. rewrite tab_length. fold NZ. lia.
  - lia.
  - intros i Hi. rewrite EzS. unfold linspace. fold NZ. rewrite get_tab by lia. reflexivity.
  - exact (proj2 (proj2 (made_sized _ _ _ _ _ M))).
  - exact (proj2 (proj2 (made_sized _ _ _ _ _ MS))).
Qed.
Print Assumptions C87_ranks_inject_the_same_bunch.
