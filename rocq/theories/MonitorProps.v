(** C67, C92: field monitors. *)
From Coq Require Import List Arith Bool Lia Reals Lra QArith Qcanon String.
From Verif Require Import Num Vec FieldModel FieldSpec FieldProofs FieldProofs2 GridModel GridProofs GridProofs2 SolverModel SolverCons SolverKern SolverKit WakeModel WakeNum WakeZ WakeTotal
  SourceModel SourceProofs SourceReal MonitorModel MonitorProofs.
Import ListNotations.
Open Scope nat_scope.

(** ** C67.  [acc_at m q c i j k]: the accumulator of component c for the q-th frequency at cell (i,j,k). *)
Theorem C67_fourier_sum : forall (T : Type) (NT : Num T) (LT : NumLaws T) (TR : NumTr T) freqs nx ny nz (l : list (Field T * T)) (E0 : Field T) (dt : T),
  (forall p, In p ((E0, dt) :: l) -> sized (fst p) nx ny nz) ->
  exists m, updates (mo_init freqs) ((E0, dt) :: l) = Ok m /\ mo_index m = S (List.length l) /\
    forall q c i j k, q < List.length freqs -> c < 3 -> i < nx -> j < ny -> k < nz ->
      let E n := fst (nth n ((E0, dt) :: l) (E0, dt)) in
      let y n := (- nofnat 2 * npi * get freqs q * (nofnat n * dt))%num in
      acc_at m q c i j k = (sum (S (List.length l)) (fun n => entry (E n) c i j k * ncos (y n)), sum (S (List.length l)) (fun n => entry (E n) c i j k * nsin (y n)))%num.
Proof.
  intros T NT LT TR freqs nx ny nz l E0 dt H. set (Es := fun n => fst (nth n ((E0, dt) :: l) (E0, dt))).
  assert (S0 : sized (Es 0) nx ny nz) by (apply (H (E0, dt)); left; reflexivity).
  destruct (first_sums freqs dt nx ny nz Es S0) as (m1 & U & P1).
  destruct (updates_sums freqs dt nx ny nz Es l m1 1 P1) as (m & U2 & P2).
  { intros p E d Q. split; [|apply (H (E, d)); right; eapply nth_error_In; exact Q]. unfold Es. cbn [Nat.add nth]. rewrite (nth_error_nth _ _ _ Q). reflexivity. }
  exists m. split; [cbn [updates]; change E0 with (Es 0) at 1; rewrite U; exact U2|]. destruct P2 as (_ & I & _ & _ & _ & A). split; [exact I|].
  intros q c i j k Hq Hc Hi Hj Hk E y. rewrite A by assumption. reflexivity.
Qed.
Print Assumptions C67_fourier_sum.

(** A field that oscillates at the monitored frequency, over a whole number of half periods, is recorded
    with half its amplitude per sample and its phase. *)
Lemma tele (u ph : R) n : (2 * sin u * sum n (fun m => cos (2 * (u * INR m) + ph)) = sin (2 * (u * INR n) - u + ph) - sin (ph - u))%R.
Proof.
  induction n as [|n IH]; [cbn [sum INR]; replace (2 * (u * 0) - u + ph)%R with (ph - u)%R by ring; cbn; ring|].
  cbn [sum]. change (nadd ?a ?b) with (a + b)%R. rewrite Rmult_plus_distr_l, IH, S_INR.
  replace (2 * (u * (INR n + 1)) - u + ph)%R with ((2 * (u * INR n) + ph) + u)%R by ring.
  replace (2 * (u * INR n) - u + ph)%R with ((2 * (u * INR n) + ph) - u)%R by ring. rewrite sin_plus, sin_minus. ring.
Qed.
Lemma vanish u ph n z : sin u <> 0%R -> (u * INR n = IZR z * PI)%R -> sum n (fun m => cos (2 * (u * INR m) + ph))%R = 0%R.
Proof.
  intros Hs Hn. pose proof (tele u ph n) as E. rewrite Hn in E.
  replace (2 * (IZR z * PI) - u + ph)%R with ((ph - u) + 2 * IZR z * PI)%R in E by ring.
  assert (X : sin ((ph - u) + 2 * IZR z * PI) = sin (ph - u)).
  { destruct z as [|p|p].
    - f_equal. ring.
    - rewrite <- (sin_period (ph - u) (Pos.to_nat p)). f_equal. rewrite INR_IPR. reflexivity.
    - rewrite <- (sin_period (ph - u + 2 * IZR (Zneg p) * PI) (Pos.to_nat p)). f_equal. rewrite INR_IPR. change (IZR (Z.neg p)) with (- IPR p)%R. ring. }
  rewrite X in E. assert (2 * sin u <> 0)%R by lra. apply Rmult_eq_reg_l with (2 * sin u)%R; [|assumption]. rewrite E. ring.
Qed.
Theorem C67_sinusoid : forall freqs nx ny nz (l : list (Field R * R)) (E0 : Field R) (dt : R) m q c i j k A ph z,
  (forall p, In p ((E0, dt) :: l) -> sized (fst p) nx ny nz) -> updates (mo_init freqs) ((E0, dt) :: l) = Ok m ->
  q < List.length freqs -> c < 3 -> i < nx -> j < ny -> k < nz ->
  let n := S (List.length l) in let u := (2 * PI * get freqs q * dt)%R in
  (forall p, p < n -> entry (fst (nth p ((E0, dt) :: l) (E0, dt))) c i j k = (A * cos (u * INR p + ph))%R) ->
  sin u <> 0%R -> (u * INR n = IZR z * PI)%R ->
  acc_at m q c i j k = (INR n / 2 * (A * cos ph), INR n / 2 * (A * sin ph))%R.
Proof.
  intros freqs nx ny nz l E0 dt m q c i j k A ph z HS U Hq Hc Hi Hj Hk n u HE Hu Hn.
  destruct (C67_fourier_sum R _ _ _ freqs nx ny nz l E0 dt HS) as (m' & U' & _ & P). rewrite U in U'. injection U' as <-.
  rewrite P by assumption. cbv zeta. fold n.
  assert (Y : forall p, (- nofnat 2 * npi * get freqs q * (nofnat p * dt))%num = (- (u * INR p))%R).
  { intros p. rewrite n2, nofnat_INR. unfold u. cbn [nopp nmul npi NumTr_R Num_R]. ring. }
  assert (SE : forall f g : nat -> R, (forall p, p < n -> f p = g p) -> sum n f = sum n g) by (intros f g X; apply sum_ext; exact X).
  assert (SL : forall N (a b : R) (f g : nat -> R), (sum N (fun p => a * f p + b * g p) = a * sum N f + b * sum N g)%R).
  { intros N a b f g. induction N as [|N IH]; cbn [sum]; change (nadd ?x ?y) with (x + y)%R; [cbn; ring|]. rewrite IH. ring. }
  assert (S1 : forall N, sum N (fun _ => 1%R) = INR N).
  { induction N as [|N IH]; [reflexivity|]. rewrite S_INR. cbn [sum]. rewrite IH. reflexivity. }
  pose proof (vanish u ph n z Hu Hn) as V1. pose proof (vanish u (ph - PI / 2) n z Hu Hn) as V2.
  f_equal.
  - rewrite (SE _ (fun p => A / 2 * cos ph * 1 + A / 2 * cos (2 * (u * INR p) + ph))%R).
    + rewrite SL, V1, S1. field.
    + intros p Hp. rewrite HE by exact Hp. rewrite Y. cbn [ncos NumTr_R nmul Num_R]. rewrite cos_neg.
      replace (2 * (u * INR p) + ph)%R with (u * INR p + (u * INR p + ph))%R by ring.
      replace (cos ph) with (cos ((u * INR p + ph) - u * INR p)) by (f_equal; ring). rewrite cos_minus, (cos_plus (u * INR p) (u * INR p + ph)). field.
  - rewrite (SE _ (fun p => A / 2 * sin ph * 1 + - (A / 2) * cos (2 * (u * INR p) + (ph - PI / 2)))%R).
    + rewrite SL, V2, S1. field.
    + intros p Hp. rewrite HE by exact Hp. rewrite Y. cbn [nsin NumTr_R nmul Num_R]. rewrite sin_neg.
      replace (2 * (u * INR p) + (ph - PI / 2))%R with (- (PI / 2 - (2 * (u * INR p) + ph)))%R by ring. rewrite cos_neg, cos_shift.
      replace (2 * (u * INR p) + ph)%R with (u * INR p + (u * INR p + ph))%R by ring.
      replace (sin ph) with (sin ((u * INR p + ph) - u * INR p)) by (f_equal; ring). rewrite sin_minus, (sin_plus (u * INR p) (u * INR p + ph)). field.
Qed.
Print Assumptions C67_sinusoid.
(** four samples per period, one period *)
Example C67_case : exists (l : list (Field R * R)) E0, (forall p, In p ((E0, 1%R) :: l) -> sized (fst p) 1 1 1) /\
  S (List.length l) = 4 /\ (forall p, p < 4 -> entry (fst (nth p ((E0, 1%R) :: l) (E0, 1%R))) 2 0 0 0 = (3 * cos (2 * PI * (1 / 4) * 1 * INR p + 0))%R) /\
  sin (2 * PI * (1 / 4) * 1) <> 0%R /\ (2 * PI * (1 / 4) * 1 * INR 4 = IZR 2 * PI)%R.
Proof.
  set (F := fun p : nat => {| fNx := 1; fNy := 1; fNz := 1; farr := [0%R; 0%R; (3 * cos (2 * PI * (1 / 4) * 1 * INR p + 0))%R] |}).
  exists [(F 1, 1%R); (F 2, 1%R); (F 3, 1%R)], (F 0). split. { intros p [<-|[<-|[<-|[<-|[]]]]]; repeat split. }
  split; [reflexivity|]. split. { intros [|[|[|[|p]]]] Hp; try reflexivity. lia. }
  split; [|cbn [INR]; field]. replace (2 * PI * (1 / 4) * 1)%R with (PI / 2)%R by field. rewrite sin_PI2. lra.
Qed.

(** ** C92.  In wakesolve the sample taken with the phase of time n dt is the field after n + 1 steps; the
    field recorded for time n dt is the one after n steps. *)
Theorem C92_one_step_late_partial : forall (T : Type) (NT : Num T) (LT : NumLaws T) (OT : NumOrd T) (FT : NumFl T) (FL : NumFlLaws T) (TR : NumTr T)
    env (g g' : Grid T) ar (b : Beam T) (s : Solver T) freqs n (El : nat -> Field T),
  made env g g' ar s -> bm_first b = None -> 0 < n ->
  (forall l, l < n -> exists b' s', src_run (beam_update env g None) b s (S l) = Ok (b', s') /\ El l = sE s') ->
  exists bn sn m, src_run (beam_update env g None) b s n = Ok (bn, sn) /\ mon_run (beam_update env g None) b s (mo_init freqs) n = Ok (bn, sn, m) /\
    forall q c i j k, q < List.length freqs -> c < 3 -> i < gNx g -> j < gNy g -> k < gNz g ->
      let y l := (- nofnat 2 * npi * get freqs q * (nofnat l * sdt s))%num in
      acc_at m q c i j k = (sum n (fun l => entry (El l) c i j k * ncos (y l)), sum n (fun l => entry (El l) c i j k * nsin (y l)))%num.
Proof.
  intros T NT LT OT FT FL TR env g g' ar b s freqs n El M Hf Hn HE.
  destruct (beam_run env g g' ar b s M Hf) as (ix & iy & zmin & _ & _ & _ & _ & _ & R).
  set (St := fun l => match src_run (beam_update env g None) b s l with Ok p => p | Err _ => (b, s) end).
  assert (HS : forall l, src_run (beam_update env g None) b s l = Ok (St l) /\ made env g g' ar (snd (St l)) /\ sdt (snd (St l)) = sdt s).
  { intros l. destruct (R l) as (bl & sl & E & Ml & D & _). unfold St. rewrite E. auto. }
  destruct (mon_run_sums (beam_update env g None) b s freqs (gNx g) (gNy g) (gNz g) (sdt s) St eq_refl n) as (m & E & P); [|exact Hn|].
  { intros l Hl. destruct (HS (S l)) as (E1 & M1 & D1). split; [|split; [apply (made_sized _ _ _ _ _ M1)|exact D1]].
    rewrite src_run_S in E1. destruct (HS l) as (E2 & _). rewrite E2 in E1. exact E1. }
  exists (fst (St n)), (snd (St n)), m. rewrite <- surjective_pairing. split; [apply HS|]. split; [exact E|].
  destruct P as (_ & _ & _ & _ & _ & A). intros q c i j k Hq Hc Hi Hj Hk y. rewrite A by assumption. unfold csum. cbn [fst snd].
  f_equal; apply sum_ext; intros l Hl; destruct (HE l Hl) as (b' & s' & E' & ->); unfold St; rewrite E'; reflexivity.
Qed.
Print Assumptions C92_one_step_late_partial.

(** An empty bunch leaves a solver without current as it is. *)
Lemma no_charge (TR : NumTr Qc) env (g g' : Grid Qc) ar (s : Solver Qc) b t : made env g g' ar s -> bm_first b = None -> bm_q b = 0%Qc ->
  (forall c i j k, c < 3 -> i < gNx g -> j < gNy g -> k < gNz g -> entry (sJ s) c i j k = 0%Qc) ->
  exists b', beam_update env g None b s t = Ok (b', s).
Proof.
  intros M Hf Hq HJ. destruct (made_dims _ _ _ _ _ M) as (_ & _ & _ & _ & _ & _ & P1 & P2 & P3).
  destruct (beam_first_ok b g Hf P1 P2 P3) as (ix & iy & zmin & E & Hx & Hy & _).
  destruct (made_sized _ _ _ _ _ M) as (_ & _ & SJ).
  destruct (beam_update_spec env g None b s t ix iy zmin E Hx Hy SJ) as (b' & J & U & _ & _ & _ & _ & SJ' & A). exists b'. rewrite U.
  replace J with (sJ s); [destruct s; reflexivity|]. destruct SJ as (W & X1 & X2 & X3), SJ' as (W' & Y1 & Y2 & Y3).
  apply field_ext; try congruence. intros c i j k Hc Hi Hj Hk. rewrite <- !entry_at. rewrite X1 in Hi. rewrite X2 in Hj. rewrite X3 in Hk.
  rewrite A by assumption. rewrite (HJ c i j k) by assumption. destruct (_ && _)%bool; [|reflexivity]. rewrite Hq. cbn [nmul ndiv Num_Qc]. unfold Qcdiv. ring.
Qed.
Lemma then_step {T} {NT : Num T} {OT : NumOrd T} (s0 : Solver T) o s s1 : run s0 [o] = Ok s -> run s0 [o; OStep] = Ok s1 -> one_step s = Ok s1.
Proof.
  unfold run. cbn [seq_upd]. destruct (do_op s0 o) as [sw|]; cbn [bind]; [|discriminate]. intros E. injection E as ->.
  cbn [do_op]. destruct (one_step s); [auto|discriminate].
Qed.
Theorem C92_refuted : exists g' s, made envQ gridQ g' (argsQ (bcs "pec") (bcs "pec") vac []) s /\
  forall (TR : NumTr Qc) b, ncos 0%Qc = 1%Qc -> bm_first b = None -> bm_q b = 0%Qc ->
    exists b1 s1 m, src_run (beam_update envQ gridQ None) b s 1 = Ok (b1, s1) /\ mon_run (beam_update envQ gridQ None) b s (mo_init [0%Qc]) 1 = Ok (b1, s1, m) /\
      fst (acc_at m 0 2 1 1 1) = entry (sE s1) 2 1 1 1 /\ fst (acc_at m 0 2 1 1 1) <> (entry (sE s) 2 1 1 1 * ncos (- nofnat 2 * npi * 0 * (nofnat 0 * sdt s)))%num.
Proof.
  assert (H : simulate envQ gridQ (argsQ (bcs "pec") (bcs "pec") vac [])
    [([OWriteE (ramp 3)], (0, (2, 1, 1, 1), q (-2) 1) :: all_obs 2 0%Qc); ([OWriteE (ramp 3); OStep], [(0, (2, 1, 1, 1), q (-13) 8)])] = true) by (vm_compute; reflexivity).
  destruct (simulated _ _ _ _ gridQ_obj H) as (s0 & g' & Hc & Hm & F). inversion F as [|? ? (s & R & O) F']; subst. inversion F' as [|? ? (s1 & R1 & O1) _]; subst.
  cbn [fst snd] in *. inversion O as [|? ? OE OJ]; subst. inversion O1 as [|? ? OE1 _]; subst. cbn [holds sel] in OE, OE1.
  destruct (made_run _ _ _ _ _ s0 s Hm R) as [Ms _]. exists g', s. split; [exact Ms|]. intros TR b C0 Hf Hq.
  assert (D : gNx gridQ = 3 /\ gNy gridQ = 3 /\ gNz gridQ = 3) by (vm_compute; auto). destruct D as (D1 & D2 & D3).
  assert (HJ : forall c i j k, c < 3 -> i < gNx gridQ -> j < gNy gridQ -> k < gNz gridQ -> entry (sJ s) c i j k = 0%Qc).
  { intros c i j k H1 H2 H3 H4. apply (all_obs_hold 2 0%Qc s OJ). repeat split; lia. }
  assert (St : one_step s = Ok s1).
  { exact (then_step s0 _ s s1 R R1). }
  set (t0 := (nofnat 0 * sdt s)%num). destruct (no_charge TR envQ gridQ g' _ s b t0 Ms Hf Hq HJ) as (b1 & U).
  assert (It : src_run (beam_update envQ gridQ None) b s 1 = Ok (b1, s1)).
  { unfold src_run. cbn [seq seq_upd]. unfold src_iter. cbn [fst snd]. fold t0. rewrite U. cbn [bind fst snd]. rewrite St. reflexivity. }
  destruct (C92_one_step_late_partial Qc _ _ _ _ _ TR envQ gridQ g' _ b s [0%Qc] 1 (fun _ => sE s1) Ms Hf ltac:(lia)) as (bn & sn & m & R2 & R3 & A).
  { intros [|l] Hl; [|lia]. exists b1, s1. auto. }
  rewrite It in R2. injection R2 as <- <-. exists b1, s1, m. split; [exact It|]. split; [exact R3|].
  assert (Y : forall x y : Qc, ncos (- nofnat 2 * npi * x * (nofnat 0 * y))%num = 1%Qc).
  { intros x y. rewrite <- C0. f_equal. cbn [nofnat nmul nopp nzero Num_Qc]. ring. }
  assert (V : fst (acc_at m 0 2 1 1 1) = entry (sE s1) 2 1 1 1).
  { rewrite (A 0 2 1 1 1 ltac:(cbn; lia) ltac:(lia) ltac:(lia) ltac:(lia) ltac:(lia)). cbn [fst sum get nth]. rewrite Y. cbn [nadd nmul nzero Num_Qc]. ring. }
  split; [exact V|]. rewrite V, OE, OE1. unfold t0. rewrite Y. cbn [nmul Num_Qc]. discriminate.
Qed.
Print Assumptions C92_refuted.
