(** Properties C134 and C135: the resonator fit and the extrapolated wake. *)
From Coq Require Import List Arith ZArith Bool String Lia QArith Qcanon Reals Lra Ring Field.
From Verif Require Import Num Vec FieldModel GridModel GridProofs GridProofs2 SolverModel SolverCons WakeModel WakeNum SolverKit FitModel.
Import ListNotations.
Open Scope nat_scope.

(** The impedance of a plane as the solver holds it: frequencies and impedance of the plane named. *)
Definition plane_of {T} (s : FitSolver T) (plane dim : string) : option (option (list T) * option (list (T * T))) :=
  if String.eqb plane "longitudinal" && String.eqb dim "z" then Some (fs_f s, fs_Z s)
  else if String.eqb plane "transverse" && String.eqb dim "x" then Some (fs_fx s, fs_Zx s)
  else if String.eqb plane "transverse" && String.eqb dim "y" then Some (fs_fy s, fs_Zy s)
  else None.

(** C134.  What holds: with bounds and number of resonators given, the fit gets them, and gets the data given or,
    when none are given, the impedance of the plane named; plane and wake length are passed on. *)
Theorem C134_data_partial : forall (T B : Type) (NT : Num T) (OT : NumOrd T) (FT : NumFl T) smart (s : FitSolver T) (a : FitArgs T B) b n m,
  fa_bounds a = Some b -> fa_N a = Some n -> get_DEmodel_fitting smart s a = Ok m ->
  ft_N m = n /\ ft_bounds m = b /\ ft_plane m = fa_plane a /\ ft_len m = fs_len s /\
  ((exists f z, fa_freq a = Some f /\ fa_imp a = Some z /\ ft_freq m = Some f /\ ft_imp m = Some (map fst z)) \/
   (fa_freq a = None \/ fa_imp a = None) /\
   exists f z, plane_of s (fa_plane a) (fa_dim a) = Some (f, z) /\ ft_freq m = f /\ ft_imp m = option_map (map fst) z).
Proof.
  intros T B NT OT FT smart s a b n m Hb Hn H. unfold get_DEmodel_fitting in H. rewrite Hb, Hn in H.
  destruct (fit_data s a) as [[f z]|] eqn:E; [|discriminate]. cbn [bind fst snd] in H. injection H as <-. cbn.
  repeat (split; [reflexivity|]). unfold fit_data in E.
  assert (P : (if String.eqb (fa_plane a) "longitudinal" && String.eqb (fa_dim a) "z" then Ok (fs_f s, fs_Z s)
      else if String.eqb (fa_plane a) "transverse" then
        if String.eqb (fa_dim a) "x" then match fs_fx s with Some f => Ok (Some f, fs_Zx s) | None => Err AttributeError end
        else if String.eqb (fa_dim a) "y" then match fs_fy s with Some f => Ok (Some f, fs_Zy s) | None => Err AttributeError end
        else Err ValueError
      else Err ValueError) = Ok (f, z) -> plane_of s (fa_plane a) (fa_dim a) = Some (f, z)).
  { unfold plane_of. destruct (String.eqb (fa_plane a) "longitudinal" && String.eqb (fa_dim a) "z"); [intros Q; injection Q as <- <-; reflexivity|].
    destruct (String.eqb (fa_plane a) "transverse"); [|discriminate]. cbn [andb].
    destruct (String.eqb (fa_dim a) "x").
    { destruct (fs_fx s); [|discriminate]. intros Q; injection Q as <- <-. reflexivity. }
    destruct (String.eqb (fa_dim a) "y"); [|discriminate].
    destruct (fs_fy s); [|discriminate]. intros Q; injection Q as <- <-. reflexivity. }
  destruct (fa_freq a) as [f0|] eqn:Ef.
  - destruct (fa_imp a) as [z0|] eqn:Ez.
    + injection E as <- <-. left. exists f0, z0. auto.
    + right. split; [right; reflexivity|]. exists f, z. split; [apply P, E|]. auto.
  - right. split; [left; reflexivity|]. exists f, z. split; [apply P, E|]. auto.
Qed.
Print Assumptions C134_data_partial.

(** The optimiser named runs, once, with the settings given, and the minimisation after it if asked for. *)
Theorem C134_optimiser_partial : forall (T B : Type) (NT : Num T) (OT : NumOrd T) (FT : NumFl T) smart (s : FitSolver T) (a : FitArgs T B) m,
  get_DEmodel_fitting smart s a = Ok m -> fa_kernel a = "DE"%string \/ fa_kernel a = "CMAES"%string ->
  exists c, ft_calls m = c :: (if fa_min a then [RunMinimization (fa_margin a)] else []) /\
    match c with
    | RunDE k p t => fa_kernel a = "DE"%string /\ k = ntrunc (fa_maxiter a) /\ p = fa_popsize a /\ t = fa_tol a
    | RunCMAES k p t => fa_kernel a = "CMAES"%string /\ k = ntrunc (fa_maxiter a) /\ p = fa_popsize a /\ t = fa_sigma a
    | RunMinimization _ => False
    end.
Proof.
  intros T B NT OT FT smart s a m H Hk. unfold get_DEmodel_fitting in H.
  destruct (fit_data s a); [|discriminate]. cbn [bind] in H.
  destruct (match fa_bounds a with Some b => _ | None => _ end) as [nb|]; [|discriminate]. cbn [bind] in H. injection H as <-. cbn [ft_calls].
  destruct Hk as [->| ->]; cbn [String.eqb Ascii.eqb Bool.eqb app]; eexists; (split; [reflexivity|]); cbn; repeat split; reflexivity.
Qed.
Print Assumptions C134_optimiser_partial.

(** In general: without bounds or number of resonators, the bounds are those found for no data, whatever the data. *)
Theorem C134_bounds_blind : forall (T B : Type) (NT : Num T) (OT : NumOrd T) (FT : NumFl T) smart (s : FitSolver T) (a : FitArgs T B),
  fa_bounds a = None \/ fa_N a = None ->
  (forall m, get_DEmodel_fitting smart s a = Ok m -> smart None None (fa_smart a) = Ok (ft_N m, ft_bounds m)) /\
  (forall e f z, fa_freq a = Some f -> fa_imp a = Some z -> smart None None (fa_smart a) = Err e -> get_DEmodel_fitting smart s a = Err e).
Proof.
  intros T B NT OT FT smart s a Hb.
  assert (E : match fa_bounds a, fa_N a with Some b, Some n => Ok (n, b) | _, _ => get_SmartBounds smart None None (fa_smart a) end
              = smart None None (fa_smart a)).
  { destruct Hb as [->| ->]; [reflexivity|]. destruct (fa_bounds a); reflexivity. }
  unfold get_DEmodel_fitting. rewrite E. split.
  - intros m H. destruct (fit_data s a); [|discriminate]. cbn [bind] in H.
    destruct (smart None None (fa_smart a)) as [[n b]|]; [|discriminate]. cbn [bind] in H. injection H as <-. reflexivity.
  - intros e f z Hf Hz He. unfold fit_data. rewrite Hf, Hz. cbn [bind]. rewrite He. reflexivity.
Qed.
Print Assumptions C134_bounds_blind.

(** Full claim of C134: the bounds are found from the data being fitted; data given are used; the optimiser runs or
    its name is rejected.  False in all three parts.  The bound finder here counts the frequencies it is given and raises
    TypeError when it is given none. *)
Definition finder (f z : option (list Qc)) (_ : SmartOpts Qc) : result (nat * list Qc) :=
  match f, z with Some l, Some r => Ok (List.length l, r) | _, _ => Err TypeError end.
Definition opts0 : SmartOpts Qc := {| so_height := q 1 1; so_distance := 3; so_Rs := [q 4 5; q 10 1]; so_Q := [q 1 2; q 5 1]; so_fres := [q (-1) 100; q 1 100] |}.
Definition solved : FitSolver Qc :=
  {| fs_f := Some [q 0 1; q 1 1; q 2 1]; fs_Z := Some [(q 0 1, q 0 1); (q 5 1, q 1 1); (q 1 1, q (-1) 1)];
     fs_fx := None; fs_Zx := None; fs_fy := None; fs_Zy := None; fs_len := Some (q 10 1);
     fs_s := Some [q (-1) 1; q (-1) 2; q 0 1; q 1 2]; fs_sigmaz := q 1 10 |}.
Definition fitA (f : option (list Qc)) (z : option (list (Qc * Qc))) (b : option (list Qc)) (n : option nat) (k : string) : FitArgs Qc (list Qc) :=
  {| fa_freq := f; fa_imp := z; fa_plane := "longitudinal"; fa_dim := "z"; fa_bounds := b; fa_N := n; fa_kernel := k;
     fa_maxiter := q 100 1; fa_sigma := q 1 100; fa_popsize := 150; fa_tol := q 1 1000; fa_min := false; fa_margin := []; fa_smart := opts0 |}.
Theorem C134_fit_refuted :
  (exists (f : list Qc) z, (exists nb, finder (Some f) (Some (map fst z)) opts0 = Ok nb) /\
     get_DEmodel_fitting finder solved (fitA (Some f) (Some z) None None "DE") = Err TypeError) /\
  (exists (f : list Qc) m, get_DEmodel_fitting finder solved (fitA (Some f) None (Some []) (Some 1) "DE") = Ok m /\ ft_freq m <> Some f) /\
  (exists m, get_DEmodel_fitting finder solved (fitA None None (Some []) (Some 1) "de") = Ok m /\ ft_calls m = []).
Proof.
  split; [|split].
  - exists [q 1 1; q 2 1], [(q 3 1, q 0 1); (q 4 1, q 0 1)]. split; [eexists; reflexivity|]. reflexivity.
  - exists [q 7 1]. eexists. split; [reflexivity|]. cbn. discriminate.
  - eexists. split; reflexivity.
Qed.
Print Assumptions C134_fit_refuted.
(** Both positive theorems apply to a fit of the computed impedance. *)
Example C134_case : exists m, get_DEmodel_fitting finder solved (fitA None None (Some [q 1 1]) (Some 2) "CMAES") = Ok m /\
  ft_N m = 2 /\ ft_freq m = Some [q 0 1; q 1 1; q 2 1] /\ ft_imp m = Some [q 0 1; q 5 1; q 1 1] /\
  plane_of solved "longitudinal" "z" = Some (fs_f solved, fs_Z solved) /\
  ft_calls m = [RunCMAES 100 150 (q 1 100)].
Proof. eexists. split; [reflexivity|]. repeat split. Qed.

(** ** C135 *)
Lemma ceil_R (x : R) : (0 <= x)%R -> (x <= INR (Z.to_nat (nceil x)) < x + 1)%R.
Proof.
  intros Hx. unfold nceil. cbn [nfloor NumFl_R nopp Num_R]. destruct (archimed (- x)) as [A1 A2].
  assert (Hz : (0 <= - (up (- x) - 1))%Z).
  { assert (IZR (up (- x)) < 2)%R by lra. apply lt_IZR in H. lia. }
  rewrite INR_IZR_INZ, Z2Nat.id by exact Hz. rewrite opp_IZR, minus_IZR. lra.
Qed.

(** The distances begin with those of the computed wake and have its spacing, lie below the wake length asked for and
    reach it; for beta = 1 the value at distance s is minus the potential of the fit at the time s/v, times 1e-12. *)
Theorem C135_extrapolated_partial : forall (M : Type) (env : Env R) pico (wp : M -> bool -> R -> R -> R) m s l wl sigma um s0 s1 s2 rest,
  fs_s s = Some l -> l = s0 :: s1 :: s2 :: rest -> (0 < e_c env)%R -> (s1 < s2)%R -> (s0 < wl)%R ->
  exists ss ww, get_extrapolated_wake env pico wp (Some m) s wl sigma um = Ok (ss, ww) /\
    List.length ww = List.length ss /\
    (forall i, i < List.length ss -> get ss i = (s0 + INR i * (s2 - s1))%R /\ (get ss i < wl)%R /\
       get ww i = (- wp m um (match sigma with Some x => x | None => fs_sigmaz s / e_c env end) (get ss i / e_c env) * pico)%R) /\
    (wl <= s0 + INR (List.length ss) * (s2 - s1))%R /\
    ((forall i, i < List.length l -> get l i = (s0 + INR i * (s2 - s1))%R /\ (get l i < wl)%R) ->
       List.length l <= List.length ss /\ forall i, i < List.length l -> get ss i = get l i).
Proof.
  intros M env pico wp m s l wl sigma um s0 s1 s2 rest Hl El Hc Hd Hw.
  unfold get_extrapolated_wake, extrapolation_times, arange. rewrite Hl, El.
  cbn [ndiv nsub nadd nmul nopp nzero Num_R bind].
  set (c := e_c env) in *. set (ds := (s2 - s1)%R). assert (Hds : (0 < ds)%R) by (unfold ds; lra).
  assert (Hdc : (0 < ds / c)%R) by (apply Rdiv_lt_0_compat; assumption).
  destruct (neqb (ds / c)%R 0%R) eqn:Ez.
  { apply neqb_eq in Ez. exfalso. lra. }
  cbn [bind].
  set (x := ((wl / c - s0 / c) / (ds / c))%R).
  assert (Ex : x = ((wl - s0) / ds)%R) by (unfold x; field; lra).
  assert (Hx : (0 <= x)%R) by (rewrite Ex; apply Rlt_le, Rdiv_lt_0_compat; lra).
  destruct (ceil_R x Hx) as [B1 B2]. set (N := Z.to_nat (nceil x)) in *.
  assert (P : forall r, (r < x)%R -> (s0 + r * ds < wl)%R).
  { intros r Hr. rewrite Ex in Hr. apply (Rmult_lt_compat_r ds) in Hr; [|exact Hds].
    unfold Rdiv in Hr. rewrite Rmult_assoc, Rinv_l, Rmult_1_r in Hr by lra. lra. }
  assert (Q : (wl <= s0 + INR N * ds)%R).
  { rewrite Ex in B1. apply (Rmult_le_compat_r ds) in B1; [|lra].
    unfold Rdiv in B1. rewrite Rmult_assoc, Rinv_l, Rmult_1_r in B1 by lra. lra. }
  eexists; eexists. split; [reflexivity|]. rewrite !map_length, tab_length.
  assert (G : forall i, i < N -> get (map (fun y => (y * c)%R) (tab N (fun i => (s0 / c + nofnat i * (ds / c))%R))) i = (s0 + INR i * ds)%R).
  { intros i Hi. unfold get. rewrite (nth_indep _ (nzero : R) ((nzero : R) * c)%R) by (rewrite map_length, tab_length; exact Hi).
    rewrite (map_nth (fun y => (y * c)%R)). fold (get (tab N (fun i => (s0 / c + nofnat i * (ds / c))%R)) i).
    rewrite get_tab by exact Hi. rewrite nofnat_INR. field. lra. }
  split; [reflexivity|]. split; [|split; [exact Q|]].
  - intros i Hi. rewrite G by exact Hi. split; [reflexivity|].
    assert (Li : (INR i < x)%R).
    { assert (INR i + 1 <= INR N)%R by (rewrite <- S_INR; apply le_INR; lia). lra. }
    split; [apply P, Li|].
    unfold get. set (f := fun x0 : R => (- wp m um _ x0 * pico)%R).
    rewrite (nth_indep _ (nzero : R) (f (nzero : R))) by (rewrite map_length, tab_length; exact Hi).
    rewrite (map_nth f). fold (get (tab N (fun i => (s0 / c + nofnat i * (ds / c))%R)) i).
    rewrite get_tab by exact Hi. rewrite nofnat_INR. unfold f. do 2 f_equal.
    replace (s0 / c + INR i * (ds / c))%R with ((s0 + INR i * ds) / c)%R by (field; lra). reflexivity.
  - intros He. assert (Le : S (S (S (List.length rest))) <= N).
    { destruct (Nat.le_gt_cases (S (S (S (List.length rest)))) N) as [Y|Y]; [exact Y|exfalso].
      destruct (He N) as [E1 E2]; [cbn [List.length]; lia|]. rewrite E1 in E2. lra. }
    split; [exact Le|]. intros i Hi. cbn [List.length] in Hi. rewrite G by lia. symmetry. apply He. exact Hi.
Qed.
Print Assumptions C135_extrapolated_partial.

(** Before a fit there is an AttributeError; a wake with fewer than three points raises IndexError. *)
Theorem C135_errors : forall (T M : Type) (NT : Num T) (OT : NumOrd T) (FT : NumFl T) (env : Env T) pico (wp : M -> bool -> T -> T -> T) s wl sigma um,
  get_extrapolated_wake env pico wp None s wl sigma um = Err AttributeError /\
  (forall m l, fs_s s = Some l -> List.length l < 3 -> get_extrapolated_wake env pico wp (Some m) s wl sigma um = Err IndexError).
Proof.
  intros. split; [reflexivity|]. intros m l Hl Hlen. unfold get_extrapolated_wake, extrapolation_times. rewrite Hl.
  destruct l as [|a [|b [|c r]]]; try reflexivity. cbn in Hlen. lia.
Qed.
Print Assumptions C135_errors.

(** The wake function comes at the times of the same distances, and both fail together. *)
Theorem C135_same_axis : forall (T M : Type) (NT : Num T) (OT : NumOrd T) (FT : NumFl T) (env : Env T) pico
    (wp : M -> bool -> T -> T -> T) (wf : M -> bool -> T -> T) m s wl sigma um um',
  match get_extrapolated_wake_function env wf m s wl um, get_extrapolated_wake env pico wp m s wl sigma um' with
  | Ok (t, w), Ok (ss, _) => ss = map (fun x => nmul x (e_c env)) t /\ exists k, m = Some k /\ w = map (wf k um) t
  | Err a, Err b => a = b
  | _, _ => False
  end.
Proof.
  intros. unfold get_extrapolated_wake_function, get_extrapolated_wake. destruct m as [m|]; [|reflexivity].
  destruct (extrapolation_times env s wl) as [t|e]; cbn [bind]; [|reflexivity]. split; [reflexivity|]. exists m. auto.
Qed.
Print Assumptions C135_same_axis.

(** Full claim of C135: for every beta the value at distance s is the wake at the time s/v.  False: the time is s/c.
    Here c = 1, v = 1/2 and the fit returns the time it is asked for; the distance -1 of the first sample has time -2. *)
Theorem C135_beta_refuted : exists (env : Env Qc) (v : Qc) s ss ww,
  e_c env = q 1 1 /\ v = q 1 2 /\
  get_extrapolated_wake env (q 1 1) (fun (_ : unit) _ _ t => t) (Some tt) s (q 1 1) None true = Ok (ss, ww) /\
  get ss 0 = q (-1) 1 /\ get ww 0 <> (- (get ss 0 / v))%Qc.
Proof.
  exists envQ, (q 1 2), solved. eexists; eexists. split; [reflexivity|]. split; [reflexivity|]. split; [vm_compute; reflexivity|].
  split; [apply Qc_is_canon; reflexivity|]. intros E. apply (f_equal this) in E. vm_compute in E. discriminate.
Qed.
Print Assumptions C135_beta_refuted.

(** Four samples from -1 with spacing 1/2, continued to 2. *)
Definition solvedR : FitSolver R :=
  {| fs_f := None; fs_Z := None; fs_fx := None; fs_Zx := None; fs_fy := None; fs_Zy := None; fs_len := Some 1%R;
     fs_s := Some [-1; -1 / 2; 0; 1 / 2]%R; fs_sigmaz := 1%R |}.
Example C135_case : exists l, fs_s solvedR = Some l /\ l = (-1 :: -1 / 2 :: 0 :: [1 / 2])%R /\ (0 < 1)%R /\ (- 1 / 2 < 0)%R /\ (-1 < 2)%R /\
  (forall i, i < List.length l -> get l i = (-1 + INR i * (0 - - 1 / 2))%R /\ (get l i < 2)%R).
Proof.
  eexists. split; [reflexivity|]. split; [reflexivity|]. repeat (split; [lra|]).
  intros [|[|[|[|i]]]] Hi; cbn [List.length] in Hi; try lia; unfold get; cbn [nth INR]; lra.
Qed.
