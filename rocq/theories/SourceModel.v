(** Model of the time-dependent sources, /repo/wakis/sources.py.  Plotting is not modelled.

    A source object keeps what its first update computed (is_first_update, ixs, iys, zmin, defaults),
    so every update returns the new object beside the new solver.  The solver's x, y, z, dx, dy, dz
    are those of its grid (solverFIT3D.py:140-146). *)
From Coq Require Import List Arith ZArith Bool String Lia Reals.
From Verif Require Import Num Vec FieldModel GridModel SolverModel WakeModel.
Import ListNotations.
Open Scope nat_scope.

(** np.exp, np.cos, np.sin, np.pi; np.sqrt is in the environment. *)
Class NumTr (T : Type) : Type := { nexp : T -> T; ncos : T -> T; nsin : T -> T; npi : T }.
#[global] Instance NumTr_R : NumTr R := { nexp := exp; ncos := cos; nsin := sin; npi := PI }.

Section SourceModel.
  Context {T : Type} {NT : Num T} {OT : NumOrd T} {FT : NumFl T} {TR : NumTr T}.
  Local Open Scope num_scope.

  (** ** Beam (21-109) *)
  Record Beam : Type := {
    bm_x : T; bm_y : T; bm_sigmaz : T; bm_q : T; bm_v : T; bm_ti : T;
    bm_first : option (nat * nat * T)        (* ixs, iys, zmin once the first update ran *)
  }.
  (** __init__ (64-73); [k0] is 8.548921333333334.  sigmaz is required. *)
  Definition beam_init (env : Env T) (k0 xs ys beta q sigmaz : T) (ti : option T) : Beam :=
    let v := e_c env * beta in
    {| bm_x := xs; bm_y := ys; bm_sigmaz := sigmaz; bm_q := q; bm_v := v;
       bm_ti := match ti with Some t => t | None => k0 * sigmaz / v end; bm_first := None |}.
  (** The Beam wakesolve makes (routines.py:364-370): the wake solver's charge, sigmaz, beta and position,
      but not its injection time. *)
  Definition wake_beam (env : Env T) (k0 xs ys beta q sigmaz : T) : Beam := beam_init env k0 xs ys beta q sigmaz None.
  (** First update (86-96); [ZMIN] is the attribute solver.ZMIN, present in distributed runs only. *)
  Definition beam_first (b : Beam) (g : Grid T) (ZMIN : option T) : result (nat * nat * T) :=
    match bm_first b with
    | Some f => Ok f
    | None =>
        let z := centres (gz g) in
        do ix <- nearest (centres (gx g)) (bm_x b);
        do iy <- nearest (centres (gy g)) (bm_y b);
        do zmin <- match ZMIN with
                   | Some z0 => do i <- nearest z z0; do d <- item (widths (gz g)) i; Ok (z0 + d / nofnat 2)
                   | None => np_min z
                   end;
        Ok (ix, iy, zmin)
    end.
  (** Profile (98-105) at position z and time t *)
  Definition beam_profile (env : Env T) (b : Beam) (zmin z t : T) : T :=
    let s0 := zmin - bm_v b * bm_ti b in
    let s := z - bm_v b * t in
    1 / e_sqrt env (nofnat 2 * npi * (bm_sigmaz b * bm_sigmaz b)) *
    nexp (- ((s - s0) * (s - s0)) / (nofnat 2 * (bm_sigmaz b * bm_sigmaz b))).
  (** update (75-109) *)
  Definition beam_update (env : Env T) (g : Grid T) (ZMIN : option T) (b : Beam) (s : Solver T) (t : T)
    : result (Beam * Solver T) :=
    do f <- beam_first b g ZMIN;
    let '(ix, iy, zmin) := f in
    do dx <- item (widths (gx g)) ix;
    do dy <- item (widths (gy g)) iy;
    let line := map (fun z => bm_q b * bm_v b * beam_profile env b zmin z t / dx / dy) (centres (gz g)) in
    do J <- setitem (sJ s) (KTup (KI (Z.of_nat ix)) (KI (Z.of_nat iy)) kfull (CStr "z")) (VArr (vec line));
    Ok ({| bm_x := bm_x b; bm_y := bm_y b; bm_sigmaz := bm_sigmaz b; bm_q := bm_q b; bm_v := bm_v b; bm_ti := bm_ti b;
           bm_first := Some (ix, iy, zmin) |}, with_fields s (sE s) (sH s) J).

  (** ** PlaneWave (141-247) *)
  Record PlaneWave : Type := {
    pw_xs : option ikey; pw_ys : option ikey; pw_zs : ikey;
    pw_amp : T; pw_phase : T; pw_vp : T; pw_w : T; pw_kz : T;
    pw_tmax : option T                        (* None is np.inf *)
  }.
  (** __init__ (200-215): without f, 2*pi*None raises. *)
  Definition pw_init (env : Env T) (xs ys : option ikey) (zs : ikey) (nodes f : option T) (amp beta phase : T) : result PlaneWave :=
    match f with
    | None => Err TypeError
    | Some f =>
        let w := nofnat 2 * npi * f in
        Ok {| pw_xs := xs; pw_ys := ys; pw_zs := zs; pw_amp := amp; pw_phase := phase;
              pw_vp := beta * e_c env; pw_w := w; pw_kz := w / e_c env;
              pw_tmax := match nodes with Some n => Some (n / f) | None => None end |}
    end.
  Definition or_all (k : option ikey) (n : nat) : ikey :=
    match k with Some k => k | None => krange 0 (Z.of_nat n) end.
  (** update (217-247): H first, then E. *)
  Definition pw_update (env : Env T) (p : PlaneWave) (s : Solver T) (t : T) : result (PlaneWave * Solver T) :=
    let xs := or_all (pw_xs p) (sNx s) in let ys := or_all (pw_ys p) (sNy s) in
    let on := match pw_tmax p with Some tm => negb (nltb tm t) | None => true end in
    let c := ncos (pw_w p * t + pw_phase p) in
    let h := if on then - pw_amp p * c else 0 in
    let e := if on then pw_amp p * c / (pw_kz p / (e_mu0 env * pw_vp p)) else 0 in
    do H <- setitem (sH s) (KTup xs ys (pw_zs p) (CStr "y")) (VNum h);
    do E <- setitem (sE s) (KTup xs ys (pw_zs p) (CStr "x")) (VNum e);
    Ok ({| pw_xs := Some xs; pw_ys := Some ys; pw_zs := pw_zs p; pw_amp := pw_amp p; pw_phase := pw_phase p;
           pw_vp := pw_vp p; pw_w := pw_w p; pw_kz := pw_kz p; pw_tmax := pw_tmax p |},
        with_fields s E H (sJ s)).

  (** ** WavePacket (284-419) *)
  Record WavePacket : Type := {
    wp_xs : option ikey; wp_ys : option ikey; wp_zs : ikey;
    wp_sigmaz : option T; wp_sigmaxy : option T; wp_tinj : option T;
    wp_amp : T; wp_phase : T; wp_beta : T; wp_w : T
  }.
  (** __init__ (352-370): c / None and 6 * None raise. *)
  Definition wp_init (env : Env T) (xs ys : option ikey) (zs : ikey) (sigmaz sigmaxy tinj wavelength f : option T)
      (amp beta phase : T) : result WavePacket :=
    do f <- match f, wavelength with
            | Some f, _ => Ok f
            | None, Some l => Ok (e_c env / l)
            | None, None => Err TypeError
            end;
    do tinj <- match tinj, sigmaz with
               | Some t, _ => Ok t
               | None, Some sg => Ok (nofnat 6 * sg)
               | None, None => Err TypeError
               end;
    Ok {| wp_xs := xs; wp_ys := ys; wp_zs := zs; wp_sigmaz := sigmaz; wp_sigmaxy := sigmaxy; wp_tinj := Some tinj;
          wp_amp := amp; wp_phase := phase; wp_beta := beta; wp_w := nofnat 2 * npi * f |}.
  (** np.mean of a non-empty list *)
  Definition mean (v : list T) : T := fold_left nadd v 0 / nofnat (List.length v).
  (** np.meshgrid(x, y) with its default indexing: rows follow y, columns follow x (404-405). *)
  Definition mesh (h : T -> T -> T) (x y : list T) : ndarray T :=
    {| shape := [List.length y; List.length x];
       dat := tab (List.length y * List.length x) (fun p => h (get x (p mod List.length x)) (get y (p / List.length x))) |}.
  Definition scale_arr (f : T -> T) (a : ndarray T) : ndarray T := {| shape := shape a; dat := map f (dat a) |}.
  (** update (372-419) *)
  Definition wp_update (env : Env T) (g : Grid T) (p : WavePacket) (s : Solver T) (t : T) : result (WavePacket * Solver T) :=
    let xs := or_all (wp_xs p) (sNx s) in let ys := or_all (wp_ys p) (sNy s) in
    let sz := match wp_sigmaz p with Some x => x | None => nofnat 10 * mean (widths (gz g)) end in
    let sxy := match wp_sigmaxy p with Some x => x
               | None => nofnat 5 * mean [mean (widths (gx g)); mean (widths (gy g))] end in
    let tinj := match wp_tinj p with Some x => x | None => nofnat 6 * sz end in
    do zmin <- np_min (centres (gz g));
    let s0 := zmin - tinj in
    let s_ := zmin - wp_beta p * e_c env * t in
    do x <- take xs (centres (gx g));
    do y <- take ys (centres (gy g));
    let gxy := mesh (fun a b => nexp (- (a * a + b * b) / (nofnat 2 * (sxy * sxy)))) x y in
    let gt := nexp (- ((s_ - s0) * (s_ - s0)) / (nofnat 2 * (sz * sz))) in
    let c := ncos (wp_w p * t + wp_phase p) in
    do H <- setitem (sH s) (KTup xs ys (wp_zs p) (CStr "y")) (VArr (scale_arr (fun a => - wp_amp p * c * a * gt) gxy));
    do E <- setitem (sE s) (KTup xs ys (wp_zs p) (CStr "x")) (VArr (scale_arr (fun a => wp_amp p * e_mu0 env * e_c env * c * a * gt) gxy));
    Ok ({| wp_xs := Some xs; wp_ys := Some ys; wp_zs := wp_zs p; wp_sigmaz := Some sz; wp_sigmaxy := Some sxy;
           wp_tinj := Some tinj; wp_amp := wp_amp p; wp_phase := wp_phase p; wp_beta := wp_beta p; wp_w := wp_w p |},
        with_fields s E H (sJ s)).

  (** ** Dipole (457-565) and Pulse (568-761) *)
  (** len(field) == 2: component and field letter (520-522, 637-639) *)
  Definition split_field (field component : string) : string * string :=
    match field with
    | String a (String b EmptyString) => (String a EmptyString, String b EmptyString)
    | _ => (field, component)
    end.
  (** solver.<field>[xs, ys, zs, component] = value; any other field prints a message (552-565, 748-761) *)
  Definition point_write (field component : string) (xs ys zs : ikey) (s : Solver T) (v : T) : result (Solver T) :=
    let k := KTup xs ys zs (CStr component) in
    if String.eqb field "E" then do E <- setitem (sE s) k (VNum v); Ok (with_fields s E (sH s) (sJ s))
    else if String.eqb field "H" then do H <- setitem (sH s) k (VNum v); Ok (with_fields s (sE s) H (sJ s))
    else if String.eqb field "J" then do J <- setitem (sJ s) k (VNum v); Ok (with_fields s (sE s) (sH s) J)
    else Ok s.
  (** int(N / 2) *)
  Definition or_mid (k : option ikey) (n : nat) : ikey :=
    match k with Some k => k | None => KI (Z.of_nat (n / 2)) end.

  Record Dipole : Type := {
    dp_field : string; dp_comp : string; dp_xs : option ikey; dp_ys : option ikey; dp_zs : option ikey;
    dp_nodes : T; dp_f : option T; dp_amp : T; dp_phase : T
  }.
  Definition dp_init (field component : string) (xs ys zs : option ikey) (nodes : T) (f : option T) (amp phase : T) : Dipole :=
    let fc := split_field field component in
    {| dp_field := fst fc; dp_comp := snd fc; dp_xs := xs; dp_ys := ys; dp_zs := zs;
       dp_nodes := nodes; dp_f := f; dp_amp := amp; dp_phase := phase |}.
  (** update (526-565); the angular frequency is recomputed from the stored f. *)
  Definition dp_update (env : Env T) (g : Grid T) (d : Dipole) (s : Solver T) (t : T) : result (Dipole * Solver T) :=
    let xs := or_mid (dp_xs d) (sNx s) in let ys := or_mid (dp_ys d) (sNy s) in let zs := or_mid (dp_zs d) (sNz s) in
    do f <- match dp_f d with
            | Some f => Ok f
            | None => do zmax <- np_max (centres (gz g)); do zmin <- np_min (centres (gz g));
                      Ok (dp_nodes d / ((zmax - zmin) / e_c env))
            end;
    let w := nofnat 2 * npi * f in
    do s' <- point_write (dp_field d) (dp_comp d) xs ys zs s (dp_amp d * nsin (w * t + dp_phase d));
    Ok ({| dp_field := dp_field d; dp_comp := dp_comp d; dp_xs := Some xs; dp_ys := Some ys; dp_zs := Some zs;
           dp_nodes := dp_nodes d; dp_f := Some f; dp_amp := dp_amp d; dp_phase := dp_phase d |}, s').

  Inductive shape_ : Type := Harris | Gaussian | Rectangular.
  (** shape.lower() (641-650); any other name prints a message and leaves no profile. *)
  Definition shape_of (n : string) : option shape_ :=
    if String.eqb (lower n) "harris" then Some Harris
    else if String.eqb (lower n) "gaussian" then Some Gaussian
    else if String.eqb (lower n) "rectangular" then Some Rectangular else None.
  Record Pulse : Type := {
    pu_field : string; pu_comp : string; pu_xs : option ikey; pu_ys : option ikey; pu_zs : option ikey;
    pu_shape : option shape_; pu_L : option T; pu_amp : T; pu_delay : T
  }.
  Definition pu_init (field component : string) (xs ys zs : option ikey) (shp : string) (L : option T) (amp delay : T) : Pulse :=
    let fc := split_field field component in
    {| pu_field := fst fc; pu_comp := snd fc; pu_xs := xs; pu_ys := ys; pu_zs := zs;
       pu_shape := shape_of shp; pu_L := L; pu_amp := amp; pu_delay := delay |}.
  (** harris_pulse (668-678), for a single time *)
  Definition harris (env : Env T) (L delay t : T) : T :=
    let t := t * e_c env - delay in
    if nltb t L then
      (nofnat 10 - nofnat 15 * ncos (nofnat 2 * npi / L * t) + nofnat 6 * ncos (nofnat 4 * npi / L * t)
       - ncos (nofnat 6 * npi / L * t)) / nofnat 32
    else 0.
  (** gaussian_pulse (701-702) *)
  Definition gaussian (env : Env T) (L delay t : T) : T :=
    let t := t * e_c env - delay in
    let sg := L / nofnat 10 in
    nexp (- ((t - nofnat 5 * sg) * (t - nofnat 5 * sg)) / (nofnat 2 * (sg * sg))).
  (** rectangular_pulse (718-722) *)
  Definition rectangular (env : Env T) (L delay t : T) : T :=
    let t := t * e_c env - delay in
    if nltb t L && nltb 0 t then 1 else 0.
  Definition tprofile (env : Env T) (sh : shape_) (L delay t : T) : T :=
    match sh with Harris => harris env L delay t | Gaussian => gaussian env L delay t | Rectangular => rectangular env L delay t end.
  (** update (724-761): default L is 50 * dt; the profile is looked up only for a valid field. *)
  Definition pu_update (env : Env T) (p : Pulse) (s : Solver T) (t : T) : result (Pulse * Solver T) :=
    let xs := or_mid (pu_xs p) (sNx s) in let ys := or_mid (pu_ys p) (sNy s) in let zs := or_mid (pu_zs p) (sNz s) in
    let L := match pu_L p with Some L => L | None => nofnat 50 * sdt s end in
    let p' := {| pu_field := pu_field p; pu_comp := pu_comp p; pu_xs := Some xs; pu_ys := Some ys; pu_zs := Some zs;
                 pu_shape := pu_shape p; pu_L := Some L; pu_amp := pu_amp p; pu_delay := pu_delay p |} in
    if String.eqb (pu_field p) "E" || String.eqb (pu_field p) "H" || String.eqb (pu_field p) "J" then
      match pu_shape p with
      | None => Err AttributeError
      | Some sh => do s' <- point_write (pu_field p) (pu_comp p) xs ys zs s (pu_amp p * tprofile env sh L (pu_delay p) t);
                   Ok (p', s')
      end
    else Ok (p', s).

  (** ** emsolve with a source object (routines.py:175-218 without saving and plotting, single process) *)
  Definition src_iter {A : Type} (upd : A -> Solver T -> T -> result (A * Solver T)) (st : A * Solver T) (n : nat)
    : result (A * Solver T) :=
    do a <- upd (fst st) (snd st) (nofnat n * sdt (snd st));
    do s <- one_step (snd a);
    Ok (fst a, s).
  Definition src_run {A : Type} (upd : A -> Solver T -> T -> result (A * Solver T)) (a : A) (s : Solver T) (n : nat)
    : result (A * Solver T) := seq_upd (src_iter upd) (a, s) (seq 0 n).
End SourceModel.
Arguments Beam T : clear implicits.
Arguments PlaneWave T : clear implicits.
Arguments WavePacket T : clear implicits.
Arguments Dipole T : clear implicits.
Arguments Pulse T : clear implicits.
