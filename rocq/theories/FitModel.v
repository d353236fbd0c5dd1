(** Model of the resonator fit and the extrapolation, /repo/wakis/wakeSolver.py:861-1162.

    The package iddefix is external: its bound finder is the parameter [smart], its fit object is the record
    [Fitted] of what it was built from and of the calls made on it, and its evaluations are parameters.
    Messages (log, print, inspect, to_table) are not modelled. *)
From Coq Require Import List Arith ZArith Bool String Lia.
From Verif Require Import Num Vec FieldModel GridModel SolverModel WakeModel.
Import ListNotations.

Section FitModel.
  Context {T : Type} {NT : Num T} {OT : NumOrd T} {FT : NumFl T}.
  Context {B : Type}.                                    (* iddefix parameter bounds *)

  (** Attributes of the wake solver read here.  f, Z, Zx, Zy exist from __init__ on and are None before the
      computation (177-187); fx and fy exist only after calc_trans_Z (711-770): [None] is a missing attribute. *)
  Record FitSolver : Type := {
    fs_f : option (list T); fs_Z : option (list (T * T));
    fs_fx : option (list T); fs_Zx : option (list (T * T));
    fs_fy : option (list T); fs_Zy : option (list (T * T));
    fs_len : option T;                                   (* wakelength *)
    fs_s : option (list T);                              (* s *)
    fs_sigmaz : T
  }.

  (** Options handed to SmartBoundDetermination (905-915). *)
  Record SmartOpts : Type := { so_height : T; so_distance : nat; so_Rs : list T; so_Q : list T; so_fres : list T }.

  (** Calls on the fit object (1037-1056). *)
  Inductive fit_call : Type :=
  | RunDE (maxiter : Z) (popsize : nat) (tol : T)
  | RunCMAES (maxiter : Z) (popsize : nat) (sigma : T)
  | RunMinimization (margin : list T).
  (** iddefix.EvolutionaryAlgorithm (1026-1035) and the calls made on it, in order. *)
  Record Fitted : Type := {
    ft_freq : option (list T); ft_imp : option (list T); ft_N : nat; ft_bounds : B;
    ft_plane : string; ft_len : option T; ft_calls : list fit_call }.

  (** Arguments of get_DEmodel_fitting (919-940). *)
  Record FitArgs : Type := {
    fa_freq : option (list T); fa_imp : option (list (T * T)); fa_plane : string; fa_dim : string;
    fa_bounds : option B; fa_N : option nat; fa_kernel : string; fa_maxiter : T; fa_sigma : T; fa_popsize : nat;
    fa_tol : T; fa_min : bool; fa_margin : list T; fa_smart : SmartOpts }.

  (** np.real; np.real(None) is an array holding None. *)
  Definition real_parts (z : option (list (T * T))) : option (list T) := option_map (map fst) z.

  (** Data to fit (987-1006). *)
  Definition fit_data (s : FitSolver) (a : FitArgs) : result (option (list T) * option (list (T * T))) :=
    match fa_freq a, fa_imp a with
    | Some f, Some z => Ok (Some f, Some z)
    | _, _ =>
      if String.eqb (fa_plane a) "longitudinal" && String.eqb (fa_dim a) "z" then Ok (fs_f s, fs_Z s)
      else if String.eqb (fa_plane a) "transverse" then
        if String.eqb (fa_dim a) "x" then match fs_fx s with Some f => Ok (Some f, fs_Zx s) | None => Err AttributeError end
        else if String.eqb (fa_dim a) "y" then match fs_fy s with Some f => Ok (Some f, fs_Zy s) | None => Err AttributeError end
        else Err ValueError
      else Err ValueError
    end.

  (** get_SmartBounds (861-917): the finder gets the frequencies and the real part of the impedance. *)
  Definition get_SmartBounds (smart : option (list T) -> option (list T) -> SmartOpts -> result (nat * B))
      (freq : option (list T)) (imp : option (list (T * T))) (o : SmartOpts) : result (nat * B) :=
    smart freq (real_parts imp) o.

  (** get_DEmodel_fitting (985-1063); the result is also kept as self.DE_model. *)
  Definition get_DEmodel_fitting (smart : option (list T) -> option (list T) -> SmartOpts -> result (nat * B))
      (s : FitSolver) (a : FitArgs) : result Fitted :=
    do d <- fit_data s a;
    do nb <- match fa_bounds a, fa_N a with
             | Some b, Some n => Ok (n, b)
             | _, _ => get_SmartBounds smart None None (fa_smart a)       (* 1009-1011: freq_data=None, impedance_data=None *)
             end;
    Ok {| ft_freq := fst d; ft_imp := real_parts (snd d); ft_N := fst nb; ft_bounds := snd nb;
          ft_plane := fa_plane a; ft_len := fs_len s;
          ft_calls :=
            (if String.eqb (fa_kernel a) "DE" then [RunDE (ntrunc (fa_maxiter a)) (fa_popsize a) (fa_tol a)]
             else if String.eqb (fa_kernel a) "CMAES" then [RunCMAES (ntrunc (fa_maxiter a)) (fa_popsize a) (fa_sigma a)]
             else [])
            ++ (if fa_min a then [RunMinimization (fa_margin a)] else []) |}.

  (** Times of the extrapolation, np.arange(s[0]/c, wakelength/c, (s[2]-s[1])/c) (1093-1095, 1124-1126). *)
  Definition extrapolation_times (env : Env T) (s : FitSolver) (wl : T) : result (list T) :=
    match fs_s s with
    | None => Err TypeError                                               (* None[0] *)
    | Some l =>
      match l with
      | s0 :: s1 :: s2 :: _ => arange (ndiv s0 (e_c env)) (ndiv wl (e_c env)) (ndiv (nsub s2 s1) (e_c env))
      | _ => Err IndexError
      end
    end.

  (** get_extrapolated_wake (1065-1101).  [m] is self.DE_model, [wp] its get_wake_potential at one time for the
      given sigma, [pico] is 1e-12. *)
  Definition get_extrapolated_wake {M : Type} (env : Env T) (pico : T) (wp : M -> bool -> T -> T -> T)
      (m : option M) (s : FitSolver) (wl : T) (sigma : option T) (use_min : bool) : result (list T * list T) :=
    match m with
    | None => Err AttributeError
    | Some m =>
      let sg := match sigma with Some x => x | None => ndiv (fs_sigmaz s) (e_c env) end in
      do t <- extrapolation_times env s wl;
      Ok (map (fun x => nmul x (e_c env)) t, map (fun x => nmul (nopp (wp m use_min sg x)) pico) t)
    end.

  (** get_extrapolated_wake_function (1103-1128). *)
  Definition get_extrapolated_wake_function {M : Type} (env : Env T) (wf : M -> bool -> T -> T)
      (m : option M) (s : FitSolver) (wl : T) (use_min : bool) : result (list T * list T) :=
    match m with
    | None => Err AttributeError
    | Some m => do t <- extrapolation_times env s wl; Ok (t, map (wf m use_min) t)
    end.

  (** get_extrapolated_impedance (1130-1162). *)
  Definition get_extrapolated_impedance {M C : Type} (freq_of : M -> list T) (zf : M -> bool -> option T -> list T -> list C)
      (m : option M) (f : option (list T)) (use_min : bool) (wl : option T) : result (list T * list C) :=
    match m with
    | None => Err AttributeError
    | Some m => let f := match f with Some l => l | None => freq_of m end in Ok (f, zf m use_min wl f)
    end.
End FitModel.
Arguments FitSolver : clear implicits.
Arguments SmartOpts : clear implicits.
Arguments FitArgs : clear implicits.
Arguments Fitted : clear implicits.
Arguments fit_call : clear implicits.
