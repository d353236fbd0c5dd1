(** wakis/field_monitors.py: FieldMonitor, and its use in wakesolve (routines.py:411-425).

    Complex numbers are pairs (WakeZ.v).  An accumulator array (n_freq, Nx, Ny, Nz) is a list over the
    frequencies of flat C-order lists.  Not modelled: get_components (102-116) returns the arrays
    themselves; cupy storage. *)
From Coq Require Import List Arith Bool.
From Verif Require Import Num Vec FieldModel GridModel SolverModel WakeModel WakeZ SourceModel.
Import ListNotations.

Section MonitorModel.
  Context {T : Type} {NT : Num T} {TR : NumTr T}.
  Local Open Scope num_scope.

  (** __init__ (39-55); dt is None until the first update; mo_acc: Ex_acc, Ey_acc, Ez_acc. *)
  Record Monitor : Type := {
    mo_freqs : list T; mo_index : nat; mo_dt : option T; mo_shape : nat * nat * nat;
    mo_acc : list (list (cx T)) * list (list (cx T)) * list (list (cx T)) }.
  Definition mo_init (freqs : list T) : Monitor :=
    {| mo_freqs := freqs; mo_index := 0%nat; mo_dt := None; mo_shape := (0, 0, 0)%nat; mo_acc := ([], [], []) |}.
  (** first call (76-86) *)
  Definition mo_start (m : Monitor) (E : Field T) (dt : T) : Monitor :=
    match mo_dt m with
    | Some _ => m
    | None => let z := tab (List.length (mo_freqs m)) (fun _ => tab (fNx E * fNy E * fNz E)%nat (fun _ => c0)) in
              {| mo_freqs := mo_freqs m; mo_index := mo_index m; mo_dt := Some dt; mo_shape := (fNx E, fNy E, fNz E); mo_acc := (z, z, z) |}
    end.
  (** xp.exp(-2j * xp.pi * f * t) (95) *)
  Definition mo_phase (f t : T) : cx T := let y := - nofnat 2 * npi * f * t in (ncos y, nsin y).
  (** acc[i] += Ex * phase (96-98): an axis of length 1 is repeated, another length is a ValueError. *)
  Definition fits (n d : nat) : bool := ((d =? n) || (d =? 1))%nat.
  Definition mo_add (sh : nat * nat * nat) (a : list (cx T)) (M : mat3 T) (ph : cx T) : result (list (cx T)) :=
    let '(nx, ny, nz) := sh in
    if fits nx (m0 M) && fits ny (m1 M) && fits nz (m2 M) then
      let at_ d i := (if d =? 1 then 0 else i)%nat in
      Ok (tab (nx * ny * nz)%nat (fun p =>
        let k := (p mod nz)%nat in let j := (p / nz mod ny)%nat in let i := (p / (nz * ny))%nat in
        cadd (cget a p) (cscale (mget M (at_ (m0 M) i) (at_ (m1 M) j) (at_ (m2 M) k)) ph)))
    else Err ValueError.
  (** the loop over frequencies for one component; the three components are independent, and any
      failure happens in the first addition *)
  Fixpoint mo_adds (sh : nat * nat * nat) (fs : list T) (t : T) (M : mat3 T) (acc : list (list (cx T))) : result (list (list (cx T))) :=
    match fs, acc with
    | f :: fs, a :: acc => do a' <- mo_add sh a M (mo_phase f t); do r <- mo_adds sh fs t M acc; Ok (a' :: r)
    | _, _ => Ok acc
    end.
  (** update (57-100): only the dt of the first call is used *)
  Definition mo_update (m : Monitor) (E : Field T) (dt : T) : result Monitor :=
    let m := mo_start m E dt in
    let d := match mo_dt m with Some d => d | None => dt end in
    let t := nofnat (mo_index m) * d in
    let '(ax, ay, az) := mo_acc m in
    do bx <- mo_adds (mo_shape m) (mo_freqs m) t (to_matrix_c E 0) ax;
    do by_ <- mo_adds (mo_shape m) (mo_freqs m) t (to_matrix_c E 1) ay;
    do bz <- mo_adds (mo_shape m) (mo_freqs m) t (to_matrix_c E 2) az;
    Ok {| mo_freqs := mo_freqs m; mo_index := S (mo_index m); mo_dt := mo_dt m; mo_shape := mo_shape m; mo_acc := (bx, by_, bz) |}.

  (** One iteration of the wakesolve loop (411-425) without recording, plots and callback: source, step, monitor. *)
  Definition mon_iter {A : Type} (upd : A -> Solver T -> T -> result (A * Solver T)) (p : A * Solver T * Monitor) (n : nat)
    : result (A * Solver T * Monitor) :=
    do q <- src_iter upd (fst p) n;
    do m <- mo_update (snd p) (sE (snd q)) (sdt (snd q));
    Ok (q, m).
  Definition mon_run {A : Type} (upd : A -> Solver T -> T -> result (A * Solver T)) (a : A) (s : Solver T) (m : Monitor) (n : nat)
    : result (A * Solver T * Monitor) := seq_upd (mon_iter upd) (a, s, m) (seq 0 n).
End MonitorModel.
Arguments Monitor T : clear implicits.
