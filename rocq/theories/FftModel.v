(** Model of the conversions between wake and impedance and of the charge distribution,
    /repo/wakis/wakeSolver.py: calc_lambdas (772-825), calc_lambdas_analytic (827-860),
    calc_impedance_from_wake (1164-1231), calc_wake_from_impedance (1233-1293), with numpy's interp, roll
    and linspace.  [tw N m] stands for exp(-2 pi i m / N) as in WakeZ.v.

    Not modelled: writing lambda.txt (TextModel.v), the printed texts.  verbose is True (the default), so that
    f.max() fails when no frequency is kept. *)
From Coq Require Import List Arith ZArith Bool String Lia.
From Verif Require Import Num Vec FieldModel GridModel SolverModel GridFileModel WakeModel WakeZ SourceModel.
Import ListNotations.

Section Fft.
  Context {T : Type} {NT : Num T} {OT : NumOrd T} {FT : NumFl T}.
  Local Open Scope num_scope.

  (** np.interp at one point for increasing xp: the end values outside, the chord in between. *)
  Fixpoint interp_from {A} (chord : T -> T -> A -> T -> A -> A) (x x0 : T) (y0 : A) (xs : list T) (ys : list A) : A :=
    match xs, ys with
    | x1 :: xs', y1 :: ys' => if nltb x x1 then chord x x0 y0 x1 y1 else interp_from chord x x1 y1 xs' ys'
    | _, _ => y0
    end.
  Definition interp_with {A} (chord : T -> T -> A -> T -> A -> A) (xs xp : list T) (fp : list A) : result (list A) :=
    match xp, fp with
    | x0 :: xp', y0 :: fp' =>
        if (List.length xp' =? List.length fp')%nat
        then Ok (map (fun x => if nltb x x0 then y0 else interp_from chord x x0 y0 xp' fp') xs)
        else Err ValueError
    | _, _ => Err ValueError
    end.
  Definition chord (x x0 y0 x1 y1 : T) : T := (y1 - y0) / (x1 - x0) * (x - x0) + y0.
  Definition interp : list T -> list T -> list T -> result (list T) := interp_with chord.
  Definition cchord (x x0 : T) (y0 : cx T) (x1 : T) (y1 : cx T) : cx T :=
    (chord x x0 (fst y0) x1 (fst y1), chord x x0 (snd y0) x1 (snd y1)).

  (** calc_lambdas (772-825).  A file has been read into its columns; [type is dict] is never true of
      [(self.chargedist) is dict], so a dict reaches the last branch. *)
  Inductive charge : Type := ChFile (cols : result (list (list T))) | ChDict (d : dict (list T)) | ChArr (l : list T).
  Definition len_of (v : option (list T)) : result nat := match v with Some l => Ok (List.length l) | None => Err TypeError end.
  Definition match_axis (z zf : option (list T)) (n : nat) : result (list T) :=
    do a <- len_of z;
    if (a =? n)%nat then some TypeError z
    else do b <- len_of zf; if (b =? n)%nat then some TypeError zf else Err UnboundLocalError.
  Definition calc_lambdas (c : charge) (z zf : option (list T)) (q : T) (s : list T) : result (list T) :=
    match c with
    | ChFile cols =>
        do d <- cols; do z <- some IndexError (nth_error d 0); do l <- some IndexError (nth_error d 1);
        interp s z (map (fun x => x / q) l)
    | ChDict d => do _ <- match_axis z zf (List.length d); Err TypeError
    | ChArr l => do z <- match_axis z zf (List.length l); interp s z (map (fun x => x / q) l)
    end.
  (** calc_lambdas_analytic (827-860) *)
  Definition calc_lambdas_analytic {TR : NumTr T} (sqrt_ : T -> T) (sigmaz : T) (s : list T) : list T :=
    map (fun x => 1 / (sigmaz * sqrt_ (nofnat 2 * npi)) * nexp (- (x * x) / (nofnat 2 * (sigmaz * sigmaz)))) s.

  Context (tw : nat -> nat -> cx T) (c_light : T).
  (** The argument wake: an array, or a list [t, wake]. *)
  Inductive wake_arg : Type := WaArr (w : list T) | WaList (t w : list T).
  (** calc_impedance_from_wake (1164-1231) *)
  Definition calc_impedance_from_wake (wake : wake_arg) (s t : option (list T)) (fmax : option T) (samples : option nat)
    : result (list T * list (cx T)) :=
    let '(t, w) := match wake with WaArr w => (t, w) | WaList t w => (Some t, w) end in
    do t <- match s with
            | Some s => Ok (map (fun x => x / c_light) s)
            | None => some AttributeError t
            end;
    do dt <- mean_step t;
    do r <- match fmax with
            | Some fm =>
                do lo <- np_min t; do hi <- np_max t;
                do aux <- arange lo hi (1 / fm / nofnat 2);
                do w' <- interp aux t w;
                do dt' <- mean_step aux;
                Ok (w', dt', fm)
            | None => Ok (w, dt, 1 / dt)
            end;
    let '(w, dt, fm) := r in
    let N := match samples with Some n => (2 * n)%nat | None => List.length w end in
    if (N =? 0)%nat then Err ValueError
    else
      let F := fft tw N w in
      let f := fftfreq N dt in
      let m := picked f fm in
      match m with
      | [] => Err ValueError
      | _ => Ok (map (get f) m, map (fun i => cscale (1 / nofnat (List.length w) * nofnat 2) (cget F i)) m)
      end.

  (** numpy's fft of complex data *)
  Definition cfft (N : nat) (x : list (cx T)) : list (cx T) :=
    tab N (fun k => csum N (fun n => cmul (cget x n) (tw N (n * k)))).
  (** The argument impedance: an array, or a list [f, Z]. *)
  Inductive imp_arg : Type := ImArr (Z : list (cx T)) | ImPair (f : list T) (Z : list (cx T)).
  (** calc_wake_from_impedance (1233-1293).  An array of two values is taken for a pair: its first value cannot
      be sliced. *)
  Definition calc_wake_from_impedance (imp : imp_arg) (f : option (list T)) (tmax : option T) (samples : option nat)
    : result (list T * list T) :=
    do fz <- match imp with
             | ImPair f Z => Ok (f, Z)
             | ImArr Z => if (List.length Z =? 2)%nat then Err IndexError
                          else do f <- some AttributeError f; Ok (f, Z)
             end;
    let '(f, Z) := fz in
    do df <- mean_step f;
    do r <- match tmax with
            | Some tm =>
                do lo <- np_min f; do hi <- np_max f;
                do aux <- arange lo hi (1 / tm);
                do Z' <- interp_with cchord aux f Z;
                Ok (Z', tm)
            | None => Ok (Z, 1 / df)
            end;
    let '(Z, tm) := r in
    let N := match samples with Some n => n | None => List.length Z end in
    if (N =? 0)%nat then Err ValueError
    else
      let w := map (fun a => - fst a) (cfft N Z) in
      Ok (tab N (fun i => if (N =? 1)%nat then 0 else nofnat i * (tm / nofnat (N - 1))),
          tab N (fun i => get w ((i + 1) mod N))).
End Fft.
Arguments charge T : clear implicits.
Arguments wake_arg T : clear implicits.
Arguments imp_arg T : clear implicits.
