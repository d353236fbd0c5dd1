(** The data that plots show: wakis/plotting.py plot2D (606-882) and plot1D (884-1141), without MPI.

    A picture is the array handed to imshow with the extent, the names of the axes and the position in the title; a curve is
    the pair of arrays handed to plot.  The positions are exact (the title rounds them to three digits).  Not modelled: colours,
    titles of files, the sequence form of [plane] without exactly one integer. *)
From Coq Require Import List Arith ZArith Bool String.
From Verif Require Import Num Vec FieldModel GridModel SolverModel WakeModel.
Import ListNotations.
Open Scope string_scope.

Section Plot.
  Context {T : Type} {NT : Num T} {OT : NumOrd T} {FT : NumFl T} (sqrt : T -> T).
  (** The parts of a solver that plots read: nodes of the grid and fields. *)
  Record Shown : Type := { sh_x : list T; sh_y : list T; sh_z : list T; sh_E : Field T; sh_H : Field T; sh_J : Field T }.
  (** solver.x, y, z: centres (solverFIT3D.py:144-146) *)
  Definition centres (v : list T) : list T := tab (List.length v - 1) (fun i => (get v i + get (diff v) i / nofnat 2)%num).
  Definition first (v : list T) : T := get v 0.
  Definition last_ (v : list T) : T := get v (List.length v - 1).
  Definition cells (v : list T) : nat := List.length v - 1.

  Definition field_of (s : Shown) (f : string) : result (Field T) :=
    if String.eqb f "E" then Ok (sh_E s) else if String.eqb f "H" then Ok (sh_H s) else if String.eqb f "J" then Ok (sh_J s) else Err UnboundLocalError.
  (** field='Ex' and field='EAbs' (697-703) *)
  Definition split2 (f c : string) : string * string :=
    let n := String.length f in
    if (n =? 2)%nat then (substring 0 1 f, substring 1 1 f) else if (n =? 4)%nat then (substring 0 1 f, substring 1 3 f) else (f, c).
  (** plot1D has the first form only (976-978) *)
  Definition split1 (f c : string) : string * string :=
    if (String.length f =? 2)%nat then (substring 0 1 f, substring 1 1 f) else (f, c).

  Record Picture : Type := { pi_dat : ndarray T; pi_extent : T * T * T * T; pi_xax : string; pi_yax : string; pi_pos : T }.
  Inductive cut_plane : Type := Named (s : string) | Seq (x y z : ikey).
  Definition rel_ (n : nat) (pos : T) : ikey := KI (ntrunc (nofnat n * pos)%num).     (* int(Nx * pos) *)
  Definition upto (n : nat) : ikey := krange 0 (Z.of_nat n).
  Definition np_max (v : list T) : result T :=
    match v with [] => Err ValueError | a :: r => Ok (fold_left (fun m b => if nltb m b then b else m) r a) end.
  (** self.y[y].min(), .max() for a slice *)
  Definition bounds (c : list T) (k : ikey) : result (T * T) :=
    do l <- resolve (List.length c) k; let v := map (get c) l in do a <- np_min v; do b <- np_max v; Ok (a, b).
  Definition where_ (c : list T) (k : ikey) : result T :=
    do l <- resolve (List.length c) k; match l with [i] => Ok (get c i) | _ => Err TypeError end.

  (** The indices, the extent, the axes and the position (708-752). *)
  Definition cut2 (s : Shown) (p : cut_plane) (pos : T) : result (ikey * ikey * ikey * (T * T * T * T) * string * string * T) :=
    let Nx := cells (sh_x s) in let Ny := cells (sh_y s) in let Nz := cells (sh_z s) in
    let along v := (pos * (last_ v - first v) + first v)%num in
    match p with
    | Seq x y z =>
        match x, y, z with
        | KS _ _ _, KS _ _ _, KI _ =>
            do a <- where_ (centres (sh_z s)) z; do h <- bounds (centres (sh_y s)) y; do v <- bounds (centres (sh_x s)) x;
            Ok (x, y, z, (fst h, snd h, fst v, snd v), "y", "x", a)
        | KI _, KS _ _ _, KS _ _ _ =>
            do a <- where_ (centres (sh_x s)) x; do h <- bounds (centres (sh_z s)) z; do v <- bounds (centres (sh_y s)) y;
            Ok (x, y, z, (fst h, snd h, fst v, snd v), "z", "y", a)
        | KS _ _ _, KI _, KS _ _ _ =>
            do a <- where_ (centres (sh_y s)) y; do h <- bounds (centres (sh_z s)) z; do v <- bounds (centres (sh_x s)) x;
            Ok (x, y, z, (fst h, snd h, fst v, snd v), "z", "x", a)
        | _, _, _ => Err OtherException
        end
    | Named n =>
        if String.eqb n "XY" then
          Ok (upto Nx, upto Ny, rel_ Nz pos, (first (sh_y s), last_ (sh_y s), first (sh_x s), last_ (sh_x s)), "y", "x", along (sh_z s))
        else if String.eqb n "ZY" || String.eqb n "YZ" then
          Ok (rel_ Nx pos, upto Ny, upto Nz, (first (sh_z s), last_ (sh_z s), first (sh_y s), last_ (sh_y s)), "z", "y", along (sh_x s))
        else if String.eqb n "ZX" || String.eqb n "XZ" then
          Ok (upto Nx, rel_ Ny pos, upto Nz, (first (sh_z s), last_ (sh_z s), first (sh_x s), last_ (sh_x s)), "z", "x", along (sh_y s))
        else Err UnboundLocalError
    end.
  Definition plot2D (s : Shown) (f c : string) (p : cut_plane) (pos : T) : result Picture :=
    let '(f, c) := split2 f c in
    do q <- cut2 s p pos;
    let '(x, y, z, ext, xax, yax, a) := q in
    do F <- field_of s f;
    do d <- getitem sqrt F (KTup x y z (CStr c));
    Ok {| pi_dat := d; pi_extent := ext; pi_xax := xax; pi_yax := yax; pi_pos := a |}.
  (** The overlay of a solid (829-844): its cells, z fastest; nan is written as 0. *)
  Definition patch2D (s : Shown) (mask : list bool) (reverse : bool) (p : cut_plane) (pos : T) : result Picture :=
    do q <- cut2 s p pos;
    let '(x, y, z, ext, xax, yax, a) := q in
    let Nx := cells (sh_x s) in let Ny := cells (sh_y s) in let Nz := cells (sh_z s) in
    if (List.length mask =? Nx * Ny * Nz)%nat then
      let on := fun b : bool => if reverse then negb b else b in
      do d <- mat_getitem {| m0 := Nx; m1 := Ny; m2 := Nz; mdat := map (fun b => if on b then none_ else nzero) mask |} x y z;
      Ok {| pi_dat := d; pi_extent := ext; pi_xax := xax; pi_yax := yax; pi_pos := a |}
    else Err ValueError.

  Record Curve : Type := { cu_x : list T; cu_y : list T; cu_ax : string; cu_at : T * T }.
  Definition colours1 : nat := 7.                     (* the default list (965-973) *)
  (** One position (988-1071) on a line 'x', 'y' or 'z'. *)
  Definition curve (s : Shown) (f c line : string) (pos : T) : result Curve :=
    let Nx := cells (sh_x s) in let Ny := cells (sh_y s) in let Nz := cells (sh_z s) in
    let cx := centres (sh_x s) in let cy := centres (sh_y s) in let cz := centres (sh_z s) in
    let l := lower line in
    do q <- (if String.eqb l "x" then do a <- where_ cy (rel_ Ny pos); do b <- where_ cz (rel_ Nz pos); Ok (upto Nx, rel_ Ny pos, rel_ Nz pos, cx, "x", a, b)
             else if String.eqb l "y" then do a <- where_ cx (rel_ Nx pos); do b <- where_ cz (rel_ Nz pos); Ok (rel_ Nx pos, upto Ny, rel_ Nz pos, cy, "y", a, b)
             else if String.eqb l "z" then do a <- where_ cx (rel_ Nx pos); do b <- where_ cy (rel_ Ny pos); Ok (rel_ Nx pos, rel_ Ny pos, upto Nz, cz, "z", a, b)
             else Err UnboundLocalError);
    let '(x, y, z, xx, ax, a, b) := q in
    do F <- field_of s f;
    do d <- getitem sqrt F (KTup x y z (CStr c));
    Ok {| cu_x := xx; cu_y := dat d; cu_ax := ax; cu_at := (a, b) |}.
  Definition plot1D (s : Shown) (f c line : string) (pos : list T) : result (list Curve) :=
    let '(f, c) := split1 f c in
    seq_upd (fun l p => do r <- curve s f c line p; if (List.length l <? colours1)%nat then Ok (l ++ [r])%list else Err IndexError) [] pos.
End Plot.
Arguments Shown T : clear implicits.
Arguments Picture T : clear implicits.
Arguments Curve T : clear implicits.
