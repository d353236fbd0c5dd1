(** The two-dimensional conformal grid: wakis/conductors.py (5-231) and wakis/grid2D.py (5-831).

    An array is the function of its indices; indices run over the shape of the array.  Not modelled: printing, numba,
    ImpFunc (a root finder), _compute_extensions_four_cells (not called), rounding. *)
From Coq Require Import List Arith ZArith Bool String.
From Verif Require Import Num Vec FieldModel GridModel SolverModel WakeModel.
Import ListNotations.

Section Grid2D.
  Context {T : Type} {NT : Num T} {OT : NumOrd T} (sqrt_ : T -> T).
  Local Open Scope num_scope.

  Definition two : T := none_ + none_.
  Definition half : T := none_ / two.
  Definition sq (x : T) : T := x * x.
  Definition nleb (a b : T) : bool := negb (nltb b a).

  (** ** Conductors.  None is np.inf. *)
  Record cond : Type := { in_cond : T -> T -> bool; int_x : T -> T -> option T; int_y : T -> T -> option T }.
  Definition nearer (p a b : T) : T := if nltb (nabs (p - a)) (nabs (p - b)) then a else b.
  (** conductors.py:5-46.  in_conductor is the negation of out_conductor. *)
  Definition out_rect (lx ly xc yc : T) : cond :=
    let x1 := - half * lx + xc in
    let y1 := - half * ly + yc in
    {| in_cond := fun x y => negb (nltb x1 x && nltb x (half * lx + xc) && (nltb y1 y && nltb y (half * ly + yc)));
       int_x := fun x _ => Some (nearer x x1 (x1 + lx));
       int_y := fun _ y => Some (nearer y y1 (y1 + ly)) |}.
  (** conductors.py:70-92, sign = 1 or -1 *)
  Definition plane (m q tol : T) (up : bool) : cond :=
    {| in_cond := fun x y => let v := y - m * x - q in if up then nleb tol v else nleb v tol;
       int_x := fun _ y => Some (y / m - q / m);
       int_y := fun x _ => Some (m * x + q) |}.
  (** conductors.py:95-141 *)
  Definition in_circle (r xc yc : T) : cond :=
    {| in_cond := fun x y => nleb (sq (x - xc) + sq (y - yc)) (sq r);
       int_x := fun x y => if nleb (nabs (y - yc)) r
         then let w := sqrt_ (sq r - sq (y - yc)) in Some (nearer x (w + yc) (- w + yc)) else None;
       int_y := fun x y => if nleb (nabs (x - xc)) r
         then let w := sqrt_ (sq r - sq (x - xc)) in Some (nearer y (w + xc) (- w + xc)) else None |}.
  (** conductors.py:144-186 *)
  Definition out_circle (r xc yc : T) : cond :=
    {| in_cond := fun x y => nleb (sq r) (sq (x - xc) + sq (y - yc));
       int_x := fun x y => let w := sqrt_ (sq r - sq (y - yc)) in Some (nearer x (w + xc) (- w + xc));
       int_y := fun x y => let w := sqrt_ (sq r - sq (x - xc)) in Some (nearer y (w + yc) (- w + yc)) |}.
  (** conductors.py:220-231; [far] is 1000 *)
  Definition no_conductor (far : T) : cond :=
    {| in_cond := fun _ _ => false; int_x := fun _ _ => Some far; int_y := fun _ _ => Some far |}.
  (** np.argmin of the distances: the first smallest *)
  Fixpoint closest (p : T) (best : option T) (l : list (option T)) : option T :=
    match l with
    | [] => best
    | None :: l => closest p best l
    | Some v :: l => match best with
                     | Some b => closest p (if nltb (nabs (v - p)) (nabs (b - p)) then Some v else best) l
                     | None => closest p (Some v) l
                     end
    end.
  (** conductors.py:189-217, for at least one conductor *)
  Definition assembly (cs : list cond) : cond :=
    {| in_cond := fun x y => existsb (fun c => in_cond c x y) cs;
       int_x := fun x y => closest x None (map (fun c => int_x c x y) cs);
       int_y := fun x y => closest y None (map (fun c => int_y c x y) cs) |}.

  (** ** Edges (grid2D.py:168-258).  seg_length of a segment along an axis is the distance along it.  An infinite
      intersection is only returned on a line that misses the circle, where no edge asks for it; [fin] covers it. *)
  Definition fin (o : option T) : T := match o with Some v => v | None => nzero end.
  Definition snap_len (tol d l : T) : T :=
    let r := l / d in
    (if nltb (nabs r) tol then nzero else if nltb (nabs (r - none_)) tol then none_ else r) * d.
  Definition node (d lo : T) (i : nat) : T := nofnat i * d + lo.
  Definition edge_len (in1 in2 : bool) (p1 p2 from2 from1 d : T) : T :=
    if in1 then (if in2 then nzero else nabs (from2 - p2)) else (if in2 then nabs (p1 - from1) else d).
  Definition edge_x (c : cond) (dx dy xmin ymin : T) (i j : nat) : T :=
    let x1 := node dx xmin i in let x2 := node dx xmin (S i) in let y := node dy ymin j in
    edge_len (in_cond c x1 y) (in_cond c x2 y) x1 x2 (fin (int_x c x2 y)) (fin (int_x c x1 y)) dx.
  Definition edge_y (c : cond) (dx dy xmin ymin : T) (i j : nat) : T :=
    let x := node dx xmin i in let y1 := node dy ymin j in let y3 := node dy ymin (S j) in
    edge_len (in_cond c x y1) (in_cond c x y3) y1 y3 (fin (int_y c x y3)) (fin (int_y c x y1)) dy.

  (** ** Areas (grid2D.py:667-785): bottom, left, top, right edge over dx or dy *)
  Definition close (tol a b : T) : bool := nltb (nabs (a - b)) tol.
  Definition part (l : T) : bool := nltb nzero l && nleb l none_.
  Definition area (tol b l t r : T) : T :=
    let z v := close tol v nzero in
    let o v := close tol v none_ in
    let cut u v := none_ - half * (none_ - u) * (none_ - v) in
    let n (x : bool) : nat := (if x then 1 else 0)%nat in
    if (3 <=? n (o b) + n (o l) + n (o t) + n (o r))%nat then none_
    else if z b && negb (z l) && negb (z t) && negb (z r) then half * (l + r) * t
    else if z t && negb (z l) && negb (z b) && negb (z r) then half * (l + r) * b
    else if z l && negb (z b) && negb (z t) && negb (z r) then half * (b + t) * r
    else if z r && negb (z b) && negb (z l) && negb (z t) then half * (b + t) * l
    else if z b && z l && negb (z t) && negb (z r) then half * t * r
    else if z b && z r && negb (z t) && negb (z l) then half * t * l
    else if z t && z r && negb (z b) && negb (z l) then half * b * l
    else if z t && z l && negb (z b) && negb (z r) then half * b * r
    else if part b && part l && o t && o r then cut b l
    else if part b && part r && o t && o l then cut b r
    else if part t && part r && o b && o l then cut t r
    else if part t && part l && o b && o r then cut t l
    else nzero.

  Record grid2 : Type := { g_lx : nat -> nat -> T; g_ly : nat -> nat -> T; g_S : nat -> nat -> T; g_Sstab : nat -> nat -> T;
    g_int : nat -> nat -> bool; g_unst : nat -> nat -> bool; g_bound : nat -> nat -> bool; g_avail : nat -> nat -> bool }.
  Definition max2 (a b : T) : T := if nltb a b then b else a.
  (** compute_edges, compute_areas, mark_cells (789-831) in turn.  compute_areas divides the lengths by dx, dy and
      multiplies them again. *)
  Definition base_grid (c : cond) (tol dx dy xmin ymin : T) : grid2 :=
    let lx i j := snap_len tol dx (edge_x c dx dy xmin ymin i j) in
    let ly i j := snap_len tol dy (edge_y c dx dy xmin ymin i j) in
    let s i j := area tol (lx i j / dx) (ly i j / dy) (lx i (S j) / dx) (ly (S i) j / dy) in
    let lx' i j := lx i j / dx * dx in
    let ly' i j := ly i j / dy * dy in
    let int i j := nltb nzero (s i j) in
    let stab i j := if int i j then half * max2 (max2 (lx' i j * dy) (lx' i (S j) * dy)) (max2 (ly' i j * dx) (ly' (S i) j * dx)) else nzero in
    let unst i j := nltb (s i j) (stab i j) in
    let inside v d := nltb nzero v && nltb v d in
    {| g_lx := lx'; g_ly := ly'; g_S := s; g_Sstab := stab; g_int := int; g_unst := unst;
       g_bound := fun i j => inside (lx' i j) dx || inside (ly' i j) dy || inside (lx' i (S j)) dx || inside (ly' (S i) j) dy;
       g_avail := fun i j => int i j && negb (unst i j) |}.

  (** ** Cell extensions (grid2D.py:263-344).  S_red starts at zero (48) and nothing sets it before. *)
  Record ext : Type := { e_red : nat -> nat -> T; e_enl : nat -> nat -> T; e_ext : nat -> nat -> bool; e_intr : nat -> nat -> bool;
    e_bor : nat -> nat -> list (nat * nat * T) }.
  Definition upd2 {A} (f : nat -> nat -> A) (i j : nat) (v : A) : nat -> nat -> A :=
    fun a b => if (a =? i)%nat && (b =? j)%nat then v else f a b.
  (** a possibly negative index of an axis of length n *)
  Definition wrap (n : nat) (k : Z) : result nat :=
    if (k <? 0)%Z then (if (k <? - Z.of_nat n)%Z then Err IndexError else Ok (Z.to_nat (k + Z.of_nat n)))
    else if (k <? Z.of_nat n)%Z then Ok (Z.to_nat k) else Err IndexError.
  Definition cell_at (nx ny i j : nat) (d : Z * Z) : result (nat * nat) :=
    do a <- wrap nx (Z.of_nat i + fst d); do b <- wrap ny (Z.of_nat j + snd d); Ok (a, b).
  Definition give (i j : nat) (p : nat * nat) (patch : T) (s : ext) : ext :=
    let (a, b) := p in
    {| e_red := upd2 (e_red s) a b (e_red s a b - patch); e_enl := e_enl s; e_ext := e_ext s;
       e_intr := upd2 (e_intr s) a b true; e_bor := upd2 (e_bor s) i j (e_bor s i j ++ [(a, b, patch)]) |}.
  Definition settle (i j : nat) (v : T) (s : ext) : ext :=
    {| e_red := e_red s; e_enl := upd2 (e_enl s) i j v; e_ext := upd2 (e_ext s) i j false; e_intr := e_intr s; e_bor := e_bor s |}.
  (** one neighbour of _compute_extensions_one_cell (349-411); [first]: the test of flag_ext_cell is the outer one *)
  Definition try_one (g : grid2) (nx ny i j : nat) (d : Z * Z) (s : ext) : result ext :=
    do p <- cell_at nx ny i j d;
    let (a, b) := p in
    let need := g_Sstab g i j - g_S g i j in
    if nltb need (g_S g a b) && g_avail g a b && e_ext s i j
    then let patch := need * g_S g a b / g_S g a b in
         if nltb nzero (e_red s a b - patch) then Ok (settle i j (g_S g i j + patch) (give i j p patch s)) else Ok s
    else Ok s.
  Fixpoint fold_res {A B} (f : A -> B -> result A) (l : list B) (a : A) : result A :=
    match l with [] => Ok a | x :: l => do a' <- f a x; fold_res f l a' end.
  Definition cells (nx ny : nat) : list (nat * nat) := flat_map (fun i => map (pair i) (seq 0%nat ny)) (seq 0%nat nx).
  Definition one_cell (g : grid2) (nx ny : nat) (s : ext) : result ext :=
    fold_res (fun (s : ext) (c : nat * nat) => let (i, j) := c in
      if e_ext s i j then fold_res (fun (s : ext) (d : Z * Z) => try_one g nx ny i j d s) [(-1, 0); (0, -1); (0, 1); (1, 0)]%Z s else Ok s) (cells nx ny) s.
  (** _compute_extensions_eight_cells (516-660).  [avail] is local_avail at the eight neighbours, in the order of the
      code; the copy of the other cells is not used.  A pass of the while loop with neg_cell removes a neighbour, so
      nine passes end it. *)
  Definition ring8 : list (Z * Z) := [(-1, 0); (1, 0); (0, -1); (0, 1); (-1, -1); (1, -1); (-1, 1); (1, 1)]%Z.
  Definition denom8 (g : grid2) (ps : list (nat * nat)) (avail : nat -> nat -> bool) : T :=
    fold_left (fun t (p : nat * nat) => t + (if avail (fst p) (snd p) then g_S g (fst p) (snd p) else nzero)) ps nzero.
  Definition drop8 (g : grid2) (s : ext) (need den : T) (ps : list (nat * nat)) (st : (nat -> nat -> bool) * bool) : (nat -> nat -> bool) * bool :=
    fold_left (fun (st : (nat -> nat -> bool) * bool) (p : nat * nat) => let (a, b) := p in
      if fst st a b && nleb (e_red s a b - need * g_S g a b / den) nzero then (upd2 (fst st) a b false, true) else st) ps st.
  Fixpoint loop8 (fuel : nat) (g : grid2) (s : ext) (need : T) (ps : list (nat * nat)) (avail : nat -> nat -> bool) (den : T) (neg : bool)
    : (nat -> nat -> bool) * T :=
    match fuel with
    | O => (avail, den)
    | S fuel => if nleb need den && neg
                then let (avail', neg') := drop8 g s need den ps (avail, false) in
                     loop8 fuel g s need ps avail' (denom8 g ps avail') neg'
                else (avail, den)
    end.
  Definition spread8 (g : grid2) (i j : nat) (need den : T) (ps : list (nat * nat)) (avail : nat -> nat -> bool) (s : ext) : ext :=
    let s := fold_left (fun (s : ext) (p : nat * nat) => if avail (fst p) (snd p)
        then let patch := need * g_S g (fst p) (snd p) / den in
             let s := give i j p patch s in
             {| e_red := e_red s; e_enl := upd2 (e_enl s) i j (e_enl s i j + patch); e_ext := e_ext s; e_intr := e_intr s; e_bor := e_bor s |}
        else s) ps {| e_red := e_red s; e_enl := upd2 (e_enl s) i j (g_S g i j); e_ext := e_ext s; e_intr := e_intr s; e_bor := e_bor s |} in
    {| e_red := e_red s; e_enl := e_enl s; e_ext := upd2 (e_ext s) i j false; e_intr := e_intr s; e_bor := e_bor s |}.
  Definition eight_cell (g : grid2) (nx ny : nat) (s : ext) : result ext :=
    fold_res (fun (s : ext) (c : nat * nat) => let (i, j) := c in
      if g_unst g i j && g_int g i j && e_ext s i j then
        do ps <- collect (cell_at nx ny i j) ring8;
        let need := g_Sstab g i j - g_S g i j in
        let s := {| e_red := e_red s; e_enl := upd2 (e_enl s) i j (g_S g i j); e_ext := e_ext s; e_intr := e_intr s; e_bor := e_bor s |} in
        let (avail, den) := loop8 10 g s need ps (g_avail g) (denom8 g ps (g_avail g)) true in
        Ok (if nleb need den then spread8 g i j need den ps avail s else s)
      else Ok s) (cells nx ny) s.
  Definition any_ext (nx ny : nat) (s : ext) : bool := existsb (fun c => e_ext s (fst c) (snd c)) (cells nx ny).
  (** The RuntimeError of 340-344 is OtherException. *)
  Definition extensions (g : grid2) (nx ny : nat) : result ext :=
    let s0 := {| e_red := fun _ _ => nzero; e_enl := fun _ _ => nzero; e_ext := g_unst g; e_intr := fun _ _ => false; e_bor := fun _ _ => [] |} in
    do s1 <- one_cell g nx ny s0;
    do s2 <- (if any_ext nx ny s1 then eight_cell g nx ny s1 else Ok s1);
    if any_ext nx ny s2 then Err OtherException else Ok s2.

  (** Grid2D.__init__ (31-159) *)
  Definition new_grid (tol xmin xmax ymin ymax : T) (nx ny : nat) (c : cond) (sol : string) : result (grid2 * option ext) :=
    let dx := (xmax - xmin) / nofnat nx in
    let dy := (ymax - ymin) / nofnat ny in
    let g := base_grid c tol dx dy xmin ymin in
    if String.eqb sol "DM" || String.eqb sol "FDTD" then Ok (g, None)
    else if String.eqb sol "ECT" then do s <- extensions g nx ny; Ok (g, Some s)
    else Err ValueError.
End Grid2D.
