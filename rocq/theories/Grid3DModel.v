(** The three-dimensional conformal grid: wakis/conductors3d.py (1-311) and wakis/grid3D.py (8-694).

    An array is the function of its indices; indices run over the shape of the array.  Not modelled: the metric arrays of
    sol_type 'FIT' (249-305, read by nobody else), printing, numba, rounding. *)
From Coq Require Import List Arith ZArith Bool String.
From Verif Require Import Num Vec FieldModel GridModel SolverModel WakeModel Grid2DModel.
Import ListNotations.

Section Grid3D.
  Context {T : Type} {NT : Num T} {OT : NumOrd T} (sqrt_ : T -> T).
  Local Open Scope num_scope.

  (** ** Conductors.  None is nan, which np.sqrt returns for a negative argument; Err is an exception. *)
  Record cond3 : Type := { in3 : T -> T -> T -> bool; out3 : T -> T -> T -> result bool;
    ix3 : T -> T -> T -> option T; iy3 : T -> T -> T -> option T; iz3 : T -> T -> T -> option T }.
  Definition not_in (inn : T -> T -> T -> bool) (x y z : T) : result bool := Ok (negb (inn x y z)).
  (** conductors3d.py:43-84.  The box is the free part; out_conductor is the test itself. *)
  Definition in_cube (lx ly lz xc yc zc : T) : cond3 :=
    let free x y z := nltb (- half * lx + xc) x && nltb x (half * lx + xc) && (nltb (- half * ly + yc) y && nltb y (half * ly + yc))
                      && (nltb (- half * lz + zc) z && nltb z (half * lz + zc)) in
    let near l c p := let a := - half * l + c in Some (nearer p a (a + l)) in
    {| in3 := fun x y z => negb (free x y z); out3 := fun x y z => Ok (free x y z);
       ix3 := fun x _ _ => near lx xc x; iy3 := fun _ y _ => near ly yc y; iz3 := fun _ _ z => near lz zc z |}.
  (** the three methods intersec_ of InSphere (102-165) and OutSphere (246-311): c is the centre along the line, u and v the
      distances of the line from the centre.  A comparison with nan is False, so nan is returned. *)
  Definition sphere_cut (r c u v p : T) : option T :=
    let d := sq r - sq u - sq v in
    if nltb d nzero then None else let w := sqrt_ d in Some (nearer p (w + c) (- (w + c))).
  Definition dist2 (xc yc zc x y z : T) : T := sq (x - xc) + sq (y - yc) + sq (z - zc).
  (** conductors3d.py:87-165.  out_conductor calls itself (99-100): RecursionError. *)
  Definition in_sphere (r xc yc zc : T) : cond3 :=
    {| in3 := fun x y z => nleb (dist2 xc yc zc x y z) (sq r); out3 := fun _ _ _ => Err OtherException;
       ix3 := fun x y z => sphere_cut r xc (y - yc) (z - zc) x;
       iy3 := fun x y z => sphere_cut r yc (x - xc) (z - zc) y;
       iz3 := fun x y z => sphere_cut r zc (x - xc) (y - yc) z |}.
  (** conductors3d.py:231-311 *)
  Definition out_sphere (r xc yc zc : T) : cond3 :=
    let inn x y z := nleb (sq r) (dist2 xc yc zc x y z) in
    {| in3 := inn; out3 := not_in inn;
       ix3 := fun x y z => sphere_cut r xc (y - yc) (z - zc) x;
       iy3 := fun x y z => sphere_cut r yc (x - xc) (z - zc) y;
       iz3 := fun x y z => sphere_cut r zc (x - xc) (y - yc) z |}.
  (** conductors3d.py:168-184; [far] is 1000 *)
  Definition no_conductor3 (far : T) : cond3 :=
    {| in3 := fun _ _ _ => false; out3 := fun _ _ _ => Ok true; ix3 := fun _ _ _ => Some far; iy3 := fun _ _ _ => Some far; iz3 := fun _ _ _ => Some far |}.
  (** conductors3d.py:187-228: point p and normal n *)
  Definition plane3 (far p0 p1 p2 n0 n1 n2 : T) : cond3 :=
    let inn x y z := nleb (n0 * (x - p0) + n1 * (y - p1) + n2 * (z - p2)) nzero in
    let cut n p a b := if neqb n nzero then Some far else Some (- (a + b) / n + p) in
    {| in3 := inn; out3 := not_in inn;
       ix3 := fun x y z => cut n0 p0 (n1 * (y - p1)) (n2 * (z - p2));
       iy3 := fun x y z => cut n1 p1 (n0 * (x - p0)) (n2 * (z - p2));
       iz3 := fun x y z => cut n2 p2 (n0 * (x - p0)) (n1 * (y - p1)) |}.
  (** np.argmin of an array of objects: it starts with the first entry and moves to an entry only when that compares
      smaller, which nothing does with nan.  No conductor: argmin of an empty array raises ValueError. *)
  Definition less3 (p : T) (v best : option T) : bool :=
    match v, best with Some v, Some b => nltb (nabs (v - p)) (nabs (b - p)) | _, _ => false end.
  Definition argmin3 (p : T) (best : option T) (l : list (option T)) : option T :=
    fold_left (fun b v => if less3 p v b then v else b) l best.
  (** conductors3d.py:4-40, for a first conductor c and others cs *)
  Definition assembly3 (c : cond3) (cs : list cond3) : cond3 :=
    let inn x y z := existsb (fun c => in3 c x y z) (c :: cs) in
    {| in3 := inn; out3 := not_in inn;
       ix3 := fun x y z => argmin3 x (ix3 c x y z) (map (fun c => ix3 c x y z) cs);
       iy3 := fun x y z => argmin3 y (iy3 c x y z) (map (fun c => iy3 c x y z) cs);
       iz3 := fun x y z => argmin3 z (iz3 c x y z) (map (fun c => iz3 c x y z) cs) |}.

  (** ** Edges (grid3D.py:351-487).  [fin] stands for a nan intersection too: single conductors give none where an edge asks
      for it. *)
  Record grid3 : Type := { q_dx : T; q_dy : T; q_dz : T;
    q_lx : nat -> nat -> nat -> T; q_ly : nat -> nat -> nat -> T; q_lz : nat -> nat -> nat -> T;
    q_xy : nat -> @grid2 T; q_yz : nat -> @grid2 T; q_zx : nat -> @grid2 T }.
  Definition edge3_x (c : cond3) (dx dy dz xmin ymin zmin : T) (i j k : nat) : T :=
    let x1 := node dx xmin i in let x2 := node dx xmin (S i) in let y := node dy ymin j in let z := node dz zmin k in
    edge_len (in3 c x1 y z) (in3 c x2 y z) x1 x2 (fin (ix3 c x2 y z)) (fin (ix3 c x1 y z)) dx.
  Definition edge3_y (c : cond3) (dx dy dz xmin ymin zmin : T) (i j k : nat) : T :=
    let x := node dx xmin i in let y1 := node dy ymin j in let y3 := node dy ymin (S j) in let z := node dz zmin k in
    edge_len (in3 c x y1 z) (in3 c x y3 z) y1 y3 (fin (iy3 c x y3 z)) (fin (iy3 c x y1 z)) dy.
  Definition edge3_z (c : cond3) (dx dy dz xmin ymin zmin : T) (i j k : nat) : T :=
    let x := node dx xmin i in let y := node dy ymin j in let z1 := node dz zmin k in let z3 := node dz zmin (S k) in
    edge_len (in3 c x y z1) (in3 c x y z3) z1 z3 (fin (iz3 c x y z3)) (fin (iz3 c x y z1)) dz.

  (** ** One plane of faces: compute_areas (grid2D.py:667-785) reads the lengths before it divides and multiplies them,
      mark_cells (789-831) reads the final ones. *)
  Definition faces (tol du dv : T) (lu lv lu' lv' : nat -> nat -> T) : @grid2 T :=
    let s i j := area tol (lu i j / du) (lv i j / dv) (lu i (S j) / du) (lv (S i) j / dv) in
    let int i j := nltb nzero (s i j) in
    let stab i j := if int i j then half * max2 (max2 (lu' i j * dv) (lu' i (S j) * dv)) (max2 (lv' i j * du) (lv' (S i) j * du)) else nzero in
    let unst i j := nltb (s i j) (stab i j) in
    let inside v d := nltb nzero v && nltb v d in
    {| g_lx := lu'; g_ly := lv'; g_S := s; g_Sstab := stab; g_int := int; g_unst := unst;
       g_bound := fun i j => inside (lu' i j) du || inside (lv' i j) dv || inside (lu' i (S j)) du || inside (lv' (S i) j) dv;
       g_avail := fun i j => int i j && negb (unst i j) |}.
  (** compute_edges, compute_areas (494-540), mark_cells (547-622) in turn.  The xy planes divide and multiply l_x and l_y, the
      yz planes l_y and l_z, the zx planes l_x and l_z. *)
  Definition renorm (d v : T) : T := v / d * d.
  Definition base_grid3 (c : cond3) (tol dx dy dz xmin ymin zmin : T) : grid3 :=
    let lx i j k := snap_len tol dx (edge3_x c dx dy dz xmin ymin zmin i j k) in
    let ly i j k := snap_len tol dy (edge3_y c dx dy dz xmin ymin zmin i j k) in
    let lz i j k := snap_len tol dz (edge3_z c dx dy dz xmin ymin zmin i j k) in
    let lx1 i j k := renorm dx (lx i j k) in let ly1 i j k := renorm dy (ly i j k) in
    let ly2 i j k := renorm dy (ly1 i j k) in let lz1 i j k := renorm dz (lz i j k) in
    let lx2 i j k := renorm dx (lx1 i j k) in let lz2 i j k := renorm dz (lz1 i j k) in
    {| q_dx := dx; q_dy := dy; q_dz := dz; q_lx := lx2; q_ly := ly2; q_lz := lz2;
       q_xy := fun k => faces tol dx dy (fun i j => lx i j k) (fun i j => ly i j k) (fun i j => lx2 i j k) (fun i j => ly2 i j k);
       q_yz := fun i => faces tol dy dz (fun j k => ly1 i j k) (fun j k => lz i j k) (fun j k => ly2 i j k) (fun j k => lz2 i j k);
       q_zx := fun j => faces tol dx dz (fun i k => lx1 i j k) (fun i k => lz1 i j k) (fun i k => lx2 i j k) (fun i k => lz2 i j k) |}.

  (** compute_extensions (629-694): each plane on its own *)
  Definition planes (g : nat -> @grid2 T) (n nu nv : nat) : result (list (@ext T)) := collect (fun i => extensions (g i) nu nv) (seq 0%nat n).
  (** Grid3D.__init__ (33-345).  The last component is Some for sol_type 'ECT'. *)
  Definition new_grid3 (tol xmin xmax ymin ymax zmin zmax : T) (nx ny nz : nat) (c : cond3) (sol : string)
    : result (grid3 * option (list (@ext T) * list (@ext T) * list (@ext T))) :=
    let dx := (xmax - xmin) / nofnat nx in
    let dy := (ymax - ymin) / nofnat ny in
    let dz := (ymax - ymin) / nofnat nz in
    let g := base_grid3 c tol dx dy dz xmin ymin zmin in
    if String.eqb sol "DM" || String.eqb sol "FDTD" || String.eqb sol "FIT" then Ok (g, None)
    else if String.eqb sol "ECT" then
      do a <- planes (q_xy g) (S nz) nx ny; do b <- planes (q_yz g) (S nx) ny nz; do c <- planes (q_zx g) (S ny) nx nz; Ok (g, Some (a, b, c))
    else Err ValueError.
End Grid3D.
