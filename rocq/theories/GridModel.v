(** Model of the grid constructor, /repo/wakis/gridFIT3D.py:31-299 (serial part). *)
From Coq Require Import List Arith ZArith Bool String Lia.
From Verif Require Import Num Vec FieldModel.
Import ListNotations.

Section GridModel.
  Context {T : Type} {NT : Num T}.

  Fixpoint nofnat (n : nat) : T :=
    match n with O => nzero | S m => nadd (nofnat m) none_ end.
  Definition two : T := nadd none_ none_.

  (** np.linspace(a, b, n + 1) (gridFIT3D.py:162-164). *)
  Definition linspace (a b : T) (n : nat) : list T :=
    tab (n + 1) (fun i => nadd a (nmul (nofnat i) (ndiv (nsub b a) (nofnat n)))).

  (** np.diff *)
  Definition diff (x : list T) : list T :=
    tab (List.length x - 1) (fun i => nsub (get x (i + 1)) (get x i)).

  (** tx = (x[1:] + x[:-1]) / 2, last entry repeated (gridFIT3D.py:277-283). *)
  Definition tilde (x : list T) : list T :=
    let mid i := ndiv (nadd (get x (i + 1)) (get x i)) two in
    tab (List.length x) (fun i => if i + 1 <? List.length x then mid i
                                  else mid (List.length x - 2)).

  Record Grid : Type := {
    gx : list T; gy : list T; gz : list T;
    gL : Field T; giA : Field T; gtL : Field T; gitA : Field T
  }.
  Definition gNx (g : Grid) : nat := List.length (gx g) - 1.
  Definition gNy (g : Grid) : nat := List.length (gy g) - 1.
  Definition gNz (g : Grid) : nat := List.length (gz g) - 1.

  (** A 3-D array from its entries, as the right-hand side of field_x = ... *)
  Definition arr3 (Nx Ny Nz : nat) (f : nat -> nat -> nat -> T) : ndarray T :=
    {| shape := [Nx; Ny; Nz]; dat := mdat (mtab Nx Ny Nz f) |}.
  (** A 1-D array of the cells. *)
  Definition arr1 (N : nat) (f : nat -> T) : ndarray T := {| shape := [N]; dat := tab N f |}.

  (** Lengths from node coordinates: X[1:,1:,1:] - X[:-1,:-1,:-1] (261-267, 287-290). *)
  Definition lengths (x y z : list T) : result (Field T) :=
    let Nx := List.length x - 1 in let Ny := List.length y - 1 in let Nz := List.length z - 1 in
    do F0 <- set_field_c (field_zeros Nx Ny Nz) 0
               (arr3 Nx Ny Nz (fun i _ _ => nsub (get x (i + 1)) (get x i)));
    do F1 <- set_field_c F0 1 (arr3 Nx Ny Nz (fun _ j _ => nsub (get y (j + 1)) (get y j)));
    set_field_c F1 2 (arr3 Nx Ny Nz (fun _ _ k => nsub (get z (k + 1)) (get z k))).

  (** The two transverse components of each component, in the order of lines 270-272. *)
  Definition tr1 (c : nat) : nat := match c with 0 => 1 | _ => 0 end.
  Definition tr2 (c : nat) : nat := match c with 2 => 1 | _ => 2 end.

  (** A field whose component c combines the two transverse components of [L]. *)
  Definition areas_by (h : T -> T -> T) (L : Field T) : result (Field T) :=
    let set F c := set_field_c F c (arr1 (fN L) (fun m =>
        h (get (field_c L (tr1 c)) m) (get (field_c L (tr2 c)) m))) in
    do F0 <- set (field_zeros (fNx L) (fNy L) (fNz L)) 0;
    do F1 <- set F0 1; set F1 2.

  (** Inverse areas (269-272): np.divide(1.0, Ly*Lz) etc. *)
  Definition inv_areas (L : Field T) : result (Field T) :=
    areas_by (fun a b => ndiv none_ (nmul a b)) L.

  (** Dual inverse areas (292-298): np.divide(1.0, aux, where=aux != 0), zero elsewhere. *)
  Definition inv_where (a b : T) : T :=
    let aux := nmul a b in if neqb aux nzero then nzero else ndiv none_ aux.
  Definition inv_areas_where (L : Field T) : result (Field T) := areas_by inv_where L.

  (** _compute_grid (257-299).  [self.tx[-1]] of an empty array is an IndexError. *)
  Definition compute_grid (x y z : list T) : result Grid :=
    if (2 <=? List.length x) && (2 <=? List.length y) && (2 <=? List.length z) then
      do L <- lengths x y z;
      do iA <- inv_areas L;
      do tL <- lengths (tilde x) (tilde y) (tilde z);
      do itA <- inv_areas_where tL;
      Ok {| gx := x; gy := y; gz := z; gL := L; giA := iA; gtL := tL; gitA := itA |}
    else Err IndexError.

  (** GridFIT3D(x=, y=, z=) and GridFIT3D(xmin=, ..., Nz=) (gridFIT3D.py:139-164). *)
  Definition grid_from_axes (x y z : list T) : result Grid := compute_grid x y z.
  Definition grid_uniform (xmin xmax ymin ymax zmin zmax : T) (Nx Ny Nz : nat) : result Grid :=
    compute_grid (linspace xmin xmax Nx) (linspace ymin ymax Ny) (linspace zmin zmax Nz).
End GridModel.
Arguments Grid T : clear implicits.
