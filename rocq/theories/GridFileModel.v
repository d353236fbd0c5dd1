(** Model of GridFIT3D.save_to_h5 / load_from_h5 (gridFIT3D.py:1301-1437), of the STL dictionaries
    the solver reads (solverFIT3D.py:1171-1178) and of refine_axis (gridFIT3D.py:644-732). *)
From Coq Require Import List Arith ZArith Bool String Lia.
From Verif Require Import Num Vec FieldModel GridModel SolverModel.
Import ListNotations.

(** Python dictionaries: keys in insertion order. *)
Definition dict (A : Type) : Type := list (string * A).
Fixpoint dget {A} (d : dict A) (k : string) : result A :=
  match d with
  | [] => Err KeyError
  | (k', v) :: r => if String.eqb k' k then Ok v else dget r k
  end.

(** HDF5 groups list their names in byte order; creating an existing name is a ValueError.
    Names with a '/' make nested groups and are not modelled. *)
Fixpoint h5_create {A} (k : string) (v : A) (g : dict A) : result (dict A) :=
  match g with
  | [] => Ok [(k, v)]
  | (k', v') :: r =>
      match String.compare k k' with
      | Lt => Ok ((k, v) :: g)
      | Eq => Err ValueError
      | Gt => do r' <- h5_create k v r; Ok ((k', v') :: r')
      end
  end.
Definition h5_group {A} (d : dict A) : result (dict A) :=
  seq_upd (fun g (p : string * A) => h5_create (fst p) (snd p) g) [] d.

Section GridFileModel.
  Context {T : Type} {NT : Num T}.

  (** The parts of a grid object that are saved.  [sg_solids = None]: no STL solids given.
      [sg_dicts]: stl_colors, stl_scale, stl_rotate and stl_translate are dictionaries (a single
      colour string is left as it is, 430-434). *)
  Record StlGrid : Type := {
    sg_x : list T; sg_y : list T; sg_z : list T;
    sg_solids : option (dict string);       (* file names *)
    sg_mats : dict (material T);
    sg_masks : dict (list bool);            (* grid.cell_data *)
    sg_dicts : bool
  }.
  Record H5Grid : Type := {
    h5_x : list T; h5_y : list T; h5_z : list T;
    h5_solids : dict string; h5_mats : dict (material T); h5_masks : dict (list bool)
  }.

  (** save_to_h5 (1301-1344): None.items() and str.items() are AttributeErrors. *)
  Definition save_h5 (s : StlGrid) : result H5Grid :=
    match sg_solids s with
    | None => Err AttributeError
    | Some so =>
        do gs <- h5_group so;
        do gm <- h5_group (sg_mats s);
        if sg_dicts s then
          do gk <- seq_upd (fun g (p : string * string) =>
                     do m <- dget (sg_masks s) (fst p); h5_create (fst p) m g) [] so;
          Ok {| h5_x := sg_x s; h5_y := sg_y s; h5_z := sg_z s;
                h5_solids := gs; h5_mats := gm; h5_masks := gk |}
        else Err AttributeError
    end.

  (** load_from_h5 (1346-1437) *)
  Definition load_h5 (f : H5Grid) : result StlGrid :=
    do ms <- seq_upd (fun l (p : string * string) => do m <- dget (h5_masks f) (fst p); Ok (l ++ [(fst p, m)]))
               [] (h5_solids f);
    Ok {| sg_x := h5_x f; sg_y := h5_y f; sg_z := h5_z f; sg_solids := Some (h5_solids f);
          sg_mats := h5_mats f; sg_masks := ms; sg_dicts := true |}.

  (** The metrics are recomputed from the axes (1406). *)
  Definition grid_of (s : StlGrid) : result (Grid T) := compute_grid (sg_x s) (sg_y s) (sg_z s).
  (** What _apply_stl_materials iterates over (solverFIT3D.py:1171-1178). *)
  Definition solids_of (s : StlGrid) : result (list (solid T)) :=
    match sg_solids s with
    | None => Ok []
    | Some so => seq_upd (fun l (p : string * string) =>
                   do mk <- dget (sg_masks s) (fst p);
                   do mt <- dget (sg_mats s) (fst p);
                   Ok (l ++ [{| so_key := fst p; so_mask := mk; so_mat := mt |}])) [] so
    end.
End GridFileModel.
Arguments StlGrid T : clear implicits.
Arguments H5Grid T : clear implicits.

Section RefineModel.
  Context {T : Type} {NT : Num T} {OT : NumOrd T}.

  (** np.unique: sorted, duplicates removed. *)
  Fixpoint uinsert (x : T) (l : list T) : list T :=
    match l with
    | [] => [x]
    | y :: r => if nltb x y then x :: l else if nltb y x then y :: uinsert x r else l
    end.
  Definition unique (l : list T) : list T := fold_right uinsert [] l.

  (** np.linspace(0, 1, n) for n >= 0. *)
  Definition linspace01 (n : nat) : list T :=
    tab n (fun i => if n =? 1 then nzero else ndiv (nofnat i) (nofnat (n - 1))).

  Definition nabs (x : T) : T := if nltb x nzero then nopp x else x.
  (** First position with |x[i] - s| <= dx/2, as np.argmax of np.isclose. *)
  Fixpoint first_close (x : list T) (s tol : T) (i : nat) : option nat :=
    match x with
    | [] => None
    | y :: r => if negb (nltb tol (nabs (nsub y s))) then Some i else first_close r s tol (S i)
    end.
  Definition lset (x : list T) (i : nat) (v : T) : list T := tab (List.length x) (fun j => if j =? i then v else get x j).

  Inductive refine_method : Type := MInsert | MNeighbor | MSubdivision | MOther.

  (** The initial axis handed to the optimiser (684-713), in units of the domain length.  A negative
      number of samples is a ValueError; 'subdivision' reads the local x before it is set. *)
  Definition refine_start (xmin xmax : T) (Nx : nat) (snaps : list T) (m : refine_method) : result (list T) :=
    let s := map (fun p => ndiv (nsub p xmin) (nsub xmax xmin)) snaps in
    match m with
    | MInsert => if Nx <? List.length s then Err ValueError
                 else Ok (unique (s ++ linspace01 (Nx - List.length s)))
    | MNeighbor => if Nx <? 2 then Err IndexError
                   else let dx := nsub (get (linspace01 Nx) 1) (get (linspace01 Nx) 0) in
                        Ok (fold_left (fun x p => match first_close x p (ndiv dx two) 0 with
                                                  | Some i => lset x i p
                                                  | None => x end) s (linspace01 Nx))
    | MSubdivision => Err UnboundLocalError
    | MOther => Err ValueError
    end.

  (** x_snaps as _compute_snap_points leaves them (556-572): the given coordinates and the bounds. *)
  Definition snaps_with_bounds (xmin xmax : T) (pts : list T) : list T :=
    unique ([xmin] ++ unique pts ++ [xmax]).
End RefineModel.
