(** Model of GridFIT3D.mpi_gather_asGrid, /repo/wakis/gridFIT3D.py:357-389: rank 0 of a grid that was cut into tiles
    builds the grid of the whole domain again.  The constructor is [init] (GridInitModel.v); printing is not modelled. *)
From Coq Require Import List Arith ZArith NArith Bool String Lia.
From Verif Require Import Num Vec FieldModel GridModel SolverModel GridFileModel MpiModel MpiSolverModel WakeModel SourceModel GridInitModel.
Import ListNotations.

Section Gather.
  Context {T : Type} {NT : Num T} {OT : NumOrd T} {TR : NumTr T}.
  Context (file : string -> option (list (vec3 T))) (edges : list (list (vec3 T)) -> list (vec3 T)) (round5 : T -> T).
  Context (lsq : list T -> list bool -> list T).
  Context (inside : list T * list T * list T -> list (vec3 T) -> T -> list bool).

  (** The attributes xmin .. zmax, x, y, z as __init__ has left them when it comes to line 225: after refinement,
      before the domain is divided.  The lines are those of [init], which also starts with them (GatherProofs.v,
      init_before). *)
  Definition before_mpi (a : GiArgs T) : result (vec3 T * vec3 T * (list T * list T * list T)) :=
    do b <- first_axes a;
    let '(lo, hi, (x, y, z)) := b in
    do st <- match ga_solids a with
             | None => Ok None
             | Some so => do s <- prepare so (ga_mats a) (ga_rotate a) (ga_translate a) (ga_scale a) (ga_colors a); Ok (Some s)
             end;
    do sn <- match ga_refine a, ga_snaps a, st with
             | true, None, Some s => do q <- compute_snaps file edges round5 s (ga_snap_solids a) (ga_snap_tol a) lo hi; Ok (Some q)
             | _, _, _ => Ok None
             end;
    if ga_refine a then
      do q <- some AttributeError sn;
      let '(sx, sy, sz) := q in
      do x' <- refine_axis lsq (px lo) (px hi) (List.length x) sx (ga_method a);
      do y' <- refine_axis lsq (py lo) (py hi) (List.length y) sy (ga_method a);
      do z' <- refine_axis lsq (pz lo) (pz hi) (List.length z) sz (ga_method a);
      Ok (lo, hi, (x', y', z'))
    else Ok (lo, hi, (x, y, z)).

  (** The arguments of the second constructor call (370-388).  [o] is the object the method is called on; the
      refinement options are not handed over. *)
  Definition gather_args (a : GiArgs T) (o : GridObj T) (lo hi : vec3 T) (Nx Ny NZ : nat) : GiArgs T :=
    {| ga_min := (Some (px lo), Some (py lo), Some (pz lo)); ga_max := (Some (px hi), Some (py hi), Some (pz hi));
       ga_N := (Some Nx, Some Ny, Some NZ); ga_axes := (None, None, None); ga_mpi := None;
       ga_refine := false; ga_method := MInsert; ga_snaps := None; ga_snap_tol := ga_snap_tol a; ga_snap_solids := None;
       ga_solids := match gi_stl o with Some st => Some (SoDict (st_solids st)) | None => None end;
       ga_mats := match gi_stl o with Some st => st_mats st | None => ga_mats a end;
       ga_rotate := match gi_stl o with Some st => Each (st_rotate st) | None => ga_rotate a end;
       ga_translate := match gi_stl o with Some st => Each (st_translate st) | None => ga_translate a end;
       ga_scale := match gi_stl o with Some st => Each (st_scale st) | None => ga_scale a end;
       ga_colors := match gi_stl o with Some st => st_colors st | None => ga_colors a end;
       ga_tol := ga_tol a |}.

  (** grid = GridFIT3D(...); grid.mpi_gather_asGrid() (357-389).  Without use_mpi there is no attribute rank (367). *)
  Definition gather (a : GiArgs T) : result (option (GridObj T)) :=
    do o <- init file edges round5 lsq inside a;
    match ga_mpi a with
    | None => Err AttributeError
    | Some (rank, size) =>
        if (rank =? 0)%nat then
          do b <- before_mpi a;
          let '(lo, hi, (x, y, z)) := b in
          do t <- mpi_tile (pz lo) (pz hi) (List.length z - 1) size rank;
          do g <- init file edges round5 lsq inside (gather_args a o lo hi (List.length x - 1) (List.length y - 1) (tl_NZ t));
          Ok (Some g)
        else Ok None
    end.
End Gather.
