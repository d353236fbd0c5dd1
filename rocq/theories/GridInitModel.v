(** Model of the construction of a grid object from the caller's arguments, /repo/wakis/gridFIT3D.py:
    __init__ (31-255), _prepare_stl_dicts (391-446), read_stl (497-525), _compute_snap_points (527-572),
    refine_axis (644-732) around the optimiser, _refine_xyz_axis (734-778), _assign_colors (780-806).

    Outside the model, as parameters: the points of an STL file, pyvista's feature edges and
    select_enclosed_points, scipy's least_squares, np.round to five decimals.  Not modelled: logging,
    printing (verbose is 0 or 1), load_from_h5 (GridFileModel.v). *)
From Coq Require Import List Arith ZArith NArith Bool String Lia.
From Verif Require Import Num Vec FieldModel GridModel SolverModel GridFileModel MpiModel MpiSolverModel WakeModel SourceModel.
Import ListNotations.
Open Scope string_scope.

(** An argument given once for all solids, or as a dict. *)
Inductive per (A : Type) : Type := Same (a : A) | Each (d : dict A).
Arguments Same {A}. Arguments Each {A}.
Definition spread {A} (ks : list string) (p : per A) : dict A :=
  match p with Same a => map (fun k => (k, a)) ks | Each d => d end.

(** A matplotlib colour: a name, or a list of three floats (here in units of 1e-8). *)
Inductive colour : Type := CName (s : string) | CRgb (r g b : N).
(** The argument stl_colors. *)
Inductive colours : Type := ColNone | ColStr (s : string) | ColList (l : list colour) | ColDict (d : dict colour).
(** The argument stl_solids when it is not None: a file name, a dict, anything else. *)
Inductive solids_arg : Type := SoStr (f : string) | SoDict (d : dict string) | SoOther.

(** materials.py:35-45 *)
Definition material_colors : dict colour :=
  [("pec", CName "white"); ("vacuum", CName "tab:blue"); ("dielectric", CName "tab:green");
   ("lossy metal", CName "tab:orange"); ("copper", CRgb 82745099 69803900 49019599);
   ("berillium", CRgb 82745099 69803900 49019599); ("stainless steel", CName "silver");
   ("martensite", CRgb 0 100000000 100000000); ("other", CName "cyan")].
Definition colour_of (m : string) : colour :=
  match dget material_colors m with Ok c => c | Err _ => CName "cyan" end.

Section GridInit.
  Context {T : Type} {NT : Num T} {OT : NumOrd T} {TR : NumTr T}.
  Local Open Scope num_scope.

  Definition vec3 : Type := (T * T * T)%type.
  Definition px (p : vec3) : T := fst (fst p).
  Definition py (p : vec3) : T := snd (fst p).
  Definition pz (p : vec3) : T := snd p.

  (** A number in a material list.  [x is np.inf] holds for the object np.inf only, not for another
      infinite float such as float("inf"). *)
  Inductive pynum : Type := NpInf | FloatInf | PFin (x : T).
  Inductive pymat : Type := PName (s : string) | PList (l : list pynum).
  (** What the solver makes of it (solverFIT3D.py:1180-1200). *)
  Definition ext_of (n : pynum) : ext_num T := match n with PFin x => Fin x | _ => Inf end.
  Definition material_of (m : pymat) : option (material T) :=
    match m with
    | PName s => Some (MName s)
    | PList [e; u] => Some (MList (ext_of e) (ext_of u) None)
    | PList [e; u; PFin s] => Some (MList (ext_of e) (ext_of u) (Some s))
    | PList _ => None
    end.

  (** _assign_colors (780-806) *)
  Definition auto_colour (m : pymat) : colour :=
    match m with
    | PName s => colour_of s
    | PList [e; _] =>
        match e with
        | NpInf => colour_of "pec"
        | FloatInf => colour_of "dielectric"
        | PFin x => if nltb 1 x then colour_of "dielectric" else colour_of "vacuum"
        end
    | PList [_; _; _] => colour_of "lossy metal"
    | PList _ => colour_of "other"
    end.
  Definition assign_colors (ks : list string) (mats : option (dict pymat)) : result (dict colour) :=
    seq_upd (fun d k => do ms <- some TypeError mats; do m <- dget ms k; Ok (d ++ [(k, auto_colour m)])%list) [] ks.

  (** Scale factor: one number or one per axis. *)
  Inductive scale_ : Type := Sc1 (s : T) | Sc3 (s : vec3).

  (** The STL attributes after _prepare_stl_dicts (391-446). *)
  Record Stl : Type := {
    st_solids : dict string; st_mats : option (dict pymat);
    st_rotate : dict vec3; st_scale : dict scale_; st_translate : dict vec3; st_colors : colours }.
  Definition list_colors (ks : list string) (l : list colour) : option (dict colour) :=
    if (List.length ks <=? List.length l)%nat then Some (combine ks l) else None.
  (** [self.stl_colors is str] compares a value with the class and is False (430). *)
  Definition prepare_colors (ks : list string) (mats : option (dict pymat)) (c : colours) : result colours :=
    match c with
    | ColNone => do d <- assign_colors ks mats; Ok (ColDict d)
    | ColStr s => Ok (ColStr s)
    | ColList l => match list_colors ks l with
                   | Some d => Ok (ColDict d)
                   | None => do d <- assign_colors ks mats; Ok (ColDict d)
                   end
    | ColDict d => Ok (ColDict d)
    end.
  Definition prepare (so : solids_arg) (mats : option (dict pymat)) (rot tra : per vec3) (sca : per scale_) (c : colours)
    : result Stl :=
    do d <- match so with SoStr f => Ok [("Solid 1", f)] | SoDict d => Ok d | SoOther => Err OtherException end;
    let ks := map fst d in
    do c <- prepare_colors ks mats c;
    Ok {| st_solids := d; st_mats := mats; st_rotate := spread ks rot; st_scale := spread ks sca;
          st_translate := spread ks tra; st_colors := c |}.

  (** read_stl (497-525): pyvista rotates by degrees about the axes through the origin. *)
  Definition rad (a : T) : T := a * npi / nofnat 180.
  Definition rot_x (a : T) (p : vec3) : vec3 :=
    let c := ncos (rad a) in let s := nsin (rad a) in (px p, c * py p - s * pz p, s * py p + c * pz p).
  Definition rot_y (a : T) (p : vec3) : vec3 :=
    let c := ncos (rad a) in let s := nsin (rad a) in (c * px p + s * pz p, py p, - s * px p + c * pz p).
  Definition rot_z (a : T) (p : vec3) : vec3 :=
    let c := ncos (rad a) in let s := nsin (rad a) in (c * px p - s * py p, s * px p + c * py p, pz p).
  Definition translate (t p : vec3) : vec3 := (px p + px t, py p + py t, pz p + pz t).
  Definition scale (s : scale_) (p : vec3) : vec3 :=
    match s with
    | Sc1 s => (s * px p, s * py p, s * pz p)
    | Sc3 s => (px s * px p, py s * py p, pz s * pz p)
    end.
  Definition place (r t : vec3) (s : scale_) (p : vec3) : vec3 :=
    scale s (translate t (rot_z (pz r) (rot_y (py r) (rot_x (px r) p)))).

  Context (file : string -> option (list vec3)).        (* pv.read: the points of a surface *)
  Definition read_stl (st : Stl) (k : string) : result (list vec3) :=
    do f <- dget (st_solids st) k;
    do pts <- some OtherException (file f);
    do r <- dget (st_rotate st) k;
    do t <- dget (st_translate st) k;
    do s <- dget (st_scale st) k;
    Ok (map (place r t s) pts).

  (** _compute_snap_points (527-572) *)
  Context (edges : list (list vec3) -> list vec3) (round5 : T -> T).
  Definition close0 (tol x : T) : bool := nltb (nabs x) tol.
  Definition compute_snaps (st : Stl) (keys : option (list string)) (tol : T) (lo hi : vec3) : result (list T * list T * list T) :=
    let ks := match keys with Some l => l | None => map fst (st_solids st) end in
    do surfs <- collect (read_stl st) ks;
    match surfs with
    | [] => Err AttributeError          (* None.extract_feature_edges *)
    | _ =>
        let e := edges surfs in
        let pts := (filter (fun p => close0 tol (py p)) e ++ filter (fun p => close0 tol (px p)) e ++
                    filter (fun p => close0 tol (pz p)) e)%list in
        let ax f := snaps_with_bounds (f lo) (f hi) (map (fun p => round5 (f p)) pts) in
        Ok (ax px, ax py, ax pz)
    end.

  (** refine_axis (644-732): [lsq x0 is_snap] is the optimiser's answer. *)
  Context (lsq : list T -> list bool -> list T).
  Definition refine_axis (xmin xmax : T) (Nx : nat) (snaps : list T) (m : refine_method) : result (list T) :=
    do x0 <- refine_start xmin xmax Nx snaps m;
    let s := map (fun p => (p - xmin) / (xmax - xmin)) snaps in
    let is_snap := map (fun y => existsb (neqb y) s) x0 in
    Ok (map (fun y => y * (xmax - xmin) + xmin) (lsq x0 is_snap)).

  (** The arguments of GridFIT3D. *)
  Record GiArgs : Type := {
    ga_min : option T * option T * option T; ga_max : option T * option T * option T;
    ga_N : option nat * option nat * option nat;
    ga_axes : option (list T) * option (list T) * option (list T);
    ga_mpi : option (nat * nat);              (* use_mpi: rank, size *)
    ga_refine : bool; ga_method : refine_method;
    ga_snaps : option (list vec3); ga_snap_tol : T; ga_snap_solids : option (list string);
    ga_solids : option solids_arg; ga_mats : option (dict pymat);
    ga_rotate : per vec3; ga_translate : per vec3; ga_scale : per scale_; ga_colors : colours;
    ga_tol : T }.

  (** The axes before refinement (139-176): bounds and nodes. *)
  Definition first_axes (a : GiArgs) : result (vec3 * vec3 * (list T * list T * list T)) :=
    match ga_axes a, ga_min a, ga_max a with
    | (Some x, Some y, Some z), _, _ =>
        do x0 <- item x 0; do x1 <- item x (List.length x - 1);
        do y0 <- item y 0; do y1 <- item y (List.length y - 1);
        do z0 <- item z 0; do z1 <- item z (List.length z - 1);
        match ga_mpi a with
        | Some _ => Err ValueError
        | None => Ok ((x0, y0, z0), (x1, y1, z1), (x, y, z))
        end
    | _, (Some x0, Some y0, Some z0), (Some x1, Some y1, Some z1) =>
        match ga_N a with
        | (Some nx, Some ny, Some nz) =>
            Ok ((x0, y0, z0), (x1, y1, z1), (linspace x0 x1 nx, linspace y0 y1 ny, linspace z0 z1 nz))
        | _ => Err TypeError                  (* None + 1 *)
        end
    | _, _, _ => Err ValueError
    end.

  (** _mark_cells_in_stl (448-495): [inside axes surface tolerance] is pyvista's answer. *)
  Context (inside : list T * list T * list T -> list vec3 -> T -> list bool).
  Record GridObj : Type := {
    gi_grid : Grid T; gi_stl : option Stl; gi_masks : dict (list bool); gi_snaps : option (list T * list T * list T) }.

  Definition init (a : GiArgs) : result GridObj :=
    do b <- first_axes a;
    let '(lo, hi, (x, y, z)) := b in
    do st <- match ga_solids a with
             | None => Ok None
             | Some so => do s <- prepare so (ga_mats a) (ga_rotate a) (ga_translate a) (ga_scale a) (ga_colors a); Ok (Some s)
             end;
    do sn <- match ga_refine a, ga_snaps a, st with
             | true, None, Some s => do q <- compute_snaps s (ga_snap_solids a) (ga_snap_tol a) lo hi; Ok (Some q)
             | _, _, _ => Ok None             (* no attribute x_snaps *)
             end;
    do ax <- (if ga_refine a then
                do q <- some AttributeError sn;
                let '(sx, sy, sz) := q in
                do x' <- refine_axis (px lo) (px hi) (List.length x) sx (ga_method a);
                do y' <- refine_axis (py lo) (py hi) (List.length y) sy (ga_method a);
                do z' <- refine_axis (pz lo) (pz hi) (List.length z) sz (ga_method a);
                Ok (x', y', z')
              else Ok (x, y, z));
    let '(x, y, z) := ax in
    do z <- match ga_mpi a with
            | None => Ok z
            | Some (rank, size) => do t <- mpi_tile (pz lo) (pz hi) (List.length z - 1) size rank; Ok (tl_z t)
            end;
    do g <- compute_grid x y z;
    do masks <- match st with
                | None => Ok []
                | Some s =>
                    do mx <- np_min (diff x); do my <- np_min (diff y); do mz <- np_min (diff z);
                    do m <- np_min [mx; my; mz];
                    collect (fun k => do surf <- read_stl s k; Ok (k, inside (x, y, z) surf (m * ga_tol a))) (map fst (st_solids s))
                end;
    Ok {| gi_grid := g; gi_stl := st; gi_masks := masks; gi_snaps := sn |}.
End GridInit.
Arguments vec3 T : clear implicits.
Arguments pynum T : clear implicits.
Arguments pymat T : clear implicits.
Arguments scale_ T : clear implicits.
Arguments Stl T : clear implicits.
Arguments GiArgs T : clear implicits.
Arguments GridObj T : clear implicits.
