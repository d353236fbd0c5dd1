(** The log of a run: wakis/logger.py (whole file), GridFIT3D.update_logger (gridFIT3D.py:180-196, 207, 1439-1449),
    SolverFIT3D.update_logger (solverFIT3D.py:130, 152, 213, 256, 274, 1345-1359).

    Python objects are trees; [shown] is str() of an object that json cannot write.  json.dumps is modelled by the tree it
    writes, not by its characters.  A path is a list of names; a folder is in [dirs] or does not exist.
    Not modelled: times in the log, keys of a dict that json writes as the same text, all ranks writing one file. *)
From Coq Require Import List Arith ZArith Bool String.
From Verif Require Import Num Vec FieldModel GridModel SolverModel WakeModel GridFileModel GridInitModel.
Import ListNotations.

Section Log.
  Context {T : Type} {NT : Num T} {OT : NumOrd T}.

  (** Python values. [VObj s] is any other object, [s] its str(); NumPy integers and booleans are of this kind, NumPy
      floats are floats.  [VArray v] is an array, [v] its tolist(). *)
  Inductive key : Type := KStr (s : string) | KOther.
  Inductive pv : Type :=
  | VNone | VBool (b : bool) | VInt (z : Z) | VFloat (x : T) | VInf | VStr (s : string) | VObj (s : string)
  | VList (l : list pv) | VTuple (l : list pv) | VDict (d : list (key * pv)) | VArray (v : pv).
  Inductive json : Type :=
  | JNull | JBool (b : bool) | JInt (z : Z) | JFloat (x : T) | JInf | JStr (s : string)
  | JList (l : list json) | JObj (d : list (string * json)).

  (** json.dumps *)
  Fixpoint dumps (v : pv) : result json :=
    match v with
    | VNone => Ok JNull | VBool b => Ok (JBool b) | VInt z => Ok (JInt z) | VFloat x => Ok (JFloat x) | VInf => Ok JInf | VStr s => Ok (JStr s)
    | VObj _ => Err TypeError | VArray _ => Err TypeError
    | VList l | VTuple l =>
        do r <- (fix go l := match l with [] => Ok [] | v :: l => do j <- dumps v; do r <- go l; Ok (j :: r) end) l; Ok (JList r)
    | VDict d =>
        do r <- (fix go d := match d with
                 | [] => Ok []
                 | (k, v) :: d => match k with KStr s => do j <- dumps v; do r <- go d; Ok ((s, j) :: r) | KOther => Err TypeError end
                 end) d; Ok (JObj r)
    end.
  (** str() of the values that reach it: strings and objects *)
  Definition str_of (v : pv) : string := match v with VStr s | VObj s => s | _ => EmptyString end.
  (** _convert (logger.py:84-96) *)
  Fixpoint convert (v : pv) : pv :=
    match v with
    | VDict d => VDict (map (fun a => (fst a, convert (snd a))) d)
    | VList l | VTuple l => VList (map convert l)
    | VArray a => a
    | _ => match dumps v with Ok _ => v | Err _ => VStr (str_of v) end
    end.

  (** Dictionaries of the log: assignment keeps the place of an existing key. *)
  Definition log : Type := list (key * pv).
  Definition is_key (s : string) (k : key) : bool := match k with KStr t => String.eqb s t | KOther => false end.
  Fixpoint log_set (d : log) (s : string) (v : pv) : log :=
    match d with [] => [(KStr s, v)] | (k, w) :: r => if is_key s k then (k, v) :: r else (k, w) :: log_set r s v end.
  Fixpoint log_get (d : log) (s : string) : option pv :=
    match d with [] => None | (k, v) :: r => if is_key s k then Some v else log_get r s end.
  Definition log_all (d : log) (l : list (string * pv)) : log := fold_left (fun d a => log_set d (fst a) (snd a)) l d.

  (** What the file holds: the sections written, in order; [None] for "(empty)", [Cut] for the title only. *)
  Inductive entry : Type := Empty | Full (j : json) | Cut.
  Record Disk : Type := { dirs : list (list string); logs : list (list string * list (string * entry)) }.
  Definition has_dir (k : Disk) (p : list string) : bool := existsb (fun q => if list_eq_dec string_dec p q then true else false) (dirs k).
  (** os.mkdir: the parent must exist *)
  Definition mkdir (k : Disk) (p : list string) : result Disk :=
    if has_dir k (removelast p) then Ok {| dirs := p :: dirs k; logs := logs k |} else Err OtherException.
  Definition write (k : Disk) (p : list string) (c : list (string * entry)) : Disk :=
    {| dirs := dirs k; logs := (p, c) :: List.filter (fun a => if list_eq_dec string_dec p (fst a) then false else true) (logs k) |}.
  Fixpoint sections (l : list (string * log)) : list (string * entry) * option exn :=
    match l with
    | [] => ([], None)
    | (t, d) :: r =>
        match d with
        | [] => let '(c, e) := sections r in ((t, Empty) :: c, e)
        | _ => match dumps (convert (VDict d)) with
               | Ok j => let '(c, e) := sections r in ((t, Full j) :: c, e)
               | Err e => ([(t, Cut)], Some e)
               end
        end
    end.
  Record Logger : Type := { lgrid : log; lsolver : log; lwake : log }.
  Context (split : string -> list string).           (* the names in a path *)
  (** save_logs (41-101): the disk afterwards, the logger, and the error if any *)
  Definition save_logs (lg : Logger) (folder : option string) (k : Disk) : Disk * Logger * option exn :=
    let lg := match folder with
              | Some f => {| lgrid := lgrid lg; lsolver := lsolver lg; lwake := log_set (lwake lg) "results_folder" (VStr f) |}
              | None => lg
              end in
    match log_get (lwake lg) "results_folder" with
    | None => (k, lg, Some KeyError)
    | Some (VStr f) =>
        let p := split f in
        match (if has_dir k p then Ok k else mkdir k p) with
        | Err e => (k, lg, Some e)
        | Ok k =>
            let '(c, e) := sections [("WakeSolver Logs"%string, lwake lg); ("Solver Logs"%string, lsolver lg); ("Grid Logs"%string, lgrid lg)] in
            (write k p c, lg, e)
        end
    | Some _ => (k, lg, Some TypeError)              (* os.path.join *)
    end.
End Log.
Arguments pv T : clear implicits.
Arguments json T : clear implicits.
Arguments log T : clear implicits.
Arguments entry T : clear implicits.
Arguments Disk T : clear implicits.
Arguments Logger T : clear implicits.

Section Attrs.
  Context {T : Type} {NT : Num T} {OT : NumOrd T}.
  Definition v_axis (l : list T) : pv T := VArray (VList (map (fun x => VFloat x) l)).
  Definition v_vec (p : vec3 T) : pv T := VList [VFloat (px p); VFloat (py p); VFloat (pz p)].
  Definition v_per {A} (f : A -> pv T) (p : per A) : pv T :=
    match p with Same a => f a | Each d => VDict (map (fun a => (KStr (fst a), f (snd a))) d) end.
  Definition v_solids (s : option solids_arg) : pv T :=
    match s with
    | None => VNone | Some (SoStr f) => VStr f | Some (SoDict d) => VDict (map (fun a => (KStr (fst a), VStr (snd a))) d) | Some SoOther => VObj EmptyString
    end.
  Definition v_num (n : pynum T) : pv T := match n with NpInf | FloatInf => VInf | PFin x => VFloat x end.
  Definition v_mat (m : pymat T) : pv T := match m with PName s => VStr s | PList l => VList (map v_num l) end.
  Definition v_mats (m : option (dict (pymat T))) : pv T :=
    match m with None => VNone | Some d => VDict (map (fun a => (KStr (fst a), v_mat (snd a))) d) end.
  Definition v_scale (s : scale_ T) : pv T := match s with Sc1 x => VFloat x | Sc3 p => v_vec p end.
  Definition zero3 (p : vec3 T) : bool := neqb (px p) nzero && neqb (py p) nzero && neqb (pz p) nzero.
  (** self.stl_rotate != [0.0, 0.0, 0.0] and self.stl_scale != 1.0: a dict is neither *)
  Definition given_vec (p : per (vec3 T)) : bool := match p with Same v => negb (zero3 v) | Each _ => true end.
  Definition given_scale (p : per (scale_ T)) : bool := match p with Same (Sc1 x) => negb (neqb x none_) | _ => true end.

  (** GridFIT3D.__init__ (180-196, 207): before refinement and subdivision. *)
  Definition log_grid (a : GiArgs T) : result (log T) :=
    do b <- first_axes a;
    let '(lo, hi, (x, y, z)) := b in
    let n l := VInt (Z.of_nat (List.length l - 1)) in
    Ok (log_all [] ([("Nx", n x); ("Ny", n y); ("Nz", n z); ("dx", v_axis (diff x)); ("dy", v_axis (diff y)); ("dz", v_axis (diff z));
         ("xmin", VFloat (px lo)); ("xmax", VFloat (px hi)); ("ymin", VFloat (py lo)); ("ymax", VFloat (py hi)); ("zmin", VFloat (pz lo)); ("zmax", VFloat (pz hi));
         ("stl_solids", v_solids (ga_solids a)); ("stl_materials", v_mats (ga_mats a))]%string ++
        (if given_vec (ga_rotate a) then [("stl_rotate"%string, v_per v_vec (ga_rotate a))] else []) ++
        (if given_vec (ga_translate a) then [("stl_translate"%string, v_per v_vec (ga_translate a))] else []) ++
        (if given_scale (ga_scale a) then [("stl_scale"%string, v_per v_scale (ga_scale a))] else []) ++
        [("use_mesh_refinement"%string, VBool (ga_refine a))])%list).

  Definition v_bc (b : bc3) : pv T := VList [VStr (bcx b); VStr (bcy b); VStr (bcz b)].
  (** SolverFIT3D.__init__: dt before the relaxation time is considered (258-274), boundaries before those of the ranks (211-213).
      [gpu] use_gpu, [bg] the background as given. *)
  Definition log_solver (env : Env T) (g : Grid T) (ar : Args T) (gpu : bool) (bg : pv T) : result (log T) :=
    let '(bl, bh) := mpi_bc (ar_mpi ar) (ar_bl ar) (ar_bh ar) in
    do bo <- apply_bc g bl bh;
    do dt0 <- (match ar_dt ar with
               | Some dt => Ok dt
               | None => cfl_dt env (ar_cfln ar) (diff (gx g)) (diff (gy g)) (diff (gz g))
               end);
    Ok (log_all [] ([("use_gpu", VBool gpu); ("use_mpi", VBool (match ar_mpi ar with Some _ => true | None => false end));
         ("background", bg); ("bc_low", v_bc (ar_bl ar)); ("bc_high", v_bc (ar_bh ar))]%string ++
        (if bo_pml bo then [("n_pml"%string, VInt (Z.of_nat (ar_npml ar)))] else []) ++ [("dt"%string, VFloat dt0)])%list).
End Attrs.
