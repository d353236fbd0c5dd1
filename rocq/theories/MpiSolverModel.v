(** Model of the distributed run: grid tiles (gridFIT3D.py:301-355), the distributed time step
    (solverFIT3D.py:436-460, 490-518) and the gathering of fields (520-712).

    One rank is one [Solver]; the ranks run the machine of MpiModel.v.  GPU transfers, printing and
    the MKL variant (same products) are not modelled. *)
From Coq Require Import List Arith ZArith Bool String Lia.
From Verif Require Import Num Vec Index Matrix FieldModel GridModel SolverModel MpiModel.
Import ListNotations.

Section Tiles.
  Context {T : Type} {NT : Num T}.

  (** What _mpi_initialize leaves on one rank: NZ, the global centres Z, the local number of
      layers and the local nodes. *)
  Record Tile : Type := { tl_NZ : nat; tl_Z : list T; tl_Nz : nat; tl_z : list T }.

  (** gridFIT3D.py:301-355 for the given rank; [n_ghosts] is 1. *)
  Definition mpi_tile (ZMIN ZMAX : T) (Nz size rank : nat) : result Tile :=
    if Nz <? size then Err ValueError else
    let NZ := Nz - Nz mod size in
    let half := ndiv (nsub ZMAX ZMIN) (nmul two (nofnat NZ)) in
    let Z := tab NZ (fun i => nadd (get (linspace ZMIN ZMAX NZ) i) half) in
    let nz := NZ / size in
    let dz := ndiv (nsub ZMAX ZMIN) (nofnat NZ) in
    let zmin := nadd (nmul (nmul (nofnat rank) (nofnat nz)) dz) ZMIN in
    let zmax := nadd (nmul (nmul (nofnat (rank + 1)) (nofnat nz)) dz) ZMIN in
    let '(zmin, n1) := if 0 <? rank then (nadd zmin (nmul (nopp none_) dz), nz + 1) else (zmin, nz) in
    let '(zmax, n2) := if rank <? size - 1 then (nadd zmax (nmul none_ dz), n1 + 1) else (zmax, n1) in
    let '(zmax, n3) := if (rank =? 0) && (size =? 1) then (nadd zmax (nmul none_ dz), n2 + 1) else (zmax, n2) in
    Ok {| tl_NZ := NZ; tl_Z := Z; tl_Nz := n3; tl_z := linspace zmin zmax n3 |}.

  (** GridFIT3D(xmin=, ..., Nz=, use_mpi=True) on the given rank (155-164, 228-246). *)
  Definition mpi_grid (xmin xmax ymin ymax zmin zmax : T) (Nx Ny Nz size rank : nat)
    : result (Tile * Grid T) :=
    do t <- mpi_tile zmin zmax Nz size rank;
    do g <- compute_grid (linspace xmin xmax Nx) (linspace ymin ymax Ny) (tl_z t);
    Ok (t, g).
End Tiles.
Arguments Tile T : clear implicits.

Section MpiSolver.
  Context {T : Type} {NT : Num T} {OT : NumOrd T}.

  (** The three fields a rank exchanges. *)
  Definition fsel (fld : nat) (s : Solver T) : Field T :=
    match fld with 0 => sE s | 1 => sH s | _ => sJ s end.
  Definition with_fsel (fld : nat) (s : Solver T) (F : Field T) : Solver T :=
    match fld with
    | 0 => with_fields s F (sH s) (sJ s)
    | 1 => with_fields s (sE s) F (sJ s)
    | _ => with_fields s (sE s) (sH s) F
    end.

  (** Buffers of _mpi_communicate (495-515): field[:,:,1,d] and field[:,:,-2,d] are sent,
      field[:,:,0,d] and field[:,:,-1,d] are views that receive. *)
  Definition halo_send (fld : nat) (hi : bool) (d : nat) (s : Solver T) : result (ndarray T) :=
    getitem (fun x => x) (fsel fld s) (plane_key 2 (if hi then -2 else 1)%Z d).
  Definition halo_recv (fld : nat) (hi : bool) (d : nat) (m : result (ndarray T)) (s : Solver T) : Solver T :=
    match m with
    | Ok v => match setitem (fsel fld s) (plane_key 2 (if hi then -1 else 0)%Z d) (VArr v) with
              | Ok F => with_fsel fld s F
              | Err _ => s
              end
    | Err _ => s
    end.

  (** _mpi_one_step (436-460), cut at the exchanges. *)
  Definition mpi_H (s : Solver T) : result (Solver T) :=
    do s1 <- first_step s; do H <- updH s1; Ok (with_fields s1 (sE s1) H (sJ s1)).
  Definition mpi_E (s : Solver T) : result (Solver T) :=
    do E <- updE s (sH s); Ok (with_fields s E (sH s) (sJ s)).
  Definition mpi_J (s : Solver T) : result (Solver T) :=
    do J <- updJ s (sE s); Ok (with_fields s (sE s) (sH s) J).
  (** Between two exchanges in a row there is nothing to compute ([Local Ok]). *)
  Definition mpi_one_step (size r : nat) : list (instr (Solver T)) :=
    [Local mpi_H] ++ communicate size r 1 ++ [Local (@Ok _)] ++ communicate size r 2 ++
    [Local mpi_E] ++ communicate size r 0 ++ [Local mpi_J].
  (** The program of a rank that, [n] times, applies its sources and advances; [src m] are the
      writes to the fields made before step [m]. *)
  Definition mpi_program (size r n : nat) (src : nat -> list (op T)) : list (instr (Solver T)) :=
    flat_map (fun m => Local (fun s => run s (src m)) :: mpi_one_step size r) (seq 0 n).

  (** ** Gathering (520-712) *)

  (** How the caller writes an index: a Python int, a NumPy integer, or a slice. *)
  Inductive pyidx : Type := PyInt (z : Z) | NpInt (z : Z) | PySlice (a b c : option Z).
  Definition ikey_of (i : pyidx) : ikey :=
    match i with PyInt z | NpInt z => KI z | PySlice a b c => KS a b c end.
  Definition is_pyint (i : pyidx) : bool := match i with PyInt _ => true | _ => false end.
  (** i.stop - i.start: AttributeError on a number, TypeError on a missing bound. *)
  Definition extent (i : pyidx) : result Z :=
    match i with
    | PySlice (Some a) (Some b) _ => Ok (b - a)%Z
    | PySlice _ _ _ => Err TypeError
    | _ => Err AttributeError
    end.

  (** np.reshape(buf, lead ++ [w]) with leading axes merged into [m]: negative or mismatching
      sizes are a ValueError. *)
  Definition reshape2 (buf : list T) (m : Z) (w : nat) : result (nat -> nat -> T) :=
    if ((0 <=? m) && (Z.of_nat (List.length buf) =? m * Z.of_nat w))%Z%bool
    then Ok (fun a k => get buf (a * w + k)) else Err ValueError.

  (** The loop over the ranks on rank 0: _field[..., zz] = reshape(buffer[r])[..., owned]. *)
  Definition paste (NZ size : nat) (m : Z) (bufs : list (list T)) (acc : nat -> nat -> T) (r : nat)
    : result (nat -> nat -> T) :=
    let nz := NZ / size in
    let w := nz + (if (r =? 0) || (r =? size - 1) then 1 else 2) in
    let lo := if r =? 0 then 0 else 1 in
    do v <- reshape2 (nth r bufs []) m w;
    Ok (fun a k => if (r * nz <=? k) && (k <? (r + 1) * nz) then v a (k - r * nz + lo) else acc a k).
  Definition assemble (NZ size : nat) (m : Z) (bufs : list (list T)) : result (nat -> nat -> T) :=
    seq_upd (paste NZ size m bufs) (fun _ _ => nzero) (seq 0 size).

  (** _field[..., z] on the array of shape lead ++ [NZ], C order. *)
  Definition pick_z (NZ : nat) (lead : list nat) (v : nat -> nat -> T) (z : ikey) : result (ndarray T) :=
    do ks <- resolve NZ z;
    Ok {| shape := lead ++ (if kept z then [List.length ks] else []);
          dat := flat_map (fun a => map (v a) ks) (seq 0 (size_of lead)) |}.

  (** mpi_gather(field, x, y, z, component) for a Field object; [Fs] are the fields of all ranks.
      Result of rank [me]: None elsewhere than on rank 0. *)
  Definition mpi_gather (sqrt : T -> T) (Nx Ny NZ size me : nat) (Fs : list (Field T))
      (x y z : option pyidx) (comp : option ckey) : result (option (ndarray T)) :=
    let x := match x with Some x => x | None => PySlice (Some 0%Z) (Some (Z.of_nat Nx)) None end in
    let y := match y with Some y => y | None => PySlice (Some 0%Z) (Some (Z.of_nat Ny)) None end in
    let z := match z with Some z => z | None => PySlice (Some 0%Z) (Some (Z.of_nat NZ)) None end in
    let c := match comp with Some c => c | None => CStr "z" end in
    let local F := do v <- getitem sqrt F (KTup (ikey_of x) (ikey_of y) kfull c); Ok (dat v) in
    do mine <- local (nth me Fs (field_zeros 0 0 0));
    if negb (me =? 0) then Ok None else
    do bufs <- seq_upd (fun l F => do b <- local F; Ok (l ++ [b])) [] Fs;
    if is_pyint x && is_pyint y then
      do v <- assemble NZ size 1 bufs;
      do o <- pick_z NZ [] v (ikey_of z); Ok (Some o)
    else if is_pyint x then
      do ny <- extent y;
      do v <- assemble NZ size ny bufs;
      do o <- pick_z NZ [Z.to_nat ny] v (ikey_of z); Ok (Some o)
    else if is_pyint y then
      do nx <- extent x;
      do v <- assemble NZ size nx bufs;
      do o <- pick_z NZ [Z.to_nat nx] v (ikey_of z); Ok (Some o)
    else
      do nx <- extent x; do ny <- extent y;
      do v <- assemble NZ size (nx * ny) bufs;
      do o <- pick_z NZ [Z.to_nat nx; Z.to_nat ny] v (ikey_of z); Ok (Some o).

  (** mpi_gather_asField: every rank returns a Field, filled on rank 0 only (661-712). *)
  Definition gather_comp (Nx Ny NZ size : nat) (Fs : list (Field T)) (G : Field T) (d : nat) : result (Field T) :=
    do bufs <- seq_upd (fun l F => do v <- getitem (fun x => x) F (KTup kfull kfull kfull (cname d)); Ok (l ++ [dat v])) [] Fs;
    seq_upd (fun G r =>
      let nz := NZ / size in
      let w := nz + (if (r =? 0) || (r =? size - 1) then 1 else 2) in
      let lo := if r =? 0 then 0 else 1 in
      do v <- reshape2 (nth r bufs []) (Z.of_nat (Nx * Ny)) w;
      setitem G (KTup kfull kfull (krange (Z.of_nat (r * nz)) (Z.of_nat ((r + 1) * nz))) (cname d))
        (VArr (arr3 Nx Ny nz (fun i j k => v (i * Ny + j) (k + lo))))) G (seq 0 size).
  Definition mpi_gather_asField (Nx Ny NZ size me : nat) (Fs : list (Field T)) : result (Field T) :=
    if me =? 0 then seq_upd (gather_comp Nx Ny NZ size Fs) (field_zeros Nx Ny NZ) axes
    else Ok (field_zeros Nx Ny NZ).
End MpiSolver.
