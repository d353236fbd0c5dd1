(** Vocabulary for the absorbing layers (_fill_pml_sigmas, solverFIT3D.py:884-1001). *)
From Coq Require Import List Arith ZArith Bool String Reals.
From Verif Require Import Num Vec FieldModel SolverModel SolverPlanes.
Import ListNotations.

(** Faces as (high side?, axis), in the order in which they are filled. *)
Definition face : Type := bool * nat.
Definition pml_faces : list face :=
  [(false, 0); (false, 1); (false, 2); (true, 0); (true, 1); (true, 2)].
Definition wall_name (bl bh : bc3) (f : face) : string := bc_at (if fst f then bh else bl) (snd f).

Section PmlSpec.
  Context {T : Type} {NT : Num T} {OT : NumOrd T}.
  Context (env : Env T) (n : nat) (bl bh : bc3) (Nx Ny Nz : nat).

  (** Layers between the cell and the wall. *)
  Definition depth (f : face) (i j k : nat) : nat :=
    let d := dim (snd f) Nx Ny Nz in let p := coord (snd f) i j k in
    if fst f then d - 1 - p else p.
  Definition covers (f : face) (i j k : nat) : Prop :=
    lower (wall_name bl bh f) = "pml"%string /\ depth f i j k < n.
  (** The face whose value the cell gets: the last one covering it. *)
  Definition decided_by (f : face) (i j k : nat) : Prop :=
    exists l1 l2, pml_faces = l1 ++ f :: l2 /\ covers f i j k /\
      forall f', In f' l2 -> ~ covers f' i j k.
  Definition outside (i j k : nat) : Prop := forall f, In f pml_faces -> ~ covers f i j k.

  (** The cell behind the layer from which a face takes its material: index n+1 on the low side,
      -(n+1) on the high side, the middle of the box in the other directions. *)
  Definition ref_cell (f : face) : nat * nat * nat :=
    set_coord (snd f) (if fst f then dim (snd f) Nx Ny Nz - n - 1 else n + 1) (Nx / 2) (Ny / 2) (Nz / 2).
  (** Profile at depth p: the geometric sequence from the wall value down to the inner value. *)
  Definition profile (f : face) (p : nat) : T :=
    if fst f then get (e_geom env (e_pml_lo env) (e_pml_hi env) n) (n - 1 - p)
    else get (e_geom env (e_pml_hi env) (e_pml_lo env) n) p.
  Definition graded (ref prof : T) : T :=
    nadd ref (nmul (if nltb ref none_ then none_ else ref) prof).
End PmlSpec.

Definition has_pml (bl bh : bc3) : bool :=
  any_bc (fun s => named s "pml") bl || any_bc (fun s => named s "pml") bh.
Section ConfigSpec.
  Context {T : Type} {NT : Num T} {OT : NumOrd T}.
  (** Layers fit: geomspace(.., n) has n entries, at least one layer, 2n+2 cells in each direction. *)
  Definition room_for (env : Env T) (n Nx Ny Nz : nat) : Prop :=
    (forall a b m, List.length (e_geom env a b m) = m) /\ 1 <= n /\
    forall a, a < 3 -> 2 * n + 2 <= dim a Nx Ny Nz.
  (** Every solid has a known material and a mask of the grid's size. *)
  Definition valid_solids (Nx Ny Nz : nat) (l : list (solid T)) : Prop :=
    forall so, In so l -> (exists e, find_material (so_mat so) = Ok e) /\ List.length (so_mask so) = Nx * Ny * Nz.
End ConfigSpec.

(** numpy.geomspace(a, b, n) for positive a and b: a * (b/a)^(i/(n-1)). *)
Definition geomspace (a b : R) (n : nat) : list R :=
  tab n (fun i => a * Rpower (b / a) (INR i / INR (n - 1)))%R.
