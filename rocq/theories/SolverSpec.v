(** Notions used to state the solver properties; nothing here refers to how the solver works. *)
From Coq Require Import List Arith ZArith Bool String Lia.
From Verif Require Import Num Vec Matrix FieldModel FieldSpec GridModel SolverModel SolverPlanes.
Import ListNotations.

Section SolverSpec.
  Context {T : Type} {NT : Num T}.

  (** Net outflow of a face quantity from cell (i,j,k): face (d; i,j,k) is the low d-face. *)
  Definition out_flux (B : nat -> nat -> nat -> nat -> T) (i j k : nat) : T :=
    nadd (nadd (nsub (B 0 (S i) j k) (B 0 i j k)) (nsub (B 1 i (S j) k) (B 1 i j k)))
         (nsub (B 2 i j (S k)) (B 2 i j k)).
  Definition six_faces (i j k : nat) : list (nat * nat * nat * nat) :=
    [(0, S i, j, k); (0, i, j, k); (1, i, S j, k); (1, i, j, k); (2, i, j, S k); (2, i, j, k)].

  (** Net outflow of an edge quantity from the dual cell around node (i,j,k). *)
  Definition out_flux_dual (D : nat -> nat -> nat -> nat -> T) (i j k : nat) : T :=
    nadd (nadd (nsub (D 0 i j k) (D 0 (i - 1) j k)) (nsub (D 1 i j k) (D 1 i (j - 1) k)))
         (nsub (D 2 i j k) (D 2 i j (k - 1))).
  Definition six_edges (i j k : nat) : list (nat * nat * nat * nat) :=
    [(0, i, j, k); (0, i - 1, j, k); (1, i, j, k); (1, i, j - 1, k); (2, i, j, k); (2, i, j, k - 1)].

  (** Sum over all entries of a field. *)
  Definition sum3 (Nx Ny Nz : nat) (f : nat -> nat -> nat -> nat -> T) : T :=
    sum 3 (fun d => sum Nx (fun i => sum Ny (fun j => sum Nz (fun k => f d i j k)))).

  Definition in_box (Nx Ny Nz d i j k : nat) : Prop := d < 3 /\ i < Nx /\ j < Ny /\ k < Nz.

  (** Boundary names, read without regard to letter case. *)
  Definition electric (s : string) : Prop :=
    lower s = "electric"%string \/ lower s = "pec"%string \/ lower s = "pml"%string.
  Definition magnetic (s : string) : Prop :=
    lower s = "magnetic"%string \/ lower s = "pmc"%string.

  (** Name of the wall that decides component [d] at a cell of the boundary: of the faces the
      component is tangential to, the last one in the order x, y, z. *)
  Definition deciding_wall (bl bh : bc3) (Nx Ny Nz d i j k : nat) : option string :=
    let face a acc :=
      if d =? a then acc
      else if coord a i j k =? dim a Nx Ny Nz - 1 then Some (bc_at bh a)
      else if coord a i j k =? 0 then Some (bc_at bl a) else acc in
    face 2 (face 1 (face 0 None)).
  Definition electric_wall (bl bh : bc3) (Nx Ny Nz d i j k : nat) : Prop :=
    exists s, deciding_wall bl bh Nx Ny Nz d i j k = Some s /\ electric s.

  (** Component [d] is tangential to some outer face at the cell. *)
  Definition tangential (Nx Ny Nz d i j k : nat) : Prop :=
    exists a, a < 3 /\ a <> d /\ (coord a i j k = 0 \/ coord a i j k = dim a Nx Ny Nz - 1).

  (** Operations that do not write H. *)
  Definition keeps_H (o : op T) : Prop :=
    match o with OStep | OWriteE _ | OWriteJ _ => True | _ => False end.
  Definition keeps_E (o : op T) : Prop :=
    match o with OStep | OWriteH _ | OWriteJ _ => True | _ => False end.

  Local Open Scope num_scope.
  (** Linear combinations of arrays, operations, histories and states. *)
  Definition arr_lin (p q : T) (a b c : list T) : Prop :=
    List.length a = List.length c /\ List.length b = List.length c /\
    forall n, (n < List.length c)%nat -> get c n = p * get a n + q * get b n.
  (** The third operation is the combination of the first two. *)
  Definition op_lin (p q : T) (o1 o2 o3 : op T) : Prop :=
    match o1, o2, o3 with
    | OStep, OStep, OStep | OReset, OReset, OReset => True
    | OWriteE a, OWriteE b, OWriteE c | OWriteH a, OWriteH b, OWriteH c
    | OWriteJ a, OWriteJ b, OWriteJ c => arr_lin p q a b c
    | OLoad a, OLoad b, OLoad c =>
        arr_lin p q (stE a) (stE b) (stE c) /\ arr_lin p q (stH a) (stH b) (stH c) /\
        arr_lin p q (stJ a) (stJ b) (stJ c)
    | _, _, _ => False
    end.
  Inductive hist_lin (p q : T) : list (op T) -> list (op T) -> list (op T) -> Prop :=
  | hl_nil : hist_lin p q [] [] []
  | hl_cons : forall o1 o2 o3 h1 h2 h3, op_lin p q o1 o2 o3 -> hist_lin p q h1 h2 h3 ->
      hist_lin p q (o1 :: h1) (o2 :: h2) (o3 :: h3).

  Definition fields_lin (p q : T) (Nx Ny Nz : nat) (F1 F2 F3 : Field T) : Prop :=
    forall d i j k, in_box Nx Ny Nz d i j k ->
      entry F3 d i j k = p * entry F1 d i j k + q * entry F2 d i j k.
  Definition states_lin (p q : T) (Nx Ny Nz : nat) (s1 s2 s3 : Solver T) : Prop :=
    fields_lin p q Nx Ny Nz (sE s1) (sE s2) (sE s3) /\
    fields_lin p q Nx Ny Nz (sH s1) (sH s2) (sH s3) /\
    fields_lin p q Nx Ny Nz (sJ s1) (sJ s2) (sJ s3).

  (** Electric energy of one state plus the product of two consecutive magnetic fields. *)
  Definition energy (g g' : Grid T) (eps tA mu A : nat -> nat -> nat -> nat -> T) (s s' : Solver T) : T :=
    sum3 (gNx g) (gNy g) (gNz g) (fun d i j k =>
      eps d i j k * tA d i j k * entry (gL g) d i j k * (entry (sE s) d i j k * entry (sE s) d i j k)) +
    sum3 (gNx g) (gNy g) (gNz g) (fun d i j k =>
      mu d i j k * A d i j k * entry (gtL g') d i j k * (entry (sH s) d i j k * entry (sH s') d i j k)).


  (** Value a one- or full-length array write gives to an entry (array layout of Field). *)
  Definition written (Nx Ny Nz : nat) (l : list T) (d i j k : nat) : T :=
    if (List.length l =? 3 * (Nx * Ny * Nz))%nat
    then get l (d * (Nx * Ny * Nz) + (i + Nx * (j + Ny * k)))%nat else get l 0%nat.

  (** The operation writes no non-zero E or J value at the entry. *)
  Definition writes_zero (Nx Ny Nz d i j k : nat) (o : op T) : Prop :=
    match o with
    | OWriteE l | OWriteJ l => written Nx Ny Nz l d i j k = 0
    | OLoad f => written Nx Ny Nz (stE f) d i j k = 0 /\ written Nx Ny Nz (stJ f) d i j k = 0
    | _ => True
    end.

  (** Cells at most [n] index steps away along each axis. *)
  Definition near (n i j k i' j' k' : nat) : Prop :=
    (i <= i' + n /\ i' <= i + n /\ j <= j' + n /\ j' <= j + n /\ k <= k' + n /\ k' <= k + n)%nat.
  Definition arrs_agree (Nx Ny Nz n i j k : nat) (l l' : list T) : Prop :=
    forall d a b c, in_box Nx Ny Nz d a b c -> near n i j k a b c ->
      written Nx Ny Nz l d a b c = written Nx Ny Nz l' d a b c.
  Definition fields_agree (Nx Ny Nz n i j k : nat) (F F' : Field T) : Prop :=
    forall d a b c, in_box Nx Ny Nz d a b c -> near n i j k a b c -> entry F d a b c = entry F' d a b c.
  Definition states_agree (Nx Ny Nz n i j k : nat) (s s' : Solver T) : Prop :=
    fields_agree Nx Ny Nz n i j k (sE s) (sE s') /\ fields_agree Nx Ny Nz n i j k (sH s) (sH s') /\
    fields_agree Nx Ny Nz n i j k (sJ s) (sJ s').
  (** Two histories with [n] steps that differ only outside the light cone of (i,j,k): a value
      written with [m] steps to go may differ only more than [m] cells away. *)
  Inductive cone (Nx Ny Nz i j k : nat) : nat -> list (op T) -> list (op T) -> Prop :=
  | cone_nil : cone Nx Ny Nz i j k 0 [] []
  | cone_step : forall n h h', cone Nx Ny Nz i j k n h h' ->
      cone Nx Ny Nz i j k (S n) (OStep :: h) (OStep :: h')
  | cone_E : forall n l l' h h', arrs_agree Nx Ny Nz n i j k l l' -> cone Nx Ny Nz i j k n h h' ->
      cone Nx Ny Nz i j k n (OWriteE l :: h) (OWriteE l' :: h')
  | cone_H : forall n l l' h h', arrs_agree Nx Ny Nz n i j k l l' -> cone Nx Ny Nz i j k n h h' ->
      cone Nx Ny Nz i j k n (OWriteH l :: h) (OWriteH l' :: h')
  | cone_J : forall n l l' h h', arrs_agree Nx Ny Nz n i j k l l' -> cone Nx Ny Nz i j k n h h' ->
      cone Nx Ny Nz i j k n (OWriteJ l :: h) (OWriteJ l' :: h').
End SolverSpec.

Section RestartSpec.
  Context {T : Type} {NT : Num T}.

  Definition same_fields (s t : Solver T) : Prop := sE s = sE t /\ sH s = sH t /\ sJ s = sJ t.

  (** Entries past the last edge / face of the physical domain: an edge that starts on the last
      node of its own axis, a face that starts on the last node of one of its two axes. *)
  Definition ghost_edge (Nx Ny Nz d i j k : nat) : Prop := coord d i j k = dim d Nx Ny Nz - 1.
  Definition ghost_face (Nx Ny Nz d i j k : nat) : Prop :=
    exists a, a < 3 /\ a <> d /\ coord a i j k = dim a Nx Ny Nz - 1.

  Definition ghosts_zero (Nx Ny Nz : nat) (E H : nat -> nat -> nat -> nat -> T) : Prop :=
    forall d i j k, in_box Nx Ny Nz d i j k ->
      (ghost_edge Nx Ny Nz d i j k -> E d i j k = nzero) /\
      (ghost_face Nx Ny Nz d i j k -> H d i j k = nzero).

  (** What is written before the first step of the history leaves the ghost entries zero. *)
  Fixpoint clean_start (Nx Ny Nz : nat) (h : list (op T)) : Prop :=
    match h with
    | [] | OStep :: _ => True
    | OWriteE l :: r => ghosts_zero Nx Ny Nz (written Nx Ny Nz l) (fun _ _ _ _ => nzero) /\ clean_start Nx Ny Nz r
    | OWriteH l :: r => ghosts_zero Nx Ny Nz (fun _ _ _ _ => nzero) (written Nx Ny Nz l) /\ clean_start Nx Ny Nz r
    | OLoad f :: r => ghosts_zero Nx Ny Nz (written Nx Ny Nz (stE f)) (written Nx Ny Nz (stH f)) /\
                      clean_start Nx Ny Nz r
    | (OWriteJ _ | OReset) :: r => clean_start Nx Ny Nz r
    end.

  (** Equal on every entry of the physical domain. *)
  Definition same_inside (Nx Ny Nz : nat) (s t : Solver T) : Prop :=
    forall d i j k, in_box Nx Ny Nz d i j k ->
      (~ ghost_edge Nx Ny Nz d i j k ->
        entry (sE s) d i j k = entry (sE t) d i j k /\ entry (sJ s) d i j k = entry (sJ t) d i j k) /\
      (~ ghost_face Nx Ny Nz d i j k -> entry (sH s) d i j k = entry (sH t) d i j k).

  (** The two updates run backwards: E before the step from E', H' and the current, then H. *)
  Definition undoE (s : Solver T) (dt : T) (e' h' J : list T) : list T :=
    vsub e' (vscale dt (vsub (mvec (List.length e') (smE s) h') (vmul (toarray (sieps s)) J))).
  Definition undoH (s : Solver T) (dt : T) (e h' : list T) : list T :=
    vadd h' (vscale dt (mvec (List.length e) (smH s) e)).
End RestartSpec.

Section MaterialSpec.
  Context {T : Type} {NT : Num T}.

  (** The solid's mask marks cell (i,j,k); masks are flattened with the last index fastest. *)
  Definition marked (Ny Nz : nat) (so : solid T) (i j k : nat) : Prop :=
    nth (k + Nz * (j + Ny * i)) (so_mask so) false = true.

  (** [m] is the material of cell (i,j,k): of the last solid of the list that covers it, or the
      background [bg] when none does. *)
  Definition decides (Ny Nz : nat) (bg : material T) (solids : list (solid T)) (i j k : nat) (m : material T) : Prop :=
    (exists before so after, solids = before ++ so :: after /\ marked Ny Nz so i j k /\
       (forall t, In t after -> ~ marked Ny Nz t i j k) /\ m = so_mat so) \/
    ((forall t, In t solids -> ~ marked Ny Nz t i j k) /\ m = bg).

  (** Inverse of a relative material value times its unit; zero for an infinite one. *)
  Definition is_inverse (v : T) (x : ext_num T) (unit : T) : Prop :=
    match x with Fin r => v = ndiv none_ (nmul r unit) | Inf => v = nzero end.
End MaterialSpec.

(** Two spellings of a boundary name that differ in letter case only, [pmc] being spelt the same. *)
Definition recased (s t : string) : Prop := lower s = lower t /\ (lower s = "pmc"%string -> s = t).
Definition recased3 (b b' : bc3) : Prop := forall a, a < 3 -> recased (bc_at b a) (bc_at b' a).
Definition with_names {T} (ar : Args T) (bl bh : bc3) : Args T :=
  {| ar_bl := bl; ar_bh := bh; ar_bg := ar_bg ar; ar_solids := ar_solids ar; ar_npml := ar_npml ar;
     ar_cfln := ar_cfln ar; ar_dt := ar_dt ar; ar_mpi := ar_mpi ar |}.

Section MaxwellSpec.
  Context {T : Type} {NT : Num T}.
  (** Voltage along an edge: edge length times E, nothing along an edge of an electric wall. *)
  Definition voltage (g : Grid T) (s : Solver T) (V : nat -> nat -> nat -> nat -> T) : Prop :=
    forall d i j k, in_box (gNx g) (gNy g) (gNz g) d i j k ->
      (electric_wall (sbl s) (sbh s) (gNx g) (gNy g) (gNz g) d i j k -> V d i j k = nzero) /\
      (~ electric_wall (sbl s) (sbh s) (gNx g) (gNy g) (gNz g) d i j k ->
         V d i j k = nmul (entry (gL g) d i j k) (entry (sE s) d i j k)).
  (** Sum of the voltages around the face (d; i,j,k), right-handed about +d. *)
  Definition around_face (V : nat -> nat -> nat -> nat -> T) (d i j k : nat) : T :=
    match d with
    | 0 => nsub (nsub (V 2 i (S j) k) (V 2 i j k)) (nsub (V 1 i j (S k)) (V 1 i j k))
    | 1 => nsub (nsub (V 0 i j (S k)) (V 0 i j k)) (nsub (V 2 (S i) j k) (V 2 i j k))
    | _ => nsub (nsub (V 1 (S i) j k) (V 1 i j k)) (nsub (V 0 i (S j) k) (V 0 i j k))
    end.
  (** Sum of dual-edge quantities around the primal edge (d; i,j,k), right-handed about +d. *)
  Definition around_edge (U : nat -> nat -> nat -> nat -> T) (d i j k : nat) : T :=
    match d with
    | 0 => nsub (nsub (U 2 i j k) (U 2 i (j - 1) k)) (nsub (U 1 i j k) (U 1 i j (k - 1)))
    | 1 => nsub (nsub (U 0 i j k) (U 0 i j (k - 1))) (nsub (U 2 i j k) (U 2 (i - 1) j k))
    | _ => nsub (nsub (U 1 i j k) (U 1 (i - 1) j k)) (nsub (U 0 i j k) (U 0 i (j - 1) k))
    end.
  (** The face (d; i,j,k) has all its edges stored. *)
  Definition full_face (Nx Ny Nz d i j k : nat) : Prop :=
    in_box Nx Ny Nz d i j k /\ forall a, a < 3 -> a <> d -> S (coord a i j k) < dim a Nx Ny Nz.
  (** The edge (d; i,j,k) has all its dual edges stored. *)
  Definition full_edge (Nx Ny Nz d i j k : nat) : Prop :=
    in_box Nx Ny Nz d i j k /\ forall a, a < 3 -> a <> d -> 0 < coord a i j k.
End MaxwellSpec.
