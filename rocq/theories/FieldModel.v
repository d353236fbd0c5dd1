(** Model of /repo/wakis/field.py (class Field, CPU path).

    A Field is its three sizes and the flat array [array] of length 3*N
    (field.py:56-75).  The GPU path (cupy) is the same algebra and is not modelled.
    NumPy basic indexing (integers and slices, broadcasting of the assigned value)
    is written out below; boolean/fancy indices are not modelled. *)
From Coq Require Import List Arith ZArith Bool String Lia.
From Verif Require Import Num Vec.
Import ListNotations.

(** ** Python / NumPy index resolution *)

(** One axis index: an integer or a slice [start:stop:step]. *)
Inductive ikey : Type :=
| KI (z : Z)
| KS (start stop step : option Z).

Definition kfull : ikey := KS None None None.          (* [:] *)
Definition krange (a b : Z) : ikey := KS (Some a) (Some b) None.  (* [a:b] *)

(** CPython slice.indices(d), step > 0 and step < 0 branches. *)
Definition clip_pos (d z : Z) : Z :=
  let z' := if (z <? 0)%Z then (z + d)%Z else z in
  if (z' <? 0)%Z then 0%Z else if (d <? z')%Z then d else z'.
Definition clip_neg (d z : Z) : Z :=
  let z' := if (z <? 0)%Z then (z + d)%Z else z in
  if (z' <? 0)%Z then (-1)%Z else if (d <=? z')%Z then (d - 1)%Z else z'.

Definition slice_count (start stop step : Z) : Z :=
  if (0 <? step)%Z then
    if (start <? stop)%Z then ((stop - start - 1) / step + 1)%Z else 0%Z
  else
    if (stop <? start)%Z then ((start - stop - 1) / (- step) + 1)%Z else 0%Z.

Definition slice_list (start step : Z) (n : nat) : list nat :=
  tab n (fun m => Z.to_nat (start + step * Z.of_nat m)).

(** Selected positions of an axis of length [d].  Integer out of range: IndexError;
    zero step: ValueError. *)
Definition resolve (d : nat) (k : ikey) : result (list nat) :=
  let dz := Z.of_nat d in
  match k with
  | KI z =>
      if ((- dz <=? z) && (z <? dz))%Z%bool
      then Ok [Z.to_nat (if (z <? 0)%Z then z + dz else z)%Z]
      else Err IndexError
  | KS a b s =>
      let step := match s with Some st => st | None => 1%Z end in
      if (step =? 0)%Z then Err ValueError
      else if (0 <? step)%Z then
        let start := match a with Some z => clip_pos dz z | None => 0%Z end in
        let stop := match b with Some z => clip_pos dz z | None => dz end in
        Ok (slice_list start step (Z.to_nat (slice_count start stop step)))
      else
        let start := match a with Some z => clip_neg dz z | None => (dz - 1)%Z end in
        let stop := match b with Some z => clip_neg dz z | None => (-1)%Z end in
        Ok (slice_list start step (Z.to_nat (slice_count start stop step)))
  end.

(** An integer index drops its axis from the result shape. *)
Definition kept (k : ikey) : bool := match k with KI _ => false | KS _ _ _ => true end.

(** Position of [i] in a selection (selections of one slice have no duplicates). *)
Fixpoint pos_of (i : nat) (l : list nat) : option nat :=
  match l with
  | [] => None
  | x :: r => if Nat.eqb x i then Some 0 else option_map S (pos_of i r)
  end.

(** Keep the entries whose axis is kept. *)
Definition keep3 {A} (kx ky kz : ikey) (a b c : A) : list A :=
  (if kept kx then [a] else []) ++ (if kept ky then [b] else []) ++
  (if kept kz then [c] else []).

(** ** Arrays with a shape, C-order storage *)
Record ndarray (T : Type) : Type := { shape : list nat; dat : list T }.
Arguments shape {T}. Arguments dat {T}.
Arguments Build_ndarray {T}.

Definition size_of (s : list nat) : nat := fold_right Nat.mul 1 s.

(** Broadcasting (NumPy): shapes aligned on the right; value extents equal or 1;
    extra leading extents of the value must be 1. Reversed lists. *)
Fixpoint bcompat (rval rsel : list nat) : bool :=
  match rval, rsel with
  | [], _ => true
  | d :: v, e :: s => ((d =? 1) || (d =? e)) && bcompat v s
  | d :: v, [] => (d =? 1) && bcompat v []
  end.

Fixpoint bflat (rval ridx : list nat) (stride : nat) : nat :=
  match rval, ridx with
  | d :: v, i :: x => (if d =? 1 then 0 else i) * stride + bflat v x (stride * d)
  | _, _ => 0
  end.

Section FieldModel.
  Context {T : Type} {NT : Num T}.

  Inductive value : Type :=
  | VNum (x : T)                 (* Python / 0-d number *)
  | VArr (a : ndarray T).

  Definition bcast_ok (v : value) (sel : list nat) : bool :=
    match v with
    | VNum _ => true
    | VArr a => bcompat (rev (shape a)) (rev sel)
    end.

  (** Value seen at multi-index [idx] of the selection. *)
  Definition bget (v : value) (idx : list nat) : T :=
    match v with
    | VNum x => x
    | VArr a => get (dat a) (bflat (rev (shape a)) (rev idx) 1)
    end.

  (** ** The Field object, field.py:56-75 *)
  Record Field : Type := { fNx : nat; fNy : nat; fNz : nat; farr : list T }.

  Definition fN (F : Field) : nat := fNx F * fNy F * fNz F.

  (** __init__ with use_ones False/True. *)
  Definition field_zeros (Nx Ny Nz : nat) : Field :=
    {| fNx := Nx; fNy := Ny; fNz := Nz; farr := tab (Nx * Ny * Nz * 3) (fun _ => nzero) |}.
  Definition field_ones (Nx Ny Nz : nat) : Field :=
    {| fNx := Nx; fNy := Ny; fNz := Nz; farr := tab (Nx * Ny * Nz * 3) (fun _ => none_) |}.

  Definition with_arr (F : Field) (a : list T) : Field :=
    {| fNx := fNx F; fNy := fNy F; fNz := fNz F; farr := a |}.

  (** Component keys: 0/1/2 or 'x'/'y'/'z' (field.py:152-165). *)
  Inductive ckey : Type := CInt (z : Z) | CStr (s : string) | COther.

  Definition comp_of (c : ckey) : option nat :=
    match c with
    | CInt z => if (z =? 0)%Z then Some 0 else if (z =? 1)%Z then Some 1
                else if (z =? 2)%Z then Some 2 else None
    | CStr s => if String.eqb s "x" then Some 0 else if String.eqb s "y" then Some 1
                else if String.eqb s "z" then Some 2 else None
    | COther => None
    end.

  (** A 3-D matrix in C-order storage. *)
  Record mat3 : Type := { m0 : nat; m1 : nat; m2 : nat; mdat : list T }.
  Definition mget (m : mat3) (i j k : nat) : T :=
    get (mdat m) ((i * m1 m + j) * m2 m + k).
  Definition mtab (d0 d1 d2 : nat) (f : nat -> nat -> nat -> T) : mat3 :=
    {| m0 := d0; m1 := d1; m2 := d2;
       mdat := tab (d0 * d1 * d2) (fun p => f (p / (d1 * d2)) ((p / d2) mod d1) (p mod d2)) |}.

  (** to_matrix (field.py:138-165): np.reshape(array[c*N:(c+1)*N], (Nx,Ny,Nz), order="F");
      returns None for an unknown component. *)
  Definition to_matrix_c (F : Field) (c : nat) : mat3 :=
    mtab (fNx F) (fNy F) (fNz F)
         (fun i j k => get (farr F) (c * fN F + (i + fNx F * (j + fNy F * k)))).
  Definition to_matrix (F : Field) (c : ckey) : option mat3 :=
    option_map (to_matrix_c F) (comp_of c).

  (** np.reshape(mat, N, order="F"): entry n of the Fortran-order flattening. *)
  Definition f_flat (m : mat3) (n : nat) : T :=
    mget m (n mod m0 m) ((n / m0 m) mod m1 m) (n / (m0 m * m1 m)).

  (** from_matrix (field.py:167-187): reshape raises ValueError on a size mismatch,
      unknown component raises IndexError. *)
  Definition from_matrix_c (F : Field) (m : mat3) (c : nat) : result Field :=
    if Nat.eqb (m0 m * m1 m * m2 m) (fN F) then
      Ok (with_arr F (tab (List.length (farr F)) (fun n =>
            if Nat.eqb (n / fN F) c then f_flat m (n mod fN F) else get (farr F) n)))
    else Err ValueError.
  Definition from_matrix (F : Field) (m : mat3) (c : ckey) : result Field :=
    match comp_of c with
    | Some c => from_matrix_c F m c
    | None => Err IndexError
    end.

  (** toarray / fromarray (field.py:116-136): [self.array[:] = array]; broadcasting of a
      length-1 array, any other length mismatch is a ValueError. *)
  Definition toarray (F : Field) : list T := farr F.
  Definition fromarray (F : Field) (a : list T) : result Field :=
    if Nat.eqb (List.length a) (List.length (farr F)) then Ok (with_arr F a)
    else if Nat.eqb (List.length a) 1
         then Ok (with_arr F (tab (List.length (farr F)) (fun _ => get a 0)))
         else Err ValueError.

  (** ** Reading and assigning a matrix with three axis keys *)
  Definition mat_getitem (m : mat3) (kx ky kz : ikey) : result (ndarray T) :=
    match resolve (m0 m) kx, resolve (m1 m) ky, resolve (m2 m) kz with
    | Ok sx, Ok sy, Ok sz =>
        let lx := List.length sx in let ly := List.length sy in let lz := List.length sz in
        Ok {| shape := keep3 kx ky kz lx ly lz;
              dat := tab (lx * ly * lz) (fun p =>
                       mget m (nth (p / (ly * lz)) sx 0) (nth ((p / lz) mod ly) sy 0)
                              (nth (p mod lz) sz 0)) |}
    | Err e, _, _ => Err e
    | _, Err e, _ => Err e
    | _, _, Err e => Err e
    end.

  Definition mat_setitem (m : mat3) (kx ky kz : ikey) (v : value) : result mat3 :=
    match resolve (m0 m) kx, resolve (m1 m) ky, resolve (m2 m) kz with
    | Ok sx, Ok sy, Ok sz =>
        if bcast_ok v (keep3 kx ky kz (List.length sx) (List.length sy) (List.length sz)) then
          Ok (mtab (m0 m) (m1 m) (m2 m) (fun i j k =>
                match pos_of i sx, pos_of j sy, pos_of k sz with
                | Some a, Some b, Some c => bget v (keep3 kx ky kz a b c)
                | _, _, _ => mget m i j k
                end))
        else Err ValueError
    | Err e, _, _ => Err e
    | _, Err e, _ => Err e
    | _, _, Err e => Err e
    end.

  (** Keys of __getitem__/__setitem__.  [KOtherKey] is any key whose type is neither
      tuple, int nor slice (for instance a NumPy integer). *)
  Inductive key : Type :=
  | KTup (kx ky kz : ikey) (c : ckey)
  | KTupBad                                   (* tuple whose length is not 4 *)
  | KInt (z : Z)
  | KSlice (a b s : option Z)
  | KOtherKey.

  Definition lower_ascii (a : Ascii.ascii) : Ascii.ascii :=
    let n := Ascii.nat_of_ascii a in
    if andb (65 <=? n) (n <=? 90) then Ascii.ascii_of_nat (n + 32) else a.
  Fixpoint lower (s : string) : string :=
    match s with
    | EmptyString => EmptyString
    | String a r => String (lower_ascii a) (lower r)
    end.

  Definition is_abs (c : ckey) : bool :=
    match c with CStr s => String.eqb (lower s) "abs" | _ => false end.

  (** get_abs (field.py:529-563), parametrised by the square root of the number type. *)
  Definition get_abs (sqrt : T -> T) (F : Field) : mat3 :=
    let X := to_matrix_c F 0 in let Y := to_matrix_c F 1 in let Z := to_matrix_c F 2 in
    mtab (fNx F) (fNy F) (fNz F) (fun i j k =>
      sqrt (mget X i j k * mget X i j k + mget Y i j k * mget Y i j k
            + mget Z i j k * mget Z i j k)%num).

  (** __getitem__ (field.py:220-304).  The integer guard is [key <= self.N]. *)
  Definition getitem (sqrt : T -> T) (F : Field) (k : key) : result (ndarray T) :=
    match k with
    | KTup kx ky kz c =>
        match to_matrix F c with
        | Some m => mat_getitem m kx ky kz
        | None => if is_abs c then mat_getitem (get_abs sqrt F) kx ky kz
                  else Err IndexError
        end
    | KTupBad => Err IndexError
    | KInt z =>
        if (z <=? Z.of_nat (fN F))%Z then
          match resolve (List.length (farr F)) (KI z) with
          | Ok [n] => Ok {| shape := []; dat := [get (farr F) n] |}
          | Ok _ => Err OtherException
          | Err e => Err e
          end
        else Err IndexError
    | KSlice a b s =>
        match resolve (List.length (farr F)) (KS a b s) with
        | Ok l => Ok {| shape := [List.length l];
                        dat := tab (List.length l) (fun p => get (farr F) (nth p l 0)) |}
        | Err e => Err e
        end
    | KOtherKey => Err ValueError
    end.

  (** __setitem__ (field.py:306-341).  An unknown component makes to_matrix return
      None, and [None[...] = value] raises TypeError. *)
  Definition setitem (F : Field) (k : key) (v : value) : result Field :=
    match k with
    | KTup kx ky kz c =>
        match to_matrix F c with
        | None => Err TypeError
        | Some m => do m' <- mat_setitem m kx ky kz v; from_matrix F m' c
        end
    | KTupBad => Err IndexError
    | KInt z =>
        if (z <=? Z.of_nat (fN F))%Z then
          match resolve (List.length (farr F)) (KI z) with
          | Ok [n] => if bcast_ok v [] then Ok (with_arr F (upd (farr F) n (bget v [])))
                      else Err ValueError
          | Ok _ => Err OtherException
          | Err e => Err e
          end
        else Err IndexError
    | KSlice a b s =>
        match resolve (List.length (farr F)) (KS a b s) with
        | Ok l => if bcast_ok v [List.length l] then
                    Ok (with_arr F (tab (List.length (farr F)) (fun n =>
                          match pos_of n l with
                          | Some p => bget v [p]
                          | None => get (farr F) n
                          end)))
                  else Err ValueError
        | Err e => Err e
        end
    | KOtherKey => Err IndexError
    end.

  (** What __setitem__ leaves behind, error or not: [field = self.to_matrix(c)] is a
      view of the array (a Fortran reshape of a contiguous slice), so
      [field[...] = value] already writes the array, and only then from_matrix runs
      (field.py:325-329).  NumPy checks indices and shapes before writing. *)
  Definition write_view (F : Field) (c : nat) (m : mat3) : Field :=
    with_arr F (tab (List.length (farr F)) (fun n =>
      if Nat.eqb (n / fN F) c then f_flat m (n mod fN F) else get (farr F) n)).

  Definition setitem_st (F : Field) (k : key) (v : value) : Field * option exn :=
    match k with
    | KTup kx ky kz c =>
        match comp_of c with
        | None => (F, Some TypeError)
        | Some cn =>
            match mat_setitem (to_matrix_c F cn) kx ky kz v with
            | Err e => (F, Some e)
            | Ok m' =>
                let F1 := write_view F cn m' in
                match from_matrix F1 (to_matrix_c F1 cn) c with
                | Ok F2 => (F2, None)
                | Err e => (F1, Some e)
                end
            end
        end
    | _ => match setitem F k v with Ok F' => (F', None) | Err e => (F, Some e) end
    end.

  (** field_x/y/z getters and setters (field.py:77-114). *)
  Definition field_c (F : Field) (c : nat) : list T :=
    tab (fN F) (fun m => get (farr F) (c * fN F + m)).
  Definition set_field_c (F : Field) (c : nat) (v : ndarray T) : result Field :=
    if (1 <? List.length (shape v)) then
      match shape v with
      | [d0; d1; d2] =>
          from_matrix_c F {| m0 := d0; m1 := d1; m2 := d2; mdat := dat v |} c
      | _ => Err OtherException      (* 2-D or >3-D input, not modelled *)
      end
    else if bcast_ok (VArr v) [fN F] then
      Ok (with_arr F (tab (List.length (farr F)) (fun n =>
            if Nat.eqb (n / fN F) c then bget (VArr v) [n mod fN F]
            else get (farr F) n)))
    else Err ValueError.

  (** ** Arithmetic (field.py:343-453) *)
  Inductive operand : Type :=
  | ONum (x : T)             (* Python int or float *)
  | OArr (a : ndarray T)     (* NumPy array or NumPy scalar (shape []) *)
  | OField (F : Field).

  (** [self.to_matrix(d) op other] followed by from_matrix, for d in x,y,z. *)
  Definition arith_matrix (op : T -> T -> T) (F : Field) (a : ndarray T) : result Field :=
    if bcast_ok (VArr a) [fNx F; fNy F; fNz F] then
      let r := field_zeros (fNx F) (fNy F) (fNz F) in
      let mk c := mtab (fNx F) (fNy F) (fNz F)
                       (fun i j k => op (mget (to_matrix_c F c) i j k) (bget (VArr a) [i; j; k])) in
      do r0 <- from_matrix_c r (mk 0) 0;
      do r1 <- from_matrix_c r0 (mk 1) 1;
      from_matrix_c r1 (mk 2) 2
    else Err ValueError.

  (** [self.array op other] with a 1-D or 0-d array. *)
  Definition arith_flat (op : T -> T -> T) (F : Field) (a : ndarray T) : result Field :=
    if bcast_ok (VArr a) [List.length (farr F)] then
      Ok (with_arr F (tab (List.length (farr F)) (fun n => op (get (farr F) n) (bget (VArr a) [n]))))
    else Err ValueError.

  Definition arith_scalar (op : T -> T -> T) (F : Field) (x : T) : Field :=
    with_arr F (tab (List.length (farr F)) (fun n => op (get (farr F) n) x)).

  Definition fmul (F : Field) (o : operand) : result Field :=
    match o with
    | ONum x => Ok (arith_scalar nmul F x)
    | OArr a => if (1 <? List.length (shape a)) then arith_matrix nmul F a
                else arith_flat nmul F a
    | OField _ => Err AttributeError      (* Field has no attribute shape *)
    end.

  (** __div__ (field.py:380-415): the second test is an [if], not [elif], so a Python
      number reaches [other.shape] and raises AttributeError. *)
  Definition fdiv (F : Field) (o : operand) : result Field :=
    match o with
    | ONum _ => Err AttributeError
    | OArr a => if (1 <? List.length (shape a)) then arith_matrix ndiv F a
                else arith_flat ndiv F a
    | OField _ => Err AttributeError
    end.

  (** The operator [F / x]: Python 3 looks up __truediv__, which Field does not define
      (field.py:380 defines the Python 2 name __div__), so it is a TypeError. *)
  Definition ftruediv (F : Field) (o : operand) : result Field := Err TypeError.

  (** __add__ (field.py:417-453): no branch for Python numbers. *)
  Definition fadd (F : Field) (o : operand) : result Field :=
    match o with
    | OField G =>
        let r := field_zeros (fNx F) (fNy F) (fNz F) in
        let add c := fun r : Field =>
          if (Nat.eqb (fN G) (fN F) || Nat.eqb (fN G) 1)%bool then
            set_field_c r c
              {| shape := [fN F];
                 dat := tab (fN F) (fun m => nadd (get (field_c F c) m)
                          (get (field_c G c) (if Nat.eqb (fN G) (fN F) then m else 0))) |}
          else Err ValueError in
        do r0 <- add 0 r; do r1 <- add 1 r0; add 2 r1
    | OArr a => if (1 <? List.length (shape a)) then arith_matrix nadd F a
                else arith_flat nadd F a
    | ONum _ => Err AttributeError
    end.

  (** get_abs(as_matrix=False) (field.py:557-563). *)
  Definition get_abs_flat (sqrt : T -> T) (F : Field) : list T :=
    tab (fN F) (fun m =>
      sqrt (get (field_c F 0) m * get (field_c F 0) m + get (field_c F 1) m * get (field_c F 1) m
            + get (field_c F 2) m * get (field_c F 2) m)%num).

  (** copy (field.py:481-502): a new object with a deep copy of the array. *)
  Definition copy (F : Field) : Field :=
    {| fNx := fNx F; fNy := fNy F; fNz := fNz F; farr := farr F |}.

  (** compute_ijk (field.py:504-527): guard [n > self.N]. *)
  Definition compute_ijk (F : Field) (n : nat) : result (nat * nat * nat) :=
    if (fN F <? n) then Err IndexError
    else
      let k := n / (fNx F * fNy F) in
      let i := (n - k * fNx F * fNy F) mod fNx F in
      let j := (n - k * fNx F * fNy F) / fNx F in
      Ok (i, j, k).

  (** ** Object identity: fields as references to arrays in a heap.

      Needed to say that two fields do or do not share storage.  A heap is a list of
      arrays; an object is three sizes and the address of its array. *)
  Record obj : Type := { oNx : nat; oNy : nat; oNz : nat; oaddr : nat }.
  Record store : Type := { heap : list (list T); objs : list obj }.

  Definition load (s : store) (o : obj) : Field :=
    {| fNx := oNx o; fNy := oNy o; fNz := oNz o; farr := nth (oaddr o) (heap s) [] |}.
  Definition put (s : store) (a : nat) (v : list T) : store :=
    {| heap := tab (List.length (heap s))
                   (fun n => if Nat.eqb n a then v else nth n (heap s) []);
       objs := objs s |}.
  Definition alloc (s : store) (F : Field) : store :=
    {| heap := heap s ++ [farr F];
       objs := objs s ++ [{| oNx := fNx F; oNy := fNy F; oNz := fNz F;
                             oaddr := List.length (heap s) |}] |}.

  (** Operations of a program holding fields in variables 0, 1, 2, ... *)
  Inductive hop : Type :=
  | HNew (Nx Ny Nz : nat)                    (* Field(Nx, Ny, Nz)               :56 *)
  | HCopy (x : nat)                          (* x.copy()                        :481 *)
  | HSet (x : nat) (k : key) (v : value)     (* x[k] = v                        :306 *)
  | HFromMatrix (x : nat) (m : mat3) (c : ckey) (* x.from_matrix(m, c)          :167 *)
  | HFromArray (x : nat) (a : list T)        (* x.fromarray(a)                  :127 *)
  | HFromField (x y : nat)                   (* x.fromarray(y.toarray())        :116,127 *)
  | HMul (x : nat) (a : T)                   (* x * a                           :343 *)
  | HAdd (x y : nat).                        (* x + y                           :417 *)

  (** In-place write of object [o]; on an exception the array is as [setitem_st] or the
      failing call left it. *)
  Definition hwrite (s : store) (o : obj) (r : result Field) : store :=
    match r with Ok F' => put s (oaddr o) (farr F') | Err _ => s end.
  Definition hnew (s : store) (r : result Field) : store :=
    match r with Ok F' => alloc s F' | Err _ => s end.

  Definition hstep (s : store) (op : hop) : store :=
    let var x := nth_error (objs s) x in
    match op with
    | HNew Nx Ny Nz => alloc s (field_zeros Nx Ny Nz)
    | HCopy x => match var x with Some o => alloc s (copy (load s o)) | None => s end
    | HSet x k v =>
        match var x with
        | Some o => put s (oaddr o) (farr (fst (setitem_st (load s o) k v)))
        | None => s
        end
    | HFromMatrix x m c =>
        match var x with Some o => hwrite s o (from_matrix (load s o) m c) | None => s end
    | HFromArray x a =>
        match var x with Some o => hwrite s o (fromarray (load s o) a) | None => s end
    | HFromField x y =>
        match var x, var y with
        | Some o, Some o' => hwrite s o (fromarray (load s o) (toarray (load s o')))
        | _, _ => s
        end
    | HMul x a => match var x with Some o => hnew s (fmul (load s o) (ONum a)) | None => s end
    | HAdd x y =>
        match var x, var y with
        | Some o, Some o' => hnew s (fadd (load s o) (OField (load s o')))
        | _, _ => s
        end
    end.

  Definition hrun (ops : list hop) : store :=
    fold_left hstep ops {| heap := []; objs := [] |}.

  (** The variable an operation writes in place, if any. *)
  Definition hwrites (op : hop) : option nat :=
    match op with
    | HSet x _ _ | HFromMatrix x _ _ | HFromArray x _ | HFromField x _ => Some x
    | _ => None
    end.
End FieldModel.

Arguments Field T : clear implicits.
Arguments mat3 T : clear implicits.
Arguments value T : clear implicits.
Arguments operand T : clear implicits.
Arguments store T : clear implicits.
Arguments hop T : clear implicits.
