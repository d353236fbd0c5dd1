(** Model of the absorbing-wall update (solverFIT3D.py:1003-1100) and of emsolve
    (routines.py:13-218).  Plotting and progress bars are not modelled. *)
From Coq Require Import List Arith ZArith Bool String Lia.
From Verif Require Import Num Vec FieldModel GridModel SolverModel.
Import ListNotations.

(** Dictionary {axis: {name: array}} returned by get_abc.  On the CPU [self.E[1, :, :, d]] is a
    view of the live array (reshape and basic slicing, field.py:236-280) and the update routines
    write that array in place, so an entry is the key it was read with. *)
Definition AbcDict : Type := nat -> option (list (string * key)).
Definition dict_set (D : AbcDict) (a : nat) (v : list (string * key)) : AbcDict :=
  fun b => if b =? a then Some v else D b.
Definition face_name (hi : bool) (d : nat) : string :=
  ((match d with 0 => "x" | 1 => "y" | _ => "z" end) ++ (if hi then "hi" else "lo"))%string.
(** Faces in the order of the code. *)
Definition abc_faces : list (bool * nat) :=
  [(false, 0); (false, 1); (false, 2); (true, 0); (true, 1); (true, 2)].
Definition abc_read (hi : bool) : Z := if hi then (-1)%Z else 1%Z.
Definition abc_write (hi : bool) : Z := if hi then (-1)%Z else 0%Z.

Fixpoint lookup (n : string) (l : list (string * key)) : option key :=
  match l with [] => None | (m, k) :: r => if String.eqb m n then Some k else lookup n r end.

Section RoutinesModel.
  Context {T : Type} {NT : Num T} {OT : NumOrd T}.

  Definition is_abc (s : Solver T) (f : bool * nat) : bool :=
    named (bc_at (if fst f then sbh s else sbl s) (snd f)) "abc".

  (** get_abc (1003-1057).  The high face starts a new inner dictionary for its axis. *)
  Definition get_abc (s : Solver T) : result AbcDict :=
    seq_upd (fun D (f : bool * nat) =>
      if is_abc s f then
        let ks := map (fun d => (face_name (fst f) d, plane_key (snd f) (abc_read (fst f)) d)) axes in
        do _ <- seq_upd (fun _ (p : string * key) => getitem (fun x => x) (sE s) (snd p)) {| shape := []; dat := [] |} ks;
        do _ <- seq_upd (fun _ (p : string * key) => getitem (fun x => x) (sH s) (snd p)) {| shape := []; dat := [] |} ks;
        Ok (dict_set D (snd f) ks)
      else Ok D) (fun _ => None) abc_faces.

  (** One assignment F[wall] = dict[axis][name]: the view is read from the current array. *)
  Definition abc_assign (D : AbcDict) (f : bool * nat) (F : Field T) (d : nat) : result (Field T) :=
    match D (snd f) with
    | None => Err KeyError
    | Some l => match lookup (face_name (fst f) d) l with
                | None => Err KeyError
                | Some k => do v <- getitem (fun x => x) F k;
                            setitem F (plane_key (snd f) (abc_write (fst f)) d) (VArr v)
                end
    end.

  (** update_abc (1059-1100) *)
  Definition update_abc (s : Solver T) (D : AbcDict) : result (Solver T) :=
    seq_upd (fun s (f : bool * nat) =>
      if is_abc s f then
        seq_upd (fun s d =>
          do E <- abc_assign D f (sE s) d;
          do H <- abc_assign D f (sH s) d;
          Ok (with_fields s E H (sJ s))) s axes
      else Ok s) s abc_faces.

  (** emsolve (115-218): [src] is source.update(self, t), [cb] is callback(self, t). *)
  Definition em_iter (src cb : T -> Solver T -> result (Solver T)) (st : Solver T * (AbcDict * AbcDict)) (n : nat)
    : result (Solver T * (AbcDict * AbcDict)) :=
    let '(s, (d2, d1)) := st in
    do s1 <- src (nmul (nofnat n) (sdt s)) s;
    do s2 <- one_step s1;
    do st2 <- (if sabc s2 then
                 do s3 <- update_abc s2 d2; do d <- get_abc s3; Ok (s3, (d1, d))
               else Ok (s2, (d2, d1)));
    do s4 <- cb (nmul (nofnat n) (sdt (fst st2))) (fst st2);
    Ok (s4, snd st2).

  (** The names of the output files (118-127): one per field letter and component. *)
  Definition out_names (fields comps : list string) : list string :=
    flat_map (fun f => if (String.length f =? 1)%nat then map (String.append f) comps else [f]) fields.

  Record EmArgs : Type := {
    em_Nt : nat;
    em_src : T -> Solver T -> result (Solver T);
    em_cb : T -> Solver T -> result (Solver T);
    em_save : option (list string * list string)   (* fields and components when save is set *)
  }.
  (** With save, [for hf in hfs: hf["x"], ... = ...] assigns into the file name, a str (129-132). *)
  Definition emsolve (s : Solver T) (a : EmArgs) : result (Solver T) :=
    do _ <- (match em_save a with
             | Some (fs, cs) => match out_names fs cs with [] => Ok tt | _ => Err TypeError end
             | None => Ok tt end);
    do ds <- (if sabc s then do d2 <- get_abc s; do d1 <- get_abc s; Ok (d2, d1)
              else Ok (fun _ => None, fun _ => None));
    do st <- seq_upd (em_iter (em_src a) (em_cb a)) (s, ds) (seq 0 (em_Nt a));
    Ok (fst st).

  (** No source and no callback. *)
  Definition em_plain (Nt : nat) : EmArgs :=
    {| em_Nt := Nt; em_src := fun _ s => Ok s; em_cb := fun _ s => Ok s; em_save := None |}.
End RoutinesModel.
Arguments EmArgs T : clear implicits.
