(** The renaming of CST exports before they are read, wakis/wakeSolver.py read_cst_3d (1538-1585).

    A directory is the list of its files, names without the path (which ends in a slash), each with its content, in the
    order glob gives them.  [num] is float() of a string, [show] is str() of a float.  glob's patterns are "*" followed by
    a fixed ending; names beginning with a dot are not modelled. *)
From Coq Require Import List Arith ZArith Bool String Ascii.
From Verif Require Import Num Vec FieldModel GridModel SolverModel WakeModel.
Import ListNotations.
Open Scope string_scope.

(** s.split(c) for one character *)
Fixpoint split (c : ascii) (s : string) : list string :=
  match s with
  | "" => [""]
  | String d r =>
      if Ascii.eqb d c then "" :: split c r
      else match split c r with x :: l => String d x :: l | [] => [String d ""] end
  end.
(** The names that glob.glob("*" + suf) finds. *)
Fixpoint ends (suf s : string) : bool :=
  String.eqb s suf || match s with "" => false | String _ r => ends suf r end.

Section CstName.
  Context {T : Type} {NT : Num T} {C : Type} (num : string -> option T) (show : T -> string).
  Definition dir : Type := list (string * C).
  Fixpoint look (n : string) (d : dir) : option C :=
    match d with [] => None | (k, c) :: r => if String.eqb k n then Some c else look n r end.
  Definition drop (n : string) (d : dir) : dir := List.filter (fun e => negb (String.eqb (fst e) n)) d.
  (** Writing a file replaces one of the same name; so does os.rename. *)
  Definition put (n : string) (c : C) (d : dir) : dir := (drop n d ++ [(n, c)])%list.
  Definition glob (suf : string) (d : dir) : list string := List.filter (ends suf) (map fst d).

  (** The body of the three loops (1542-1550, 1552-1560, 1562-1570): the new name, then the copy and the move. *)
  Definition new_name (sep : ascii) (f : T -> T) (n : string) : result string :=
    let title := split "_"%char n in
    do t0 <- some IndexError (nth_error title 0);
    do t1 <- some IndexError (nth_error title 1);
    do m <- some IndexError (nth_error (split sep t1) 0);
    do x <- some ValueError (num m);
    Ok (t0 ++ "_" ++ show (f x) ++ ".txt").
  Definition rename1 (sep : ascii) (f : T -> T) (d : dir) (n : string) : result dir :=
    do n' <- new_name sep f n;
    do c <- some OtherException (look n d);
    Ok (put n' c (drop n (put (n ++ ".old") c d))).
  Fixpoint rename_each (sep : ascii) (f : T -> T) (d : dir) (ns : list string) : result dir :=
    match ns with [] => Ok d | n :: r => do d <- rename1 sep f d n; rename_each sep f d r end.
  Definition rename_all (d : dir) : result dir :=
    do d <- rename_each "E"%char (fun x => ndiv x (nofnat 100)) d (glob "E-02.txt" d);
    do d <- rename_each "E"%char (fun x => ndiv x (nofnat 1000)) d (glob "E-03.txt" d);
    rename_each "."%char (fun x => x) d (glob "_0.txt" d).
End CstName.
