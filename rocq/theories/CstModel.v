(** Reading the text files that CST exports, wakis/wakeSolver.py read_cst_3d (1517-1688).

    A file is its name and its lines; a line is the list of its words.  [num] is float() of a word, [stamp] float() of the
    part of a name between its first underscore and ".txt" (None when either fails).  The files come in the order of
    their names, after the renaming of 1542-1573.  The quotients rows / n**2 and rows / n are floats in the code; they
    are floored here, which is the same below 2^53 rows.  An array is the function of its indices.  Not modelled:
    the renaming, printing, an existing output file (deleted first). *)
From Coq Require Import List Arith ZArith Bool String.
From Verif Require Import Num Vec FieldModel GridModel SolverModel WakeModel.
Import ListNotations.

Section Cst.
  Context {T : Type} {NT : Num T} {OT : NumOrd T} (num : string -> option T) (stamp : string -> option T).
  Definition line : Type := list string.
  Definition file : Type := (string * list line)%type.

  (** sorted(..., key=sorter), or the order of the names when a number is missing (1575-1585) *)
  Fixpoint insert_file (a : T * file) (l : list (T * file)) : list (T * file) :=
    match l with
    | [] => [a]
    | b :: r => if nltb (fst b) (fst a) then b :: insert_file a r else a :: l
    end.
  Fixpoint stamped (l : list file) : option (list (T * file)) :=
    match l with
    | [] => Some []
    | f :: r => match stamp (fst f), stamped r with Some t, Some r => Some ((t, f) :: r) | _, _ => None end
    end.
  Definition sort_files (l : list file) : list file :=
    match stamped l with Some k => map snd (fold_right insert_file [] k) | None => l end.

  (** Number of transverse cells (1587-1602): the distance of the first row to the next one with the same first word. *)
  Definition first_word (ls : list line) (i : nat) : result string :=
    do l <- some IndexError (nth_error ls i); some IndexError (nth_error l 0).
  Fixpoint count_from (fuel i : nat) (x1 : string) (ls : list line) : result nat :=
    match fuel with
    | 0 => Err IndexError
    | S f => do x2 <- first_word ls (i + 3); if String.eqb x1 x2 then Ok i else count_from f (i + 1) x1 ls
    end.
  Definition transverse (ls : list line) : result nat :=
    do x1 <- first_word ls 3; count_from (List.length ls) 1 x1 ls.

  Record Scan : Type := { sc_E : nat -> nat -> nat -> T; sc_x : nat -> T; sc_y : nat -> T; sc_z : nat -> T }.
  Definition put1 (v : nat -> T) (i : nat) (a : T) : nat -> T := fun p => if p =? i then a else v p.
  Definition word (ws : line) (p : nat) : result T :=
    do s <- some IndexError (nth_error ws p); some ValueError (num s).
  (** One line (1637-1656); a blank line or one of a single word is counted and skipped. *)
  Definition scan_row (n m : nat) (units : T) (row : nat) (ws : line) (st : Scan) : result Scan :=
    if 1 <? List.length ws then
      let k := row / (n * n) in
      let j := row / n - n * k in
      let i := row - j * n - k * (n * n) in
      do v <- word ws 5;
      if m =? 0 then Err IndexError else
      let k := if m <=? k then m - 1 else k in
      do a <- word ws 0; do b <- word ws 1; do c <- word ws 2;
      Ok {| sc_E := fun i' j' k' => if (i' =? i) && (j' =? j) && (k' =? k) then v else sc_E st i' j' k';
            sc_x := put1 (sc_x st) i (nmul a units); sc_y := put1 (sc_y st) j (nmul b units); sc_z := put1 (sc_z st) k (nmul c units) |}
    else Ok st.
  Fixpoint scan_rows (n m : nat) (units : T) (row : nat) (ls : list line) (st : Scan) : result Scan :=
    match ls with
    | [] => Ok st
    | l :: r => do st <- scan_row n m units row l st; scan_rows n m units (row + 1) r st
    end.

  (** "Ez_" + "0" * (5 - int(log10(n))) + str(n) (1658-1663) *)
  Definition set_name (n : nat) : string := ("Ez_" ++ zeros (5 - (String.length (dec n) - 1)) ++ dec n)%string.
  Record Cst : Type := { cs_shape : nat * nat * nat; cs_sets : list (string * (nat -> nat -> nat -> T));
    cs_x : nat -> T; cs_y : nat -> T; cs_z : nat -> T; cs_t : list T }.
  (** The loop over the files (1623-1670): the arrays are kept from one file to the next. [ns] is 1e-9. *)
  Fixpoint scan_files (n m : nat) (units ns : T) (step : nat) (fs : list file) (st : Scan)
    : result (list (string * (nat -> nat -> nat -> T)) * list T * Scan) :=
    match fs with
    | [] => Ok ([], [], st)
    | f :: r =>
        let t := match stamp (fst f) with Some a => nmul a ns | None => nofnat step end in
        do st <- scan_rows n m units 0 (skipn 3 (snd f)) st;
        do q <- scan_files n m units ns (step + 1) r st;
        let '(sets, ts, st') := q in
        Ok ((set_name step, sc_E st) :: sets, t :: ts, st')
    end.
  Definition read_cst (units ns : T) (fs : list file) : result Cst :=
    let fs := sort_files fs in
    do f0 <- some IndexError (nth_error fs 0);
    do n <- transverse (snd f0);
    let m := (List.length (snd f0) - 3) / (n * n) in
    do q <- scan_files n m units ns 0 fs {| sc_E := fun _ _ _ => nzero; sc_x := fun _ => nzero; sc_y := fun _ => nzero; sc_z := fun _ => nzero |};
    let '(sets, ts, st) := q in
    Ok {| cs_shape := (n, n, m); cs_sets := sets; cs_x := sc_x st; cs_y := sc_y st; cs_z := sc_z st; cs_t := ts |}.
End Cst.
Arguments Scan T : clear implicits.
Arguments Cst T : clear implicits.
