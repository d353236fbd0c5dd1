(** STEP file import: wakis/geometry.py.

    A file is the list of its lines; a string is a sequence of 8-bit characters (names with
    characters outside Latin-1 are not modelled).  The regular expressions are written out as
    parsers: in each of them a repeated class is followed by a literal whose first character is
    outside the class, so greedy matching never has to backtrack.  Not modelled: int() accepting
    signs, underscores and inner white space (an item that is not plain digits is a ValueError
    here), float() of "1.2.3" (colours are kept as text), printing. *)
From Coq Require Import List Arith NArith Bool String Ascii DecimalString Decimal.
From Verif Require Import Num Vec FieldModel SolverModel.
Import ListNotations.
Open Scope string_scope.

(** ** re *)
Definition ain (lo hi : nat) (c : ascii) : bool := (lo <=? nat_of_ascii c)%nat && (nat_of_ascii c <=? hi)%nat.
Definition is_digit (c : ascii) : bool := ain 48 57 c.
(** [a-zA-Z0-9_-] *)
Definition safe (c : ascii) : bool := ain 97 122 c || ain 65 90 c || is_digit c || Ascii.eqb c "_" || Ascii.eqb c "-".

(** the literal p at the start: the rest *)
Fixpoint lit (p s : string) : option string :=
  match p, s with
  | EmptyString, _ => Some s
  | String a p, String b s => if Ascii.eqb a b then lit p s else None
  | String _ _, EmptyString => None
  end.
(** the longest prefix in class P, and the rest *)
Fixpoint span (P : ascii -> bool) (s : string) : string * string :=
  match s with
  | EmptyString => ("", "")
  | String c t => if P c then let (a, b) := span P t in (String c a, b) else ("", s)
  end.
Definition span1 (P : ascii -> bool) (s : string) : option (string * string) :=
  match span P s with
  | (EmptyString, _) => None
  | p => Some p
  end.
(** pattern.search: the first start position that matches *)
Fixpoint search {A} (m : string -> option A) (s : string) : option A :=
  match m s with
  | Some a => Some a
  | None => match s with EmptyString => None | String _ t => search m t end
  end.
Notation "'let?' x ':=' e 'in' k" := (match e with Some x => k | None => None end) (at level 200, x pattern, right associativity).

(** geometry.py:138-140, the pattern for ADVANCED_BREP_SHAPE_REPRESENTATION: group 2 (any characters
    but a quote) and group 3 (any characters but a closing bracket). *)
Definition quote : ascii := "'".
Definition not_quote (c : ascii) : bool := negb (Ascii.eqb c quote).
Definition solid_at (s : string) : option (string * string) :=
  let? s := lit "#" s in
  let? (_, s) := span1 is_digit s in
  let? s := lit "=ADVANCED_BREP_SHAPE_REPRESENTATION('" s in
  let (name, s) := span not_quote s in
  let? s := lit "',(" s in
  let (items, s) := span (fun c => negb (Ascii.eqb c ")")) s in
  let? s := lit "),#" s in
  let? (_, s) := span1 is_digit s in
  let? _ := lit ");" s in
  Some (name, items).
(** geometry.py:141-143, the pattern for PRESENTATION_LAYER_ASSIGNMENT: groups 2 and 3 *)
Definition material_at (s : string) : option (string * string) :=
  let? s := lit "#" s in
  let? (_, s) := span1 is_digit s in
  let? s := lit "=PRESENTATION_LAYER_ASSIGNMENT('" s in
  let? (name, s) := span1 not_quote s in
  let? s := lit "','" s in
  let? (_, s) := span1 not_quote s in
  let? s := lit "',(#" s in
  let? (nums, s) := span1 (fun c => is_digit c || Ascii.eqb c "#" || Ascii.eqb c ",") s in
  let? _ := lit "));" s in
  Some (name, nums).
(** geometry.py:24, the pattern for COLOUR_RGB: the three numbers; one quote is optional *)
Definition colour_at (s : string) : option (string * string * string) :=
  let num := span1 (fun c => is_digit c || Ascii.eqb c ".") in
  let? s := lit "#" s in
  let? (_, s) := span1 is_digit s in
  let? s := lit "=COLOUR_RGB('" s in
  let s := match lit "'" s with Some t => t | None => s end in
  let? s := lit "," s in
  let? (r, s) := num s in
  let? s := lit "," s in
  let? (g, s) := num s in
  let? s := lit "," s in
  let? (b, s) := num s in
  let? _ := lit ");" s in
  Some (r, g, b).

(** ** str *)
Fixpoint smap (f : ascii -> ascii) (s : string) : string :=
  match s with EmptyString => "" | String c t => String (f c) (smap f t) end.
(** re.sub(r"[^a-zA-Z0-9_-]", "-", s) *)
Definition sanitise (s : string) : string := smap (fun c => if safe c then c else "-"%char) s.
Fixpoint lstrip (P : ascii -> bool) (s : string) : string :=
  match s with String c t => if P c then lstrip P t else s | EmptyString => "" end.
Fixpoint srev (s acc : string) : string := match s with EmptyString => acc | String c t => srev t (String c acc) end.
Definition rstrip (P : ascii -> bool) (s : string) : string := srev (lstrip P (srev s "")) "".
Definition is_space (c : ascii) : bool := ain 9 13 c || ain 28 32 c || ain 133 133 c || ain 160 160 c.
Definition is_hash (c : ascii) : bool := Ascii.eqb c "#".
(** s.split(d) for a one-character d; never empty *)
Fixpoint split (d : ascii) (s : string) : list string :=
  match s with
  | EmptyString => [""]
  | String c t => if Ascii.eqb c d then "" :: split d t
                  else match split d t with a :: l => String c a :: l | [] => [String c ""] end
  end.
(** int(s) for plain digits *)
Fixpoint digits_value (acc : N) (s : string) : option N :=
  match s with
  | EmptyString => Some acc
  | String c t => if is_digit c then digits_value (acc * 10 + N.of_nat (nat_of_ascii c - 48))%N t else None
  end.
Definition py_int (s : string) : result N :=
  match s with
  | EmptyString => Err ValueError
  | _ => match digits_value 0 s with Some n => Ok n | None => Err ValueError end
  end.
(** str(i) and str(i).zfill(3) *)
Definition py_str (i : nat) : string := NilZero.string_of_uint (Nat.to_uint i).
Fixpoint zeros (n : nat) : string := match n with 0 => "" | S m => String "0" (zeros m) end.
Definition zfill (n : nat) (s : string) : string := zeros (n - String.length s) ++ s.

(** dict: insertion order, assignment to an existing key keeps its place *)
Section Dict.
  Context {K A : Type} (eqb : K -> K -> bool).
  Fixpoint dget (k : K) (d : list (K * A)) : option A :=
    match d with [] => None | (q, v) :: d => if eqb k q then Some v else dget k d end.
  Fixpoint dset (k : K) (v : A) (d : list (K * A)) : list (K * A) :=
    match d with [] => [(k, v)] | (q, w) :: d => if eqb k q then (q, v) :: d else (q, w) :: dset k v d end.
End Dict.

(** ** geometry.py *)
(** extract_names_from_stp, first pass (146-156) *)
Fixpoint solids_pass (lines : list string) (d : list (N * string)) : result (list (N * string)) :=
  match lines with
  | [] => Ok d
  | l :: ls => match search solid_at l with
               | None => solids_pass ls d
               | Some (name, items) =>
                   do n <- py_int (lstrip is_hash (rstrip is_space (lstrip is_space (hd "" (split "," items)))));
                   solids_pass ls (dset N.eqb n name d)
               end
  end.
(** second pass (158-170) *)
Fixpoint all_ints (l : list string) : result (list N) :=
  match l with
  | [] => Ok []
  | a :: l => do n <- py_int (rstrip is_hash (lstrip is_hash a)); do ns <- all_ints l; Ok (n :: ns)
  end.
Fixpoint materials_pass (sd : list (N * string)) (lines : list string) (d : list (N * string)) : result (list (N * string)) :=
  match lines with
  | [] => Ok d
  | l :: ls => match search material_at l with
               | None => materials_pass sd ls d
               | Some (name, nums) =>
                   do ns <- all_ints (split "," nums);
                   materials_pass sd ls
                     (fold_left (fun d n => match dget N.eqb n sd with Some _ => dset N.eqb n name d | None => d end) ns d)
               end
  end.
(** extract_names_from_stp (107-172) *)
Definition extract_names (lines : list string) : result (list (N * string) * list (N * string)) :=
  do sd <- solids_pass lines [];
  do md <- materials_pass sd lines [];
  Ok (sd, md).

(** f"{str(i).zfill(3)}_{solid_re}" *)
Definition stl_key (i : nat) (solid : string) : string := zfill 3 (py_str i) ++ "_" ++ sanitise solid.
(** the loops "for i in range(len(list(solids.keys())))": f i id name gives the stored value *)
Fixpoint stl_loop {A} (f : nat -> N -> string -> result A) (i : nat) (sd : list (N * string)) (d : list (string * A)) : result (list (string * A)) :=
  match sd with
  | [] => Ok d
  | (n, solid) :: sd => do v <- f i n solid; stl_loop f (S i) sd (dset String.eqb (stl_key i solid) v d)
  end.
(** extract_materials_from_stp (45-71) *)
Definition extract_materials (lines : list string) : result (list (string * string)) :=
  do nm <- extract_names lines;
  stl_loop (fun _ n _ => Ok (sanitise (match dget N.eqb n (snd nm) with Some m => lower m | None => "None" end))) 0 (fst nm) [].
(** extract_solids_from_stp (74-104) *)
Definition stl_path (path : option string) : string :=
  match path with
  | None => ""
  | Some p => match srev p "" with String "/" _ => p | _ => p ++ "/" end
  end.
Definition extract_solids (path : option string) (lines : list string) : result (list (string * string)) :=
  do nm <- extract_names lines;
  stl_loop (fun i n solid =>
      Ok (stl_path path ++ stl_key i solid ++ "_" ++ sanitise (match dget N.eqb n (snd nm) with Some m => m | None => "None" end) ++ ".stl"))
    0 (fst nm) [].
(** extract_colors_from_stp (9-42) *)
Definition colours_of (lines : list string) : list (string * string * string) :=
  flat_map (fun l => match search colour_at l with Some c => [c] | None => [] end) lines.
Definition extract_colours (lines : list string) : result (list (string * (string * string * string))) :=
  do nm <- extract_names lines;
  stl_loop (fun i _ _ => match nth_error (colours_of lines) i with Some c => Ok c | None => Err IndexError end) 0 (fst nm) [].
