(** The unit of a STEP file and the export of its solids: wakis/geometry.py get_stp_unit_scale (170-220),
    generate_stl_solids_from_stp (223-274).

    The regular expression is a parser as in GeomModel.v; its optional group needs no backtracking, because what
    follows it cannot start with a dot.  \s and \w are those of Latin-1 text.  A scale factor 10^e is given by e.
    Not modelled: cadquery (a solid is an abstract value, with an abstract scaling), printing. *)
From Coq Require Import List Arith NArith ZArith Bool String Ascii.
From Verif Require Import Num Vec FieldModel SolverModel GeomModel.
Import ListNotations.
Open Scope string_scope.

Definition upper (c : ascii) : ascii := if ain 97 122 c then ascii_of_nat (nat_of_ascii c - 32) else c.
Definition is_word (c : ascii) : bool :=
  ain 97 122 c || ain 65 90 c || is_digit c || Ascii.eqb c "_" || ain 170 170 c || ain 178 179 c || ain 181 181 c ||
  ain 185 186 c || ain 188 190 c || ain 192 214 c || ain 216 246 c || ain 248 255 c.
(** a literal in upper case, with re.IGNORECASE *)
Fixpoint lit_ci (p s : string) : option string :=
  match p, s with
  | EmptyString, _ => Some s
  | String a p, String b s => if Ascii.eqb a (upper b) then lit_ci p s else None
  | String _ _, EmptyString => None
  end.
(** (\.\w+\.)? *)
Definition prefix_at (s : string) : option (string * string) :=
  let? s1 := lit "." s in
  let? (w, s2) := span1 is_word s1 in
  let? s3 := lit "." s2 in
  Some ("." ++ w ++ ".", s3).
Definition opt_prefix (s : string) : option string * string :=
  match prefix_at s with Some (p, r) => (Some p, r) | None => (None, s) end.
(** SI_UNIT\s*\(\s*(\.\w+\.)?\s*,\s*\.METRE\.\s*\) at the start: group 1 *)
Definition unit_at (s : string) : option (option string) :=
  let? s := lit_ci "SI_UNIT" s in
  let? s := lit "(" (snd (span is_space s)) in
  let (p, s) := opt_prefix (snd (span is_space s)) in
  let? s := lit "," (snd (span is_space s)) in
  let? s := lit_ci ".METRE." (snd (span is_space s)) in
  let? _ := lit ")" (snd (span is_space s)) in
  Some p.

(** unit_map (188-194) *)
Definition unit_exp (p : string) : Z :=
  if String.eqb p ".MILLI." then -3 else if String.eqb p ".CENTI." then -2 else if String.eqb p ".DECI." then -1
  else if String.eqb p ".KILO." then 3 else 0.
Definition header_len : nat := 100 * 100.
(** [file] is the text, None when it cannot be opened. *)
Definition unit_scale (file : option string) : Z :=
  match file with
  | None => 0
  | Some txt => match search unit_at (substring 0 header_len txt) with
                | Some (Some p) => unit_exp (smap upper p)
                | _ => 0
                end
  end.

(** generate_stl_solids_from_stp: the files written, in order, and the returned dict.  [list(solid_dict.keys())[i]]
    raises IndexError when there are more objects than names.  Exporting to the same path again overwrites. *)
Section Generate.
  Context {S : Type} (scaled : Z -> S -> S).
  Fixpoint export (sd : list (string * string)) (i : nat) (objs : list S) (out : list (string * S)) : list (string * S) * option exn :=
    match objs with
    | [] => (out, None)
    | o :: objs =>
        match nth_error sd i with
        | Some (_, path) => export sd (i + 1) objs (out ++ [(path, o)])
        | None => (out, Some IndexError)
        end
    end.
  Definition generate (file : option string) (lines : list string) (path : option string) (objs : list S)
    : list (string * S) * result (list (string * string)) :=
    let e := unit_scale file in
    let objs := if (e =? 0)%Z then objs else map (scaled e) objs in
    match extract_solids path lines with
    | Err x => ([], Err x)
    | Ok sd => match export sd 0 objs [] with
               | (out, None) => (out, Ok sd)
               | (out, Some x) => (out, Err x)
               end
    end.
End Generate.
