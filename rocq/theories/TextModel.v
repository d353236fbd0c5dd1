(** Text files of results: wakis/wakeSolver.py save_txt 1401-1454, read_txt 1344-1399, load_results 1456-1490,
    and the np.savetxt / np.loadtxt behaviour they rest on.

    A file is its text.  Numbers are written and read by a formatter [Fmt] kept abstract here: the
    format %.18e and float() / complex() of the interpreter.  Not modelled: usecols and delimiter
    arguments (both callers leave them None), gzip names, encodings, universal newlines (a CR in a
    name), printing. *)
From Coq Require Import List Arith Bool String Ascii.
From Verif Require Import Num Vec FieldModel SolverModel GeomModel.
Import ListNotations.
Open Scope string_scope.

Definition nl : ascii := "010".
Definition nls : string := String nl "".
Definition is_nl (c : ascii) : bool := Ascii.eqb c nl.

(** text formatting of a real number, of a complex number (real, imaginary), and their parsers *)
Record Fmt (T : Type) := mkFmt { fr : T -> string; fc : T * T -> string; pr : string -> option T; pc : string -> option (T * T) }.
Arguments fr {T}. Arguments fc {T}. Arguments pr {T}. Arguments pc {T}.

(** a one-dimensional array of float64 or complex128 *)
Inductive Col (T : Type) := Rl (l : list T) | Cx (l : list (T * T)).
Arguments Rl {T}. Arguments Cx {T}.

(** str.replace of a single character *)
Fixpoint sreplace (c : ascii) (by_ : string) (s : string) : string :=
  match s with EmptyString => "" | String a t => (if Ascii.eqb a c then by_ else String a "") ++ sreplace c by_ t end.
(** pieces between the characters in P *)
Fixpoint splitp (P : ascii -> bool) (s : string) : list string :=
  match s with
  | EmptyString => [""]
  | String a t => if P a then "" :: splitp P t
                  else match splitp P t with [] => [String a ""] | w :: r => String a w :: r end
  end.
(** str.split(): the non-empty pieces between white space *)
Definition words (s : string) : list string := filter (fun w => negb (String.eqb w "")) (splitp is_space s).
Fixpoint spaces (n : nat) : string := match n with 0 => "" | S m => String " " (spaces m) end.
Fixpoint dashes (n : nat) : string := match n with 0 => "" | S m => String "-" (dashes m) end.

(** ** np.savetxt(name, X, header=h) with the default fmt, delimiter, newline and comments.
    The header is preceded by "# " and every newline in it becomes newline "# "; a row is its numbers
    joined by a space; a complex number is written with a space before it. *)
Definition header_text (h : string) : string := "# " ++ sreplace nl (nls ++ "# ") h ++ nls.
Fixpoint rows_text (rows : list (string * string)) : string :=
  match rows with [] => "" | (a, b) :: r => a ++ " " ++ b ++ nls ++ rows_text r end.

Section Text.
Context {T : Type} {NT : Num T} (F : Fmt T).

(** np.c_[x, y]: two columns, both complex as soon as one is; lengths that differ are a ValueError *)
Definition tocx (c : Col T) : list (T * T) := match c with Rl l => map (fun v => (v, nzero)) l | Cx l => l end.
Definition collen (c : Col T) : nat := match c with Rl l => List.length l | Cx l => List.length l end.
Definition c_ (x y : Col T) : result (list (string * string)) :=
  if (collen x =? collen y)%nat then
    Ok (match x, y with
        | Rl a, Rl b => combine (map (fr F) a) (map (fr F) b)
        | _, _ => combine (map (fun z => " " ++ fc F z) (tocx x)) (map (fun z => " " ++ fc F z) (tocx y))
        end)
  else Err ValueError.
Definition savetxt (x y : Col T) (h : string) : result string :=
  do rows <- c_ x y; Ok (header_text h ++ rows_text rows).

(** ** save_txt, 1446-1454: what is written to f_name.txt, None for no file *)
Definition two_names (xn yn : string) : string := "   " ++ xn ++ spaces 20 ++ yn ++ nls ++ dashes 48.
Definition save_txt (x y : option (Col T)) (xn yn : string) : result (option string) :=
  match x, y with
  | Some x, Some y => do t <- savetxt x y (two_names xn yn); Ok (Some t)
  | _, _ => Ok None
  end.
(** 1443-1444, 1448: the name of the file *)
Definition txt_name (f : string) : string :=
  (match lit (srev ".txt" "") (srev f "") with Some r => srev r "" | None => f end) ++ ".txt".

(** ** np.loadtxt(txt, skiprows=2): the words of every line after the second, up to a comment; lines
    without words are skipped; every line must have as many words as the first one *)
Definition table (txt : string) : list (list string) :=
  filter (fun w => negb (List.length w =? 0)%nat)
    (map (fun l => words (fst (span (fun c => negb (is_hash c)) l))) (skipn 2 (splitp is_nl txt))).
Fixpoint parse_row {A} (p : string -> option A) (w : list string) : result (list A) :=
  match w with
  | [] => Ok []
  | x :: r => match p x with Some v => do vs <- parse_row p r; Ok (v :: vs) | None => Err ValueError end
  end.
Fixpoint parse_rows {A} (p : string -> option A) (n : nat) (w : list (list string)) : result (list (list A)) :=
  match w with
  | [] => Ok []
  | x :: r => if (List.length x =? n)%nat then do v <- parse_row p x; do vs <- parse_rows p n r; Ok (v :: vs) else Err ValueError
  end.
Definition parse_table {A} (p : string -> option A) (w : list (list string)) : result (list (list A)) :=
  parse_rows p (match w with [] => 0 | x :: _ => List.length x end) w.

(** ** read_txt, 1365-1399.  loadtxt squeezes: with fewer than two rows or two columns the array is not
    two-dimensional and load[0, :] is an IndexError, in the try block and again in the except block.
    Keys: pieces of the first line at "]", or integers when the line has too few pieces. *)
Inductive tkey := KS (s : string) | KN (n : nat).
Definition tkey_eqb (a b : tkey) : bool :=
  match a, b with KS s, KS t => String.eqb s t | KN n, KN m => (n =? m)%nat | _, _ => false end.
Definition first_line (txt : string) : string := match splitp is_nl txt with [] => "" | l :: _ => l end.
Definition names_of (txt : string) : list string :=
  splitp (Ascii.eqb "]") (sreplace nl "" (sreplace "#" "" (sreplace " " "" (first_line txt)))).
Definition column {A} (d : A) (rows : list (list A)) (i : nat) : list A := map (fun r => nth i r d) rows.
Fixpoint with_names {A} (d : A) (rows : list (list A)) (wrap : list A -> Col T) (hd : list string) (i n : nat) (acc : list (tkey * Col T)) {struct n} : option (list (tkey * Col T)) :=
  match n with
  | 0 => Some acc
  | S n => match hd with
           | [] => None
           | h :: hd => with_names d rows wrap hd (S i) n (dset tkey_eqb (KS (h ++ "]")) (wrap (column d rows i)) acc)
           end
  end.
Fixpoint with_numbers {A} (d : A) (rows : list (list A)) (wrap : list A -> Col T) (i n : nat) (acc : list (tkey * Col T)) : list (tkey * Col T) :=
  match n with 0 => acc | S n => with_numbers d rows wrap (S i) n (dset tkey_eqb (KN i) (wrap (column d rows i)) acc) end.
Definition to_dict {A} (d : A) (wrap : list A -> Col T) (txt : string) (rows : list (list A)) : result (list (tkey * Col T)) :=
  match rows with
  | r :: _ :: _ => if (2 <=? List.length r)%nat then
                     Ok (match with_names d rows wrap (names_of txt) 0 (List.length r) [] with
                         | Some x => x
                         | None => with_numbers d rows wrap 0 (List.length r) []
                         end)
                   else Err IndexError
  | _ => Err IndexError
  end.
Definition read_txt (txt : string) : result (list (tkey * Col T)) :=
  match parse_table (pr F) (table txt) with
  | Ok rows => to_dict nzero Rl txt rows
  | Err _ => do rows <- parse_table (pc F) (table txt); to_dict (nzero, nzero) Cx txt rows
  end.

(** ** the files written by a solve with save=True: calc_long_WP 398-407 and calc_long_WP_3d 533-542 (WP.txt),
    calc_trans_WP 609-619 (WPx.txt, WPy.txt), calc_lambdas 816-825 (lambda.txt), calc_long_Z 695-709 (Z.txt,
    spectrum.txt), calc_trans_Z 760-770 (Zx.txt, Zy.txt). *)
Record Results := mkResults { r_s : list T; r_WP : list T; r_WPx : list T; r_WPy : list T; r_lambdas : list T;
  r_f : list T; r_lambdaf : list (T * T); r_Z : list (T * T); r_fx : list T; r_Zx : list (T * T); r_fy : list T; r_Zy : list (T * T) }.

Definition files := list (string * string).
Definition write (fs : files) (name : string) (x y : Col T) (xn yn : string) : result files :=
  do t <- savetxt x y (two_names xn yn); Ok (dset String.eqb name t fs).
(** [both]: compute_plane 'both' or 'transverse'; otherwise 'longitudinal' *)
Definition save_results (both : bool) (dir : string) (r : Results) (fs : files) : result files :=
  do fs <- write fs (dir ++ "WP.txt") (Rl (r_s r)) (Rl (r_WP r)) "s [m]" "WP [V/pC]";
  do fs <- (if both then
              do fs <- write fs (dir ++ "WPx.txt") (Rl (r_s r)) (Rl (r_WPx r)) "s [m]" "WP [V/pC]";
              write fs (dir ++ "WPy.txt") (Rl (r_s r)) (Rl (r_WPx r)) "s [m]" "WP [V/pC]"
            else Ok fs);
  do fs <- write fs (dir ++ "lambda.txt") (Rl (r_s r)) (Rl (r_lambdas r)) "s [Hz]" "Charge distribution [C/m]";
  do fs <- write fs (dir ++ "Z.txt") (Rl (r_f r)) (Cx (r_Z r)) "f [Hz]" "Z [Ohm]";
  do fs <- write fs (dir ++ "spectrum.txt") (Rl (r_f r)) (Cx (r_lambdaf r)) "f [Hz]" "Charge distribution spectrum [C/s]";
  if both then
    do fs <- write fs (dir ++ "Zx.txt") (Rl (r_fx r)) (Cx (r_Zx r)) "f [Hz]" "Zx [Ohm]";
    write fs (dir ++ "Zy.txt") (Rl (r_fy r)) (Cx (r_Zy r)) "f [Hz]" "Zy [Ohm]"
  else Ok fs.

(** load_results 1469-1490.  A missing file is an error of the operating system; unpacking the values of a
    dict that has not exactly two is a ValueError.  np.abs is a parameter ([ab] real, [abc] complex).  The state
    on entry matters only for what it leaves: loaded attributes are returned. *)
Record Loaded := mkLoaded { l_lambdas : Col T; l_WPx : Col T; l_WPy : Col T; l_s : Col T; l_WP : Col T;
  l_lambdaf : Col T; l_Zx : Col T; l_Zy : Col T; l_f : list T; l_Z : Col T; l_wakelength : T * T; l_folder : string }.
Definition read_two (fs : files) (name : string) : result (Col T * Col T) :=
  match dget String.eqb name fs with
  | None => Err OtherException
  | Some t => do d <- read_txt t; match map snd d with [a; b] => Ok (a, b) | _ => Err ValueError end
  end.
Definition col_abs (ab : T -> T) (abc : T * T -> T) (c : Col T) : list T := match c with Rl l => map ab l | Cx l => map abc l end.
Definition col_last (c : Col T) : result (T * T) := match rev (tocx c) with [] => Err IndexError | v :: _ => Ok v end.
Definition dir_of (folder : string) : string := match srev folder "" with String "/" _ => folder | _ => folder ++ "/" end.
Definition load_results (ab : T -> T) (abc : T * T -> T) (fs : files) (self_folder folder : option string) : result Loaded :=
  do folder <- match folder, self_folder with Some f, _ => Ok f | None, Some f => Ok f | None, None => Err OtherException end;
  let dir := dir_of folder in
  do la <- read_two fs (dir ++ "lambda.txt");
  do wx <- read_two fs (dir ++ "WPx.txt");
  do wy <- read_two fs (dir ++ "WPy.txt");
  do w <- read_two fs (dir ++ "WP.txt");
  do lf <- read_two fs (dir ++ "spectrum.txt");
  do zx <- read_two fs (dir ++ "Zx.txt");
  do zy <- read_two fs (dir ++ "Zy.txt");
  do z <- read_two fs (dir ++ "Z.txt");
  do wl <- col_last (fst w);
  Ok (mkLoaded (snd la) (snd wx) (snd wy) (fst w) (snd w) (snd lf) (snd zx) (snd zy) (col_abs ab abc (fst z)) (snd z) wl dir).
End Text.
Arguments Results : clear implicits.
Arguments Loaded : clear implicits.
