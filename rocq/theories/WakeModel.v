(** Model of the wake potential computation, /repo/wakis/wakeSolver.py, and of the run that
    records the field for it, wakesolve, /repo/wakis/routines.py:220-459 (single process).

    HDF5 files are association lists; text output is the pair of columns passed to np.savetxt.
    Logging, plotting, progress bars and the h5py handle's own state are not modelled. *)
From Coq Require Import List Arith ZArith Bool String Ascii Lia.
From Verif Require Import Num Vec FieldModel GridModel SolverModel.
Import ListNotations.

(** Rounding down, used by int(), // and np.arange. *)
Class NumFl (T : Type) : Type := { nfloor : T -> Z }.

(** ** Names of the recorded datasets (routines.py:396-402) *)
Definition digit (n : nat) : ascii := ascii_of_nat (48 + n).
Fixpoint dec_go (fuel n : nat) (acc : string) : string :=
  match fuel with
  | 0 => acc
  | S f => let acc' := String (digit (n mod 10)) acc in
           if n <? 10 then acc' else dec_go f (n / 10) acc'
  end.
(** str(n) *)
Definition dec (n : nat) : string := dec_go (S n) n EmptyString.
Fixpoint zeros (n : nat) : string :=
  match n with 0 => EmptyString | S m => String "0"%char (zeros m) end.
(** s.zfill(w) for a string of digits *)
Definition zfill (w : nat) (s : string) : string := (zeros (w - String.length s) ++ s)%string.
(** "#" + str(n).zfill(5) *)
Definition snap_key (n : nat) : string := ("#" ++ zfill 5 (dec n))%string.

(** h5py iterates the members of a group in name order (wakeSolver.py:357, 471). *)
Definition str_leb (a b : string) : bool :=
  match String.compare a b with Gt => false | _ => true end.
Fixpoint insert_name (a : string) (l : list string) : list string :=
  match l with
  | [] => [a]
  | b :: r => if str_leb a b then a :: l else b :: insert_name a r
  end.
Definition sort_names (l : list string) : list string := fold_right insert_name [] l.

Section WakeModel.
  Context {T : Type} {NT : Num T} {OT : NumOrd T} {FT : NumFl T}.

  (** math.ceil, int() *)
  Definition nceil (x : T) : Z := (- nfloor (nopp x))%Z.
  Definition ntrunc (x : T) : Z := if nltb x nzero then nceil x else nfloor x.
  Definition nabs (x : T) : T := if nltb x nzero then nopp x else x.
  Definition nofZ (z : Z) : T :=
    match z with Zneg _ => nopp (nofnat (Z.to_nat (- z))) | _ => nofnat (Z.to_nat z) end.

  (** np.arange(a, b, d): ceil((b - a) / d) points; the float division by zero raises. *)
  Definition arange (a b d : T) : result (list T) :=
    if neqb d nzero then Err OtherException
    else Ok (tab (Z.to_nat (nceil (ndiv (nsub b a) d))) (fun i => nadd a (nmul (nofnat i) d))).

  (** np.max *)
  Definition nmax (a b : T) : T := if nltb a b then b else a.
  Definition np_max (v : list T) : result T :=
    match v with [] => Err ValueError | x :: r => Ok (fold_left nmax r x) end.

  (** np.argmin: the first index of a smallest entry; ValueError when empty. *)
  Fixpoint argmin_go (best : T) (bi i : nat) (v : list T) : nat :=
    match v with
    | [] => bi
    | x :: r => if nltb x best then argmin_go x i (S i) r else argmin_go best bi (S i) r
    end.
  Definition argmin (v : list T) : result nat :=
    match v with [] => Err ValueError | x :: r => Ok (argmin_go x 0 1 r) end.
  (** np.abs(x - p).argmin() *)
  Definition nearest (x : list T) (p : T) : result nat := argmin (map (fun a => nabs (nsub a p)) x).

  (** 1-D indexing by an integer or a slice, keeping the selected entries. *)
  Definition take (k : ikey) (v : list T) : result (list T) :=
    do l <- resolve (List.length v) k; Ok (map (get v) l).

  (** ** Files *)
  Definition File : Type := list (string * ndarray T).
  Definition keys (f : File) : list string := sort_names (map fst f).
  Fixpoint find (f : File) (n : string) : option (ndarray T) :=
    match f with [] => None | (m, a) :: r => if String.eqb m n then Some a else find r n end.
  Definition vec (v : list T) : ndarray T := {| shape := [List.length v]; dat := v |}.
  (** Text file written by np.savetxt(folder + name, np.c_[a, b]). *)
  Definition TextFile : Type := (string * (list T * list T))%type.

  (** ** The wake solver object (wakeSolver.py:21-197) *)
  Record Wake : Type := {
    wk_q : T; wk_v : T; wk_ti : T;
    wk_xtest : T; wk_ytest : T;
    wk_len : option T;                       (* wakelength *)
    wk_skip : nat;                           (* skip_cells *)
    wk_ntc : nat;                            (* n_transverse_cells *)
    wk_counter : bool;                       (* counter_moving *)
    wk_save : bool;
    wk_hf : option File;                     (* Ez_hf *)
    wk_t : option (list T); wk_z : option (list T); wk_zf : option (list T);
    wk_xf : option (list T); wk_yf : option (list T);
    wk_dx : option (list T); wk_dy : option (list T); wk_dz : option (list T);
    wk_Ezt : option (list (list T));         (* columns of Ezt, one per time step *)
    wk_s : option (list T); wk_WP : option (list T);
    wk_WP3 : option (list (list (list T)));
    wk_WPx : option (list T); wk_WPy : option (list T);
    wk_txt : list TextFile
  }.

  (** __init__ (145-197), default injection time at 155-162; [k0] is 8.548921333333334. *)
  Definition wake_ti (env : Env T) (k0 sigmaz beta : T) (ti : option T) : T :=
    match ti with
    | Some t => t
    | None => ndiv (nmul k0 sigmaz) (nmul (e_sqrt env beta) (nmul beta (e_c env)))
    end.
  Definition wake_init (env : Env T) (k0 q sigmaz beta xtest ytest : T) (ti : option T)
      (len : option T) (skip : nat) (counter save : bool) : Wake :=
    {| wk_q := q; wk_v := nmul beta (e_c env); wk_ti := wake_ti env k0 sigmaz beta ti;
       wk_xtest := xtest; wk_ytest := ytest; wk_len := len; wk_skip := skip; wk_ntc := 1;
       wk_counter := counter; wk_save := save; wk_hf := None;
       wk_t := None; wk_z := None; wk_zf := None; wk_xf := None; wk_yf := None;
       wk_dx := None; wk_dy := None; wk_dz := None; wk_Ezt := None;
       wk_s := None; wk_WP := None; wk_WP3 := None; wk_WPx := None; wk_WPy := None;
       wk_txt := [] |}.

  (** read_Ez (1295-1342): a dataset that is absent leaves the attribute as it was. *)
  Definition or_old (f : File) (n : string) (old : option (list T)) : option (list T) :=
    match find f n with Some a => Some (dat a) | None => old end.
  Definition read_Ez (w : Wake) (f : File) : Wake :=
    {| wk_q := wk_q w; wk_v := wk_v w; wk_ti := wk_ti w; wk_xtest := wk_xtest w; wk_ytest := wk_ytest w;
       wk_len := wk_len w; wk_skip := wk_skip w; wk_ntc := wk_ntc w; wk_counter := wk_counter w;
       wk_save := wk_save w; wk_hf := Some f;
       wk_t := or_old f "t" (wk_t w); wk_z := wk_z w; wk_zf := or_old f "z" (wk_zf w);
       wk_xf := or_old f "x" (wk_xf w); wk_yf := or_old f "y" (wk_yf w);
       wk_dx := or_old f "dx" (wk_dx w); wk_dy := or_old f "dy" (wk_dy w); wk_dz := or_old f "dz" (wk_dz w);
       wk_Ezt := wk_Ezt w; wk_s := wk_s w; wk_WP := wk_WP w; wk_WP3 := wk_WP3 w;
       wk_WPx := wk_WPx w; wk_WPy := wk_WPy w; wk_txt := wk_txt w |}.
  (** self.Ez_hf = h5py.File(self.Ez_file) when nothing is open; [disk] is the file on disk. *)
  Definition opened (w : Wake) (disk : option File) : result Wake :=
    match wk_hf w with
    | Some _ => Ok w
    | None => match disk with Some f => Ok (read_Ez w f) | None => Err OtherException end
    end.

  Definition some {A} (e : exn) (o : option A) : result A :=
    match o with Some a => Ok a | None => Err e end.
  Definition item (v : list T) (i : nat) : result T := some IndexError (nth_error v i).

  (** slice(skip, -skip), or [:] when skip is 0 (326-329, 450-453). *)
  Definition zslice (skip : nat) : ikey :=
    match skip with 0 => kfull | _ => KS (Some (Z.of_nat skip)) (Some (- Z.of_nat skip)%Z) None end.

  (** What both integrations read before the loops (314-359, 436-473): the open file, the cropped
      z axis, zmin, zmax, the time step, t[0], the s axis, the wakelength and the number of steps,
      reduced when there are fewer than nt + 4 datasets. *)
  Record Setup : Type := {
    su_f : File; su_z : list T; su_zf : list T; su_zmin : T; su_zmax : T; su_dt : T; su_t0 : T;
    su_s : list T; su_len : T; su_keys : list string; su_nt0 : nat; su_nt : nat; su_dz : list T
  }.
  Definition setup (w : Wake) : result Setup :=
    do t <- some TypeError (wk_t w);
    do t2 <- item t 2; do t1 <- item t 1; do t0 <- item t 0;
    let dt := nsub t2 t1 in
    do zf <- some TypeError (match wk_zf w with Some z => Some z | None => wk_z w end);
    do zmax <- np_max zf; do zmin <- np_min zf;
    do z <- take (zslice (wk_skip w)) zf;
    let len := match wk_len w with
               | Some l => l
               | None => nsub (nsub (nmul (nmul (nofnat (List.length t)) dt) (wk_v w)) (nsub zmax zmin))
                              (nmul (wk_ti w) (wk_v w))
               end in
    do s <- arange (nmul (nopp (wk_ti w)) (wk_v w)) len (nmul dt (wk_v w));
    do f <- some AttributeError (wk_hf w);
    let ks := keys f in
    let nt0 := List.length t in
    let nt := if (List.length ks - 4 <? nt0)%nat then (List.length ks - 4)%nat else nt0 in
    do dz <- some AttributeError (wk_dz w);
    Ok {| su_f := f; su_z := z; su_zf := zf; su_zmin := zmin; su_zmax := zmax; su_dt := dt; su_t0 := t0;
          su_s := s; su_len := len; su_keys := ks; su_nt0 := nt0; su_nt := nt; su_dz := dz |}.

  (** Reading one dataset: Ez[i, j, zz] of a 3-D array; h5py resolves the indices as lists do. *)
  Definition pick (a : ndarray T) (i j : Z) (zz : ikey) : result (list T) :=
    match shape a with
    | [nx; ny; nz] =>
        do li <- resolve nx (KI i); do lj <- resolve ny (KI j); do lk <- resolve nz zz;
        match li, lj with
        | [i], [j] => Ok (map (fun k => get (dat a) (k + nz * (j + ny * i))) lk)
        | _, _ => Err OtherException
        end
    | _ => Err IndexError
    end.
  (** Ezt[:, n] = v with numpy broadcasting: same length, or a single value. *)
  Definition column (nz : nat) (v : list T) : result (list T) :=
    if (List.length v =? nz)%nat then Ok v
    else if (List.length v =? 1)%nat then Ok (repeat (get v 0) nz)
    else Err ValueError.
  Definition dataset (su : Setup) (n : nat) : result (ndarray T) :=
    do k <- some IndexError (nth_error (su_keys su) n);
    some KeyError (find (su_f su) k).
  Definition collect {A B} (g : A -> result B) (l : list A) : result (list B) :=
    seq_upd (fun acc a => do b <- g a; Ok (acc ++ [b])) [] l.

  (** Ezt[k, it] with a Python integer index, in an array of [ncols] columns. *)
  Definition ezt_at (cols : list (list T)) (ncols : nat) (k : nat) (it : Z) : result T :=
    do l <- resolve ncols (KI it);
    match l with [c] => Ok (get (nth c cols []) k) | _ => Err OtherException end.

  (** One term of the line integral (383-388): skipped when it is past the recorded steps. *)
  Definition wp_term (w : Wake) (su : Setup) (cols : list (list T)) (ncols : nat) (sn : T) (acc : T) (k : nat) : result T :=
    do zk <- item (su_z su) k;
    let ts := nadd (nsub (nsub (ndiv (nadd zk sn) (wk_v w)) (ndiv (su_zmin su) (wk_v w))) (su_t0 su)) (wk_ti w) in
    let it := ntrunc (ndiv ts (su_dt su)) in
    if (it <? Z.of_nat (su_nt su))%Z then
      do e <- ezt_at cols ncols k it; do d <- item (su_dz su) k;
      Ok (nadd acc (nmul e d))
    else Ok acc.
  (** The counter-moving term (483-497): z[-k-1], Ezt[-k-1], -dz[k]. *)
  Definition wp_term_counter (w : Wake) (su : Setup) (cols : list (list T)) (ncols : nat) (sn : T) (acc : T) (k : nat) : result T :=
    let nz := List.length (su_z su) in
    let k' := (nz - 1 - k)%nat in
    do zk <- item (su_z su) k';
    let mv := nmul (nopp none_) (wk_v w) in
    let ts := nadd (nsub (nsub (ndiv (nsub zk sn) mv) (ndiv (su_zmax su) mv)) (su_t0 su)) (wk_ti w) in
    let it := ntrunc (ndiv ts (su_dt su)) in
    if (it <? Z.of_nat (su_nt su))%Z then
      do e <- ezt_at cols ncols k' it; do d <- item (su_dz su) k;
      Ok (nadd acc (nmul e (nmul (nopp none_) d)))
    else Ok acc.
  (** The loop over s, starting from the accumulator WP, then WP / (q * 1e12). *)
  Definition pico : T := Nat.iter 12 (nmul (nofnat 10)) none_.
  Definition wp_loop (term : T -> T -> nat -> result T) (w : Wake) (su : Setup) (WP : list T) : result (list T) :=
    do W <- collect (fun p : T * T => seq_upd (term (fst p)) (snd p) (seq 0 (List.length (su_z su))))
                    (combine (su_s su) WP);
    Ok (map (fun x => ndiv x (nmul (wk_q w) pico)) W).

  Definition save_WP (w : Wake) (s WP : list T) : list TextFile :=
    if wk_save w then wk_txt w ++ [("WP.txt"%string, (s, WP))] else wk_txt w.

  (** calc_long_WP (295-407); [Ezt] is the optional matrix given by the caller. *)
  Definition with_Ezt (w : Wake) (E : list (list T)) : Wake :=
    {| wk_q := wk_q w; wk_v := wk_v w; wk_ti := wk_ti w; wk_xtest := wk_xtest w; wk_ytest := wk_ytest w;
       wk_len := wk_len w; wk_skip := wk_skip w; wk_ntc := wk_ntc w; wk_counter := wk_counter w;
       wk_save := wk_save w; wk_hf := wk_hf w; wk_t := wk_t w; wk_z := wk_z w; wk_zf := wk_zf w;
       wk_xf := wk_xf w; wk_yf := wk_yf w; wk_dx := wk_dx w; wk_dy := wk_dy w; wk_dz := wk_dz w;
       wk_Ezt := Some E; wk_s := wk_s w; wk_WP := wk_WP w; wk_WP3 := wk_WP3 w;
       wk_WPx := wk_WPx w; wk_WPy := wk_WPy w; wk_txt := wk_txt w |}.
  Definition long_done (w : Wake) (su : Setup) (cols : list (list T)) (WP : list T) : Wake :=
    {| wk_q := wk_q w; wk_v := wk_v w; wk_ti := wk_ti w; wk_xtest := wk_xtest w; wk_ytest := wk_ytest w;
       wk_len := Some (su_len su); wk_skip := wk_skip w; wk_ntc := wk_ntc w; wk_counter := wk_counter w;
       wk_save := wk_save w; wk_hf := None; wk_t := wk_t w; wk_z := wk_z w; wk_zf := Some (su_zf su);
       wk_xf := wk_xf w; wk_yf := wk_yf w; wk_dx := wk_dx w; wk_dy := wk_dy w; wk_dz := wk_dz w;
       wk_Ezt := Some cols; wk_s := Some (su_s su); wk_WP := Some WP; wk_WP3 := wk_WP3 w;
       wk_WPx := wk_WPx w; wk_WPy := wk_WPy w; wk_txt := save_WP w (su_s su) WP |}.
  Definition long_column (w : Wake) (su : Setup) (dims : nat) (n : nat) : result (list T) :=
    let nz := List.length (su_z su) in
    do a <- dataset su n;
    match dims with
    | 3 => do v <- (match shape a with
                    | nx :: ny :: _ => pick a (Z.of_nat (nx / 2 + 1)) (Z.of_nat (ny / 2 + 1)) (zslice (wk_skip w))
                    | _ => Err IndexError
                    end);
           column nz v
    | 1 => (match shape a with [_] => column nz (dat a) | _ => Err ValueError end)
    | _ => Ok (repeat nzero nz)
    end.
  Definition calc_long_WP (w : Wake) (disk : option File) (Ezt : option (list (list T))) : result Wake :=
    do w <- (match Ezt with Some E => Ok (with_Ezt w E) | None => opened w disk end);
    do su <- setup w;
    do a0 <- dataset su 0;
    do cols <- collect (long_column w su (List.length (shape a0))) (seq 0 (su_nt su));
    do WP <- wp_loop (wp_term w su cols (su_nt su)) w su (repeat nzero (List.length (su_s su)));
    Ok (long_done w su cols WP).

  (** calc_long_WP_3d (409-542).  The offsets are visited row by row; WP is created once, before
      the loops (466), and carried from one transverse cell to the next. *)
  Definition offsets (n : nat) : list (Z * Z) :=
    let r := map (fun i => (Z.of_nat i - Z.of_nat n)%Z) (seq 0 (2 * n + 1)) in
    flat_map (fun i => map (pair i) r) r.
  Definition cell_column (w : Wake) (su : Setup) (o : Z * Z) (n : nat) : result (list T) :=
    do a <- dataset su n;
    do v <- (match shape a with
             | nx :: ny :: _ => pick a (Z.of_nat (nx / 2) + fst o)%Z (Z.of_nat (ny / 2) + snd o)%Z (zslice (wk_skip w))
             | _ => Err IndexError
             end);
    column (List.length (su_z su)) v.
  (** Ezt keeps its nt0 columns; the steps that are not read stay zero (467-468). *)
  Definition padded (su : Setup) (cols : list (list T)) : list (list T) :=
    cols ++ repeat (repeat nzero (List.length (su_z su))) (su_nt0 su - su_nt su).
  Definition cell_step (w : Wake) (su : Setup) (st : list T * list (list T)) (o : Z * Z) : result (list T * list (list T)) :=
    do cols <- collect (cell_column w su o) (seq 0 (su_nt su));
    let E := padded su cols in
    do WP <- wp_loop ((if wk_counter w then wp_term_counter else wp_term) w su E (su_nt0 su)) w su (fst st);
    Ok (WP, snd st ++ [WP]).
  (** WP_3d[i0 + i, j0 + j, :] from the list of computed rows. *)
  Fixpoint chunk {A} (m n : nat) (l : list A) : list (list A) :=
    match m with 0 => [] | S m => firstn n l :: chunk m n (skipn n l) end.
  Definition wp3_done (w : Wake) (su : Setup) (WP3 : list (list (list T))) : Wake :=
    let WP := nth (wk_ntc w) (nth (wk_ntc w) WP3 []) [] in
    {| wk_q := wk_q w; wk_v := wk_v w; wk_ti := wk_ti w; wk_xtest := wk_xtest w; wk_ytest := wk_ytest w;
       wk_len := Some (su_len su); wk_skip := wk_skip w; wk_ntc := wk_ntc w; wk_counter := wk_counter w;
       wk_save := wk_save w; wk_hf := None; wk_t := wk_t w; wk_z := wk_z w; wk_zf := Some (su_zf su);
       wk_xf := wk_xf w; wk_yf := wk_yf w; wk_dx := wk_dx w; wk_dy := wk_dy w; wk_dz := wk_dz w;
       wk_Ezt := wk_Ezt w; wk_s := Some (su_s su); wk_WP := Some WP; wk_WP3 := Some WP3;
       wk_WPx := wk_WPx w; wk_WPy := wk_WPy w; wk_txt := save_WP w (su_s su) WP |}.
  Definition calc_long_WP_3d (w : Wake) (disk : option File) : result Wake :=
    do w <- opened w disk;
    do su <- setup w;
    let m := (2 * wk_ntc w + 1)%nat in
    do st <- seq_upd (cell_step w su) (repeat nzero (List.length (su_s su)), []) (offsets (wk_ntc w));
    Ok (wp3_done w su (chunk m m (snd st))).

  (** calc_trans_WP (544-619).  int_WP[i, j, n] is the sum of the n entries before n, times ds;
      the files WPx.txt and WPy.txt are both written from WPx (608-619). *)
  Definition sum_before (v : list T) (n : nat) : T := fold_left nadd (firstn n v) nzero.
  Definition wp3_at (W : list (list (list T))) (i j : nat) : result (list T) :=
    do r <- some IndexError (nth_error W i); some IndexError (nth_error r j).
  Definition trans_done (w : Wake) (WPx WPy : list T) (txt : list TextFile) : Wake :=
    {| wk_q := wk_q w; wk_v := wk_v w; wk_ti := wk_ti w; wk_xtest := wk_xtest w; wk_ytest := wk_ytest w;
       wk_len := wk_len w; wk_skip := wk_skip w; wk_ntc := wk_ntc w; wk_counter := wk_counter w;
       wk_save := wk_save w; wk_hf := wk_hf w; wk_t := wk_t w; wk_z := wk_z w; wk_zf := wk_zf w;
       wk_xf := wk_xf w; wk_yf := wk_yf w; wk_dx := wk_dx w; wk_dy := wk_dy w; wk_dz := wk_dz w;
       wk_Ezt := wk_Ezt w; wk_s := wk_s w; wk_WP := wk_WP w; wk_WP3 := wk_WP3 w;
       wk_WPx := Some WPx; wk_WPy := Some WPy; wk_txt := txt |}.
  Definition calc_trans_WP (w : Wake) : result Wake :=
    do s <- some TypeError (wk_s w);
    do s2 <- item s 2; do s1 <- item s 1;
    let ds := nsub s2 s1 in
    let n0 := wk_ntc w in
    do W <- some TypeError (wk_WP3 w);
    do dx <- some AttributeError (wk_dx w); do dy <- some AttributeError (wk_dy w);
    match n0 with
    | 0 => Err IndexError
    | S p =>
        do xp <- wp3_at W (n0 + 1) n0; do xm <- wp3_at W p n0;
        do yp <- wp3_at W n0 (n0 + 1); do ym <- wp3_at W n0 p;
        do dx0 <- item dx p; do dx1 <- item dx n0; do dy0 <- item dy p; do dy1 <- item dy n0;
        let grad a b d n := nopp (ndiv (nsub (nmul (sum_before a n) ds) (nmul (sum_before b n) ds)) d) in
        let WPx := tab (List.length s) (grad xp xm (nadd dx0 dx1)) in
        let WPy := tab (List.length s) (grad yp ym (nadd dy0 dy1)) in
        Ok (trans_done w WPx WPy
              (if wk_save w then wk_txt w ++ [("WPx.txt"%string, (s, WPx)); ("WPy.txt"%string, (s, WPx))]
               else wk_txt w))
    end.

  (** The wake potential part of solve (199-243); compute_plane.lower() selects the branch. *)
  Definition solve_WP (plane : string) (w : Wake) (disk : option File) : result Wake :=
    if named plane "both" || named plane "transverse" then
      do w <- calc_long_WP_3d w disk; calc_trans_WP w
    else if named plane "longitudinal" then calc_long_WP w disk None
    else Ok w.

  (** ** calc_lambdas (772-825) *)
  (** self.chargedist: a file name, a dict, or an array. *)
  Inductive charge : Type :=
  | ChFile (cols : list (string * list T))    (* read_txt already applied; keys in order *)
  | ChDict (entries : list (string * list T))
  | ChArray (v : list T).
  (** len() of a dict is its number of keys; dict / float is a TypeError. *)
  Definition len_charge (c : charge) : nat :=
    match c with ChFile l => List.length l | ChDict l => List.length l | ChArray v => List.length v end.
  Definition charge_axis (w : Wake) (c : charge) : result (option (list T)) :=
    do z <- some TypeError (wk_z w);
    if (List.length z =? len_charge c)%nat then Ok (Some z)
    else do zf <- some TypeError (wk_zf w);
         if (List.length zf =? len_charge c)%nat then Ok (Some zf) else Ok None.
  (** The pair (z, chargedist / q) handed to np.interp.  [self.chargedist is dict] compares an
      instance with the class and is False for every value (800). *)
  Definition calc_lambdas_input (w : Wake) (c : charge) : result (list T * list T) :=
    match c with
    | ChFile ((_, z) :: (_, l) :: _) => Ok (z, map (fun x => ndiv x (wk_q w)) l)
    | ChFile _ => Err IndexError
    | ChDict _ | ChArray _ =>
        do oz <- charge_axis w c;
        do z <- some UnboundLocalError oz;
        match c with
        | ChArray v => Ok (z, map (fun x => ndiv x (wk_q w)) v)
        | _ => Err TypeError
        end
    end.

  (** ** wakesolve (routines.py:311-459), single process *)
  (** Cell centres used as solver.x, .y, .z (solverFIT3D.py:148-150). *)
  Definition centres (ax : list T) : list T :=
    tab (List.length ax - 1) (fun i => nadd (get ax i) (ndiv (nsub (get ax (S i)) (get ax i)) (nofnat 2))).
  Definition widths (ax : list T) : list T :=
    tab (List.length ax - 1) (fun i => nsub (get ax (S i)) (get ax i)).
  (** Transverse index kept in the file (332-338). *)
  Definition window (plane : string) (i : nat) : ikey :=
    if named plane "longitudinal" then KI (Z.of_nat i)
    else KS (Some (Z.of_nat i - 1)%Z) (Some (Z.of_nat i + 2)%Z) None.
  Record WakeArgs : Type := {
    wa_plane : string; wa_len : T;
    wa_beam : T -> Solver T -> result (Solver T);   (* beam.update(self, t) *)
    wa_cb : T -> Solver T -> result (Solver T)      (* field monitor and callback *)
  }.
  Definition wake_Nt (w : Wake) (len dt zmax zmin : T) : Z :=
    ntrunc (ndiv (ndiv (nadd (nadd len (nmul (wk_ti w) (wk_v w))) (nsub zmax zmin)) (wk_v w)) dt).
  Definition wake_iter (xx yy : ikey) (Nz : nat) (beam cb : T -> Solver T -> result (Solver T))
      (st : Solver T * File) (n : nat) : result (Solver T * File) :=
    let '(s, f) := st in
    let t := nmul (nofnat n) (sdt s) in
    do s1 <- beam t s;
    do a <- getitem (fun x => x) (sE s1) (KTup xx yy (krange 0 (Z.of_nat Nz)) (CStr "z"));
    do s2 <- one_step s1;
    do s3 <- cb t s2;
    Ok (s3, f ++ [(snap_key n, a)]).
  Definition with_len (w : Wake) (l : T) : Wake :=
    {| wk_q := wk_q w; wk_v := wk_v w; wk_ti := wk_ti w; wk_xtest := wk_xtest w; wk_ytest := wk_ytest w;
       wk_len := Some l; wk_skip := wk_skip w; wk_ntc := wk_ntc w; wk_counter := wk_counter w;
       wk_save := wk_save w; wk_hf := wk_hf w; wk_t := wk_t w; wk_z := wk_z w; wk_zf := wk_zf w;
       wk_xf := wk_xf w; wk_yf := wk_yf w; wk_dx := wk_dx w; wk_dy := wk_dy w; wk_dz := wk_dz w;
       wk_Ezt := wk_Ezt w; wk_s := wk_s w; wk_WP := wk_WP w; wk_WP3 := wk_WP3 w;
       wk_WPx := wk_WPx w; wk_WPy := wk_WPy w; wk_txt := wk_txt w |}.
  (** The recording: the final solver state and the file Ez.h5. *)
  Definition wake_record (s : Solver T) (g : Grid T) (w : Wake) (a : WakeArgs) : result (Solver T * File) :=
    let x := centres (gx g) in let y := centres (gy g) in let z := centres (gz g) in
    do ixt <- nearest x (wk_xtest w); do iyt <- nearest y (wk_ytest w);
    let xx := window (wa_plane a) ixt in let yy := window (wa_plane a) iyt in
    do zmax <- np_max z; do zmin <- np_min z;
    let Nt := wake_Nt w (wa_len a) (sdt s) zmax zmin in
    do xs <- take xx x; do ys <- take yy y; do zs <- take (krange 0 (Z.of_nat (sNz s))) z;
    do ts <- arange nzero (nmul (nofZ Nt) (sdt s)) (sdt s);
    let head := [("x"%string, vec xs); ("y"%string, vec ys); ("z"%string, vec zs);
                 ("dx"%string, vec (widths (gx g))); ("dy"%string, vec (widths (gy g)));
                 ("dz"%string, vec (widths (gz g))); ("t"%string, vec ts)] in
    seq_upd (wake_iter xx yy (sNz s) (wa_beam a) (wa_cb a)) (s, head) (seq 0 (Z.to_nat Nt)).
  Definition wakesolve (s : Solver T) (g : Grid T) (w : Wake) (a : WakeArgs) : result (Solver T * File * Wake) :=
    do r <- wake_record s g w a;
    do w' <- solve_WP (wa_plane a) (with_len w (wa_len a)) (Some (snd r));
    Ok (r, w').
End WakeModel.
Arguments Wake T : clear implicits.
Arguments WakeArgs T : clear implicits.
Arguments File T : clear implicits.
Arguments Setup T : clear implicits.
Arguments charge T : clear implicits.
