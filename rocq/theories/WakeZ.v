(** Model of the impedances, /repo/wakis/wakeSolver.py: calc_long_Z (621-709) and calc_trans_Z (711-770),
    with numpy's fft, fftfreq and boolean masks.

    Complex numbers are pairs.  [tw N m] stands for exp(-2 pi i m / N); the sine and cosine are a
    parameter here and the real ones in the theorems.  numpy's fft is the defining sum.  A complex
    division by zero gives nan in numpy; here it gives some value, and theorems exclude it. *)
From Coq Require Import List Arith ZArith Bool String Lia.
From Verif Require Import Num Vec FieldModel GridModel SolverModel WakeModel.
Import ListNotations.

Section Impedance.
  Context {T : Type} {NT : Num T} {OT : NumOrd T} {FT : NumFl T}.
  Local Open Scope num_scope.

  Definition cx : Type := (T * T)%type.
  Definition c0 : cx := (0, 0).
  Definition cadd (a b : cx) : cx := (fst a + fst b, snd a + snd b).
  Definition cmul (a b : cx) : cx := (fst a * fst b - snd a * snd b, fst a * snd b + snd a * fst b).
  Definition cscale (x : T) (a : cx) : cx := (x * fst a, x * snd a).
  Definition copp (a : cx) : cx := (- fst a, - snd a).
  Definition cnorm2 (a : cx) : T := fst a * fst a + snd a * snd a.
  Definition cdiv (a b : cx) : cx :=
    ((fst a * fst b + snd a * snd b) / cnorm2 b, (snd a * fst b - fst a * snd b) / cnorm2 b).
  Definition ci : cx := (0, 1).
  Definition csum (n : nat) (f : nat -> cx) : cx := (sum n (fun i => fst (f i)), sum n (fun i => snd (f i))).
  Definition cget (v : list cx) (i : nat) : cx := nth i v c0.

  Context (tw : nat -> nat -> cx).
  (** np.fft.fft(x, n=N): entries beyond N are dropped, missing ones are zero. *)
  Definition fft (N : nat) (x : list T) : list cx :=
    tab N (fun k => csum N (fun n => cscale (get x n) (tw N (n * k)))).
  (** np.fft.fftfreq(n, d) *)
  Definition fftfreq (n : nat) (d : T) : list T :=
    let val := 1 / (nofnat n * d) in
    tab ((n - 1) / 2 + 1) (fun i => nofnat i * val) ++
    tab (n / 2) (fun i => nofZ (Z.of_nat i - Z.of_nat (n / 2)) * val).
  (** np.logical_and(f >= 0, f < fmax), as the selected positions *)
  Definition picked (f : list T) (fmax : T) : list nat :=
    filter (fun i => negb (nltb (get f i) 0) && nltb (get f i) fmax) (seq 0 (List.length f)).
  (** np.mean(s[1:] - s[:-1]); nan for fewer than two samples, which int() rejects later. *)
  Definition mean_step (s : list T) : result T :=
    match s with
    | _ :: _ :: _ =>
        Ok (sum (List.length s - 1) (fun i => get s (S i) - get s i) / nofnat (List.length s - 1))
    | _ => Err ValueError
    end.
  (** int((v / ds) // fmax * samples); fft rejects N < 1; division by zero ends in int(nan). *)
  Definition dft_len (v ds fmax : T) (samples : nat) : result nat :=
    if neqb ds 0 || neqb fmax 0 then Err ValueError
    else let N := (nfloor (v / ds / fmax)%num * Z.of_nat samples)%Z in
         if (N <? 1)%Z then Err ValueError else Ok (Z.to_nat N).

  (** self.f, self.lambdaf and the spectrum of one potential *)
  Record Spectra : Type := { sp_f : list T; sp_lam : list cx; sp_WP : list (list cx) }.
  Definition spectra (v fmax : T) (samples : nat) (s lam : list T) (WPs : list (list T)) : result Spectra :=
    do ds <- mean_step s;
    do N <- dft_len v ds fmax samples;
    let f := fftfreq N (ds / v) in
    let m := picked f fmax in
    let pick (x : list cx) := map (fun i => cscale ds (cget x i)) m in
    Ok {| sp_f := map (get f) m;
          sp_lam := pick (fft N (map (fun x => x * v) lam));
          sp_WP := map (fun WP => pick (fft N (map (fun x => x * pico) WP))) WPs |}.
  Definition ratio (g : cx -> cx) (a b : list cx) : list cx := tab (List.length a) (fun i => cdiv (g (cget a i)) (cget b i)).
  (** calc_long_Z: (f, Z, lambdaf) *)
  Definition calc_long_Z (v fmax : T) (samples : nat) (s lam WP : list T) : result (list T * list cx * list cx) :=
    do r <- spectra v fmax samples s lam [WP];
    Ok (sp_f r, ratio copp (nth 0 (sp_WP r) []) (sp_lam r), sp_lam r).
  (** calc_trans_Z: (fx, Zx, Zy) *)
  Definition calc_trans_Z (v fmax : T) (samples : nat) (s lam WPx WPy : list T) : result (list T * list cx * list cx) :=
    do r <- spectra v fmax samples s lam [WPx; WPy];
    Ok (sp_f r, ratio (cmul ci) (nth 0 (sp_WP r) []) (sp_lam r), ratio (cmul ci) (nth 1 (sp_WP r) []) (sp_lam r)).
End Impedance.
Arguments cx T : clear implicits.
