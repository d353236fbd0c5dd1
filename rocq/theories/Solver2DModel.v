(** The two-dimensional solver: wakis/solver2D.py (15-626), one step on the physical grid and the construction of the
    absorbing blocks.

    Arrays are functions of the indices; entries outside the shape stay as they are.  The loops over the arrays read
    only arrays they do not write, so each is one simultaneous update.  Not modelled: gauss (never called), the fields
    inside the absorbing blocks and the values of their conductivities (for them Pml2DModel.v), printing, rounding. *)
From Coq Require Import List Arith ZArith Bool String.
From Verif Require Import Num Vec FieldModel GridModel SolverModel WakeModel Grid2DModel.
Import ListNotations.

Section Solver2D.
  Context {T : Type} {NT : Num T} {OT : NumOrd T} (sqrt_ : T -> T).
  Local Open Scope num_scope.
  Record em2 : Type := { ex : nat -> nat -> T; ey : nat -> nat -> T; hz : nat -> nat -> T }.
  (** what the step reads: grid, cell numbers and sizes, constants, time step *)
  Record par2 : Type := { p_g : @grid2 T; p_nx : nat; p_ny : nat; p_dx : T; p_dy : T; p_eps : T; p_mu : T; p_dt : T }.
  (** solver2D.py:31 *)
  Definition dt2 (cfln c dx dy : T) : T := cfln / (c * sqrt_ (none_ / (dx * dx) + none_ / (dy * dy))).
  Definition zero2 : em2 := {| ex := fun _ _ => nzero; ey := fun _ _ => nzero; hz := fun _ _ => nzero |}.

  (** advance_h_fdtd (459-470), C1 and C2 of 147-153 *)
  Definition h_fdtd (p : par2) (s : em2) : em2 :=
    let c1 := p_dt p / (p_dx p * p_mu p) in
    let c2 := p_dt p / (p_dy p * p_mu p) in
    {| ex := ex s; ey := ey s;
       hz := fun i j => if (i <? p_nx p)%nat && (j <? p_ny p)%nat && g_int (p_g p) i j
         then hz s i j - c1 * (ey s (S i) j - ey s i j) + c2 * (ex s i (S j) - ex s i j) else hz s i j |}.
  (** advance_e_fdtd (472-494) *)
  Definition e_fdtd (p : par2) (jx jy : nat -> nat -> T) (s : em2) : em2 :=
    let c3 := p_dt p / p_eps p in
    let c4 := p_dt p / (p_dy p * p_eps p) in
    let c5 := p_dt p / (p_dx p * p_eps p) in
    {| ex := fun i j => if (i <? p_nx p)%nat && (1 <=? j)%nat && (j <? p_ny p)%nat && g_int (p_g p) i j && nltb nzero (g_lx (p_g p) i j)
         then ex s i j - c3 * jx i j + c4 * (hz s i j - hz s i (j - 1)%nat) else ex s i j;
       ey := fun i j => if (1 <=? i)%nat && (i <? p_nx p)%nat && (j <? p_ny p)%nat && g_int (p_g p) i j && nltb nzero (g_ly (p_g p) i j)
         then ey s i j - c3 * jy i j - c5 * (hz s i j - hz s (i - 1)%nat j) else ey s i j;
       hz := hz s |}.
  (** one_step_fdtd (425-434) without absorbing blocks *)
  Definition step_fdtd (p : par2) (jx jy : nat -> nat -> T) (s : em2) : em2 := e_fdtd p jx jy (h_fdtd p s).

  (** compute_v_and_rho (551-564) *)
  Definition circ (p : par2) (s : em2) (i j : nat) : T :=
    let g := p_g p in
    ey s (S i) j * g_ly g (S i) j - ey s i j * g_ly g i j - ex s i (S j) * g_lx g i (S j) + ex s i j * g_lx g i j.
  (** one_step_dm (436-457), the loop over Hz *)
  Definition h_dm (p : par2) (s : em2) : em2 :=
    {| ex := ex s; ey := ey s;
       hz := fun i j => if (i <? p_nx p)%nat && (j <? p_ny p)%nat && g_int (p_g p) i j
         then hz s i j - p_dt p / (p_mu p * g_S (p_g p) i j) * circ p s i j else hz s i j |}.
  (** advance_e_dm (566-587) *)
  Definition e_dm (p : par2) (jx jy : nat -> nat -> T) (s : em2) : em2 :=
    let c3 := p_dt p / p_eps p in
    {| ex := fun i j => if (i <? p_nx p)%nat && (1 <=? j)%nat && (j <? p_ny p)%nat && nltb nzero (g_lx (p_g p) i j)
         then ex s i j + p_dt p / (p_eps p * p_dy p) * (hz s i j - hz s i (j - 1)%nat) - c3 * jx i j else ex s i j;
       ey := fun i j => if (1 <=? i)%nat && (i <? p_nx p)%nat && (j <? p_ny p)%nat && nltb nzero (g_ly (p_g p) i j)
         then ey s i j - p_dt p / (p_eps p * p_dx p) * (hz s i j - hz s (i - 1)%nat j) - c3 * jy i j else ey s i j;
       hz := hz s |}.
  Definition step_dm (p : par2) (jx jy : nat -> nat -> T) (s : em2) : em2 := e_dm p jx jy (h_dm p s).

  (** one_step_ect (496-549).  First the unstable cells in order, with V_enl; then the stable ones.  [rho] is the
      circulation over S, zero in cells that are not interior (their entry is never written). *)
  Definition rho2 (p : par2) (s : em2) (i j : nat) : T := if g_int (p_g p) i j then circ p s i j / g_S (p_g p) i j else nzero.
  Definition ect_unst (p : par2) (e : @ext T) (rho : nat -> nat -> T) (st : (nat -> nat -> T) * (nat -> nat -> T)) (c : nat * nat)
    : (nat -> nat -> T) * (nat -> nat -> T) :=
    let (i, j) := c in
    let (v, h) := st in
    if g_int (p_g p) i j && g_unst (p_g p) i j then
      let bor := e_bor e i j in
      let v1 := fold_left (fun (a : T) (b : nat * nat * T) => a + rho (fst (fst b)) (snd (fst b)) * snd b) bor (rho i j * g_S (p_g p) i j) in
      let re := v1 / e_enl e i j in
      let v' := fold_left (fun (v : nat -> nat -> T) (b : nat * nat * T) => upd2 v (fst (fst b)) (snd (fst b)) (v (fst (fst b)) (snd (fst b)) + re * snd b))
        bor (upd2 v i j v1) in
      (v', upd2 h i j (h i j - p_dt p / p_mu p * re))
    else st.
  Definition h_ect (p : par2) (e : @ext T) (s : em2) : em2 :=
    let rho := rho2 p s in
    let (v, h) := fold_left (ect_unst p e rho) (cells (p_nx p) (p_ny p)) (fun _ _ => nzero, hz s) in
    {| ex := ex s; ey := ey s;
       hz := fun i j => if (i <? p_nx p)%nat && (j <? p_ny p)%nat && g_int (p_g p) i j && negb (g_unst (p_g p) i j)
         then (if e_intr e i j then h i j - p_dt p / p_mu p * (v i j + rho i j * e_red e i j) / g_S (p_g p) i j
               else h i j - p_dt p / p_mu p * rho i j)
         else h i j |}.
  (** one_step (388-423) for 'ECT' without absorbing blocks *)
  Definition step_ect (p : par2) (e : @ext T) (jx jy : nat -> nat -> T) (s : em2) : em2 := e_dm p jx jy (h_ect p e s).

  (** Runs: the currents of the successive steps. *)
  Definition run2 (step : (nat -> nat -> T) -> (nat -> nat -> T) -> em2 -> em2) (js : list ((nat -> nat -> T) * (nat -> nat -> T))) (s : em2) : em2 :=
    fold_left (fun s (j : (nat -> nat -> T) * (nat -> nat -> T)) => step (fst j) (snd j) s) js s.
End Solver2D.

(** ** The absorbing blocks: construction (51-104), organize_pmls (161-196), the writes of
    assemble_conductivities_pmls (198-319) and assemble_coeffs_pmls (321-340).  A block is its name; touching a block
    that was not created is AttributeError on None.  The sizes of the blocks are kept. *)
Inductive blk := Lx | Rx | Ly | Ry | LxLy | LxRy | RxLy | RxRy.
Inductive side := SLx | SRx | SLy | SRy.
(** a neighbour: the solver itself or a block, None when the attribute holds None *)
Inductive who := Main | Blk (b : blk).
Definition blk_eqb (a b : blk) : bool :=
  match a, b with
  | Lx, Lx | Rx, Rx | Ly, Ly | Ry, Ry | LxLy, LxLy | LxRy, LxRy | RxLy, RxLy | RxRy, RxRy => true
  | _, _ => false
  end.
Definition side_eqb (a b : side) : bool := match a, b with SLx, SLx | SRx, SRx | SLy, SLy | SRy, SRy => true | _, _ => false end.
Record pml2 : Type := { b_size : blk -> option (nat * nat); b_link : blk -> side -> option who; b_sig : blk -> bool; b_coef : blk -> bool }.
(** the four boundaries: low x, high x, low y, high y are 'pml' *)
Record walls : Type := { w_lx : bool; w_rx : bool; w_ly : bool; w_ry : bool }.
Definition blk_new (b : blk) (nx ny : nat) (s : pml2) : pml2 :=
  {| b_size := fun x => if blk_eqb x b then Some (nx, ny) else b_size s x; b_link := b_link s; b_sig := b_sig s; b_coef := b_coef s |}.
Definition has (s : pml2) (b : blk) : bool := match b_size s b with Some _ => true | None => false end.
(** block.side_block = value, where the value is an attribute of the solver and may be None *)
Definition link (b : blk) (d : side) (v : who) (s : pml2) : result pml2 :=
  if has s b then Ok {| b_size := b_size s;
    b_link := fun x e => if blk_eqb x b && side_eqb e d then match v with Main => Some Main | Blk c => if has s c then Some v else None end else b_link s x e;
    b_sig := b_sig s; b_coef := b_coef s |} else Err AttributeError.
Definition sig (b : blk) (s : pml2) : result pml2 :=
  if has s b then Ok {| b_size := b_size s; b_link := b_link s; b_sig := fun x => blk_eqb x b || b_sig s x; b_coef := b_coef s |} else Err AttributeError.
Definition coef (b : blk) (s : pml2) : result pml2 :=
  if has s b then Ok {| b_size := b_size s; b_link := b_link s; b_sig := b_sig s; b_coef := fun x => blk_eqb x b || b_coef s x |} else Err AttributeError.
Definition whenr (c : bool) (f : pml2 -> result pml2) (s : pml2) : result pml2 := if c then f s else Ok s.
Definition whenp (c : bool) (f : pml2 -> pml2) (s : pml2) : pml2 := if c then f s else s.
Definition andthen (f g : pml2 -> result pml2) (s : pml2) : result pml2 := do s' <- f s; g s'.
Definition create (w : walls) (nx ny nlx nrx nly nry : nat) : pml2 :=
  let s := {| b_size := fun _ => None; b_link := fun _ _ => None; b_sig := fun _ => false; b_coef := fun _ => false |} in
  let s := whenp (w_lx w) (blk_new Lx nlx ny) s in
  let s := whenp (w_lx w && w_ly w) (blk_new LxLy nlx nly) s in
  let s := whenp (w_lx w && w_ry w) (blk_new LxRy nlx nry) s in
  let s := whenp (w_rx w) (blk_new Rx nrx ny) s in
  let s := whenp (w_rx w && w_ly w) (blk_new RxRy nrx nry) s in
  let s := whenp (w_rx w && w_ry w) (blk_new RxLy nrx nly) s in
  let s := whenp (w_ly w) (blk_new Ly nx nly) s in
  whenp (w_ry w) (blk_new Ry nx nry) s.
Fixpoint seqr (fs : list (pml2 -> result pml2)) (s : pml2) : result pml2 :=
  match fs with [] => Ok s | f :: fs => do s' <- f s; seqr fs s' end.
Definition organize (w : walls) : pml2 -> result pml2 := seqr [
  whenr (w_lx w) (seqr [link Lx SRx Main;
    whenr (w_ly w) (seqr [link Lx SLy (Blk LxLy); link LxLy SRy (Blk Lx); link LxLy SRx (Blk Ly)]);
    whenr (w_ry w) (seqr [link Lx SRy (Blk LxRy); link LxRy SLy (Blk Lx); link LxRy SRx (Blk Ry)])]);
  whenr (w_rx w) (seqr [link Rx SLx Main;
    whenr (w_ry w) (seqr [link Rx SRy (Blk RxRy); link RxLy SLx (Blk Ly); link RxLy SRy (Blk Rx)]);
    whenr (w_ly w) (seqr [link Rx SLy (Blk RxLy); link RxRy SLx (Blk Ry); link RxRy SLy (Blk Rx)])]);
  whenr (w_ly w) (seqr [link Ly SRy Main;
    whenr (w_lx w) (link Ly SLx (Blk LxLy));
    whenr (w_lx w) (link Ly SRx (Blk RxLy))]);
  whenr (w_ry w) (seqr [link Ry SLy Main;
    whenr (w_lx w) (link Ry SLx (Blk LxRy));
    whenr (w_rx w) (link Ry SRx (Blk RxRy))])].
(** sigma arrays written; a loop over no layers touches nothing, which [n] > 0 excludes *)
Definition sigmas (w : walls) : pml2 -> result pml2 := seqr [
  whenr (w_lx w) (seqr [sig Lx; whenr (w_ly w) (sig LxLy); whenr (w_ry w) (sig LxRy)]);
  whenr (w_rx w) (seqr [sig Rx; whenr (w_ry w) (sig RxRy); whenr (w_ly w) (sig RxLy)]);
  whenr (w_ly w) (sig Ly);
  whenr (w_ry w) (sig Ry)].
Definition coefs (w : walls) : pml2 -> result pml2 := seqr [
  whenr (w_lx w) (seqr [coef Lx; whenr (w_ly w) (coef LxLy); whenr (w_ry w) (coef LxRy)]);
  whenr (w_rx w) (seqr [coef Rx; whenr (w_lx w) (coef RxRy); whenr (w_ry w) (coef RxLy)]);
  whenr (w_ly w) (coef Ly);
  whenr (w_ry w) (coef Ry)].
(** Layers on a wall that is not absorbing are zero (37-49). *)
Definition build2 (w : walls) (nx ny nlx nrx nly nry : nat) : result pml2 :=
  let z (b : bool) n := if b then n else 0 in
  seqr [organize w; sigmas w; coefs w] (create w nx ny (z (w_lx w) nlx) (z (w_rx w) nrx) (z (w_ly w) nly) (z (w_ry w) nry)).
