(** The absorbing blocks of the two-dimensional solver in motion: wakis/pmlBlock2D.py (1-157), the conductivities that
    solver2D.py (198-319) gives them, and the steps of solver2D.py with blocks (342-378, 425-457, 589-626).

    Arrays are functions of the indices; entries outside the shape stay as they are.  A block keeps the six split
    fields; Ex, Ey, Hz of a block are always their sums (they start as zeros and every method that writes a split field
    ends by summing), so they are functions of the split fields here.  The loops over the arrays read only arrays they do
    not write, so each is one simultaneous update.  The Jx, Jy and Eyz-, Exz-conductivity arrays (sigma_z) of a block are
    never written and stay zero: Az = 1 once assembled.  np.log is a parameter.  Not modelled: 'ECT' with blocks,
    rounding, nan (see [sig_m]). *)
From Coq Require Import List Arith ZArith Bool String.
From Verif Require Import Num Vec FieldModel GridModel SolverModel WakeModel Grid2DModel Solver2DModel.
Import ListNotations.

Section Pml2D.
  Context {T : Type} {NT : Num T} {OT : NumOrd T} (log_ : T -> T).
  Local Open Scope num_scope.
  (** pmlBlock2D.py:26-32 *)
  Record bst : Type := { xy : nat -> nat -> T; xz : nat -> nat -> T; yx : nat -> nat -> T; yz : nat -> nat -> T;
                         zx : nat -> nat -> T; zy : nat -> nat -> T }.
  Definition b_ex (b : bst) (i j : nat) : T := xy b i j + xz b i j.
  Definition b_ey (b : bst) (i j : nat) : T := yx b i j + yz b i j.
  Definition b_hz (b : bst) (i j : nat) : T := zx b i j + zy b i j.
  Definition zero_b : bst := let z := fun _ _ => nzero in {| xy := z; xz := z; yx := z; yz := z; zx := z; zy := z |}.
  Definition ntwo : T := none_ + none_.

  (** assemble_coeffs (70-94); [on] says whether it was called, the arrays are zero before (45-56).  The magnetic
      conductivity is sigma * mu_0 / eps_0 (solver2D.py:296-319). *)
  Definition cA (p : @par2 T) (on : bool) (s : T) : T := if on then (ntwo * p_eps p - p_dt p * s) / (ntwo * p_eps p + p_dt p * s) else nzero.
  Definition cB (p : @par2 T) (on : bool) (s : T) : T := if on then ntwo * p_dt p / (ntwo * p_eps p + p_dt p * s) else nzero.
  Definition star (p : @par2 T) (s : T) : T := s * p_mu p / p_eps p.
  Definition cC (p : @par2 T) (on : bool) (s : T) : T := if on then (ntwo * p_mu p - p_dt p * star p s) / (ntwo * p_mu p + p_dt p * star p s) else nzero.
  Definition cD (p : @par2 T) (on : bool) (s : T) : T := if on then ntwo * p_dt p / (ntwo * p_mu p + p_dt p * star p s) else nzero.

  (** What a block reads: its size, the conductivities sigma_x (by row) and sigma_y (by column), [on] as above. *)
  Record bpar : Type := { q_nx : nat; q_ny : nat; q_sx : nat -> T; q_sy : nat -> T; q_on : bool }.
  (** advance_h_fdtd (96-106) *)
  Definition b_adv_h (p : @par2 T) (q : bpar) (b : bst) : bst :=
    {| xy := xy b; xz := xz b; yx := yx b; yz := yz b;
       zx := fun i j => if (i <? q_nx q)%nat && (j <? q_ny q)%nat
         then cC p (q_on q) (q_sx q i) * zx b i j - cD p (q_on q) (q_sx q i) / p_dx p * (b_ey b (S i) j - b_ey b i j) else zx b i j;
       zy := fun i j => if (i <? q_nx q)%nat && (j <? q_ny q)%nat
         then cC p (q_on q) (q_sy q j) * zy b i j + cD p (q_on q) (q_sy q j) / p_dy p * (b_ex b i (S j) - b_ex b i j) else zy b i j |}.
  (** advance_e_fdtd (108-124) *)
  Definition b_adv_e (p : @par2 T) (q : bpar) (b : bst) : bst :=
    let az := cA p (q_on q) nzero in
    {| xy := fun i j => if (i <? q_nx q)%nat && (1 <=? j)%nat && (j <? q_ny q)%nat
         then cA p (q_on q) (q_sy q j) * xy b i j + cB p (q_on q) (q_sy q j) / p_dy p * (b_hz b i j - b_hz b i (j - 1)%nat) else xy b i j;
       xz := fun i j => if (i <? q_nx q)%nat && (1 <=? j)%nat && (j <? q_ny q)%nat then az * xz b i j else xz b i j;
       yx := fun i j => if (1 <=? i)%nat && (i <? q_nx q)%nat && (j <? q_ny q)%nat
         then cA p (q_on q) (q_sx q i) * yx b i j - cB p (q_on q) (q_sx q i) / p_dx p * (b_hz b i j - b_hz b (i - 1)%nat j) else yx b i j;
       yz := fun i j => if (1 <=? i)%nat && (i <? q_nx q)%nat && (j <? q_ny q)%nat then az * yz b i j else yz b i j;
       zx := zx b; zy := zy b |}.
  (** update_e_boundary (126-157).  The neighbours' last or first line of Hz, None when there is no neighbour.  Index -1
      of the arrays shaped like sigma_x is row Nx - 1, of those shaped like sigma_y column Ny - 1. *)
  Record nbr : Type := { n_lx : option (nat -> T); n_rx : option (nat -> T); n_ly : option (nat -> T); n_ry : option (nat -> T) }.
  Definition is_some {A} (o : option A) : bool := match o with Some _ => true | None => false end.
  Definition val (o : option (nat -> T)) (k : nat) : T := match o with Some f => f k | None => nzero end.
  Definition b_bound (p : @par2 T) (q : bpar) (n : nbr) (b : bst) : bst :=
    let az := cA p (q_on q) nzero in
    let nx := q_nx q in let ny := q_ny q in
    {| xy := fun i j =>
         if (i <? nx)%nat && (j =? 0)%nat && is_some (n_ly n)
         then cA p (q_on q) (q_sy q 0%nat) * xy b i j + cB p (q_on q) (q_sy q 0%nat) / p_dy p * (b_hz b i 0%nat - val (n_ly n) i)
         else if (i <? nx)%nat && (j =? ny)%nat && is_some (n_ry n)
         then cA p (q_on q) (q_sy q (ny - 1)%nat) * xy b i j + cB p (q_on q) (q_sy q (ny - 1)%nat) / p_dy p * (val (n_ry n) i - b_hz b i (ny - 1)%nat)
         else xy b i j;
       xz := fun i j => if (i <? nx)%nat && ((j =? 0)%nat && is_some (n_ly n) || (j =? ny)%nat && is_some (n_ry n)) then az * xz b i j else xz b i j;
       yx := fun i j =>
         if (i =? 0)%nat && (j <? ny)%nat && is_some (n_lx n)
         then cA p (q_on q) (q_sx q 0%nat) * yx b i j - cB p (q_on q) (q_sx q 0%nat) / p_dx p * (b_hz b 0%nat j - val (n_lx n) j)
         else if (i =? nx)%nat && (j <? ny)%nat && is_some (n_rx n)
         then cA p (q_on q) (q_sx q (nx - 1)%nat) * yx b i j - cB p (q_on q) (q_sx q (nx - 1)%nat) / p_dx p * (val (n_rx n) j - b_hz b (nx - 1)%nat j)
         else yx b i j;
       yz := fun i j => if (j <? ny)%nat && ((i =? 0)%nat && is_some (n_lx n) || (i =? nx)%nat && is_some (n_rx n)) then az * yz b i j else yz b i j;
       zx := zx b; zy := zy b |}.

  (** ** The conductivities, solver2D.py:198-294, alpha_pml = 3, R0_pml = 0.001 (107-108) *)
  Definition n4 : T := ntwo * ntwo.
  Definition r0 : T := let t := nofnat 10 in none_ / (t * t * t).
  (** 203-234; [h] is the cell size the code divides by.  With one layer the code divides by 0.0: inf, and nan in the
      array. *)
  Definition sig_m (eps c h : T) (n : nat) : T := - n4 * eps * c / (ntwo * nofnat (n - 1) * h) * log_ r0.
  (** 236-294: layer [k] of [n] *)
  Definition layer (sm : T) (n k : nat) : T := let x := nofnat k / nofnat n in sm * (x * x * x).
  Record lay : Type := { l_lx : nat; l_rx : nat; l_ly : nat; l_ry : nat }.
  (** rows of sigma_x: the low walls write row -(n+1), the high walls row n; the maximum of the high x wall is scaled
      with dy (222) *)
  Definition sx (p : @par2 T) (c : T) (w : walls) (l : lay) (b : blk) (i : nat) : T :=
    let lo := layer (sig_m (p_eps p) c (p_dx p) (l_lx l)) (l_lx l) (l_lx l - 1 - i)%nat in
    let hi := layer (sig_m (p_eps p) c (p_dy p) (l_rx l)) (l_rx l) i in
    match b with
    | Lx => lo
    | LxLy => if w_ly w then lo else nzero
    | LxRy => if w_ry w then lo else nzero
    | Rx => hi
    | RxRy => if w_ry w then hi else nzero
    | RxLy => if w_ly w then hi else nzero
    | Ly | Ry => nzero
    end.
  (** columns of sigma_y *)
  Definition sy (p : @par2 T) (c : T) (w : walls) (l : lay) (b : blk) (j : nat) : T :=
    let lo := layer (sig_m (p_eps p) c (p_dy p) (l_ly l)) (l_ly l) (l_ly l - 1 - j)%nat in
    let hi := layer (sig_m (p_eps p) c (p_dy p) (l_ry l)) (l_ry l) j in
    match b with
    | Lx | Rx => nzero
    | LxLy => if w_lx w && w_ly w then lo else nzero
    | LxRy => if w_lx w && w_ry w then hi else nzero
    | RxRy => if w_rx w && w_ry w then hi else nzero
    | RxLy => if w_rx w && w_ly w then lo else nzero
    | Ly => lo
    | Ry => hi
    end.

  (** ** The solver with its blocks *)
  Record st2 : Type := { mn : @em2 T; bl : blk -> bst }.
  Definition zero_st : st2 := {| mn := zero2; bl := fun _ => zero_b |}.
  (** what a step reads: [k_pm] is the outcome of the construction (Solver2DModel.build2) *)
  Record conf : Type := { k_p : @par2 T; k_c : T; k_w : walls; k_l : lay; k_pm : pml2 }.
  Definition bparam (k : conf) (b : blk) : bpar :=
    {| q_nx := match b_size (k_pm k) b with Some (x, _) => x | None => 0%nat end;
       q_ny := match b_size (k_pm k) b with Some (_, y) => y | None => 0%nat end;
       q_sx := sx (k_p k) (k_c k) (k_w k) (k_l k) b; q_sy := sy (k_p k) (k_c k) (k_w k) (k_l k) b; q_on := b_coef (k_pm k) b |}.
  (** Hz and size of the solver or of a block *)
  Definition w_hz (s : st2) (a : who) : nat -> nat -> T := match a with Main => hz (mn s) | Blk b => b_hz (bl s b) end.
  Definition w_nx (k : conf) (a : who) : nat := match a with Main => p_nx (k_p k) | Blk b => q_nx (bparam k b) end.
  Definition w_ny (k : conf) (a : who) : nat := match a with Main => p_ny (k_p k) | Blk b => q_ny (bparam k b) end.
  Definition neigh (k : conf) (s : st2) (b : blk) : nbr :=
    let f d (g : who -> nat -> T) := match b_link (k_pm k) b d with Some a => Some (g a) | None => None end in
    {| n_lx := f SLx (fun a j => w_hz s a (w_nx k a - 1)%nat j); n_rx := f SRx (fun a j => w_hz s a 0%nat j);
       n_ly := f SLy (fun a i => w_hz s a i (w_ny k a - 1)%nat); n_ry := f SRy (fun a i => w_hz s a i 0%nat) |}.
  Definition each (k : conf) (f : blk -> bst -> bst) (bs : blk -> bst) : blk -> bst := fun b => if has (k_pm k) b then f b (bs b) else bs b.
  (** update_e_boundary (342-378) of the solver, before the blocks; [c4], [c5] multiply the differences in y and x *)
  Definition m_bound (k : conf) (c4 c5 : T) (jx jy : nat -> nat -> T) (s : st2) : @em2 T :=
    let p := k_p k in let m := mn s in
    let c3 := p_dt p / p_eps p in
    let h b := b_hz (bl s b) in
    {| ex := fun i j =>
         if (i <? p_nx p)%nat && (j =? 0)%nat && has (k_pm k) Ly
         then ex m i j - c3 * jx i j + c4 * (hz m i 0%nat - h Ly i (w_ny k (Blk Ly) - 1)%nat)
         else if (i <? p_nx p)%nat && (j =? p_ny p)%nat && has (k_pm k) Ry
         then ex m i j - c3 * jx i j + c4 * (h Ry i 0%nat - hz m i (p_ny p - 1)%nat)
         else ex m i j;
       ey := fun i j =>
         if (i =? 0)%nat && (j <? p_ny p)%nat && has (k_pm k) Lx
         then ey m i j - c3 * jy i j - c5 * (hz m 0%nat j - h Lx (w_nx k (Blk Lx) - 1)%nat j)
         else if (i =? p_nx p)%nat && (j <? p_ny p)%nat && has (k_pm k) Rx
         then ey m i j - c3 * jy i j - c5 * (h Rx 0%nat j - hz m (p_nx p - 1)%nat j)
         else ey m i j;
       hz := hz m |}.
  (** The steps: [hs], [es] are the solver's own half steps.  E of the blocks reads Hz only, so the blocks of
      update_e_boundary can all look at the state before it. *)
  Definition step_blocks (k : conf) (hs : @em2 T -> @em2 T) (es : @em2 T -> @em2 T) (c4 c5 : T) (jx jy : nat -> nat -> T) (s : st2) : st2 :=
    let p := k_p k in
    let s1 := {| mn := hs (mn s); bl := each k (fun b => b_adv_h p (bparam k b)) (bl s) |} in
    let s2 := {| mn := es (mn s1); bl := each k (fun b => b_adv_e p (bparam k b)) (bl s1) |} in
    {| mn := m_bound k c4 c5 jx jy s2; bl := each k (fun b => b_bound p (bparam k b) (neigh k s2 b)) (bl s2) |}.
  (** one_step_fdtd (425-434): C4, C5 of 152-153 *)
  Definition step_fdtd_b (k : conf) (jx jy : nat -> nat -> T) : st2 -> st2 :=
    let p := k_p k in
    step_blocks k (h_fdtd p) (e_fdtd p jx jy) (p_dt p / (p_dy p * p_eps p)) (p_dt p / (p_dx p * p_eps p)) jx jy.
  (** one_step_dm (436-457), update_e_boundary_dm (589-626): dy in both directions *)
  Definition step_dm_b (k : conf) (jx jy : nat -> nat -> T) : st2 -> st2 :=
    let p := k_p k in
    step_blocks k (h_dm p) (e_dm p jx jy) (p_dt p / (p_eps p * p_dy p)) (p_dt p / (p_eps p * p_dy p)) jx jy.
  Definition run_b (step : (nat -> nat -> T) -> (nat -> nat -> T) -> st2 -> st2) (js : list ((nat -> nat -> T) * (nat -> nat -> T))) (s : st2) : st2 :=
    fold_left (fun s (j : (nat -> nat -> T) * (nat -> nat -> T)) => step (fst j) (snd j) s) js s.
  (** The constructed solver (Solver2DModel.build2): layers of a wall that is not absorbing are zero (37-49). *)
  Definition new_conf (p : @par2 T) (c : T) (w : walls) (l : lay) : result conf :=
    do pm <- build2 w (p_nx p) (p_ny p) (l_lx l) (l_rx l) (l_ly l) (l_ry l); Ok {| k_p := p; k_c := c; k_w := w; k_l := l; k_pm := pm |}.
End Pml2D.
