(** Properties C52 to C55, C57, C58, C71, C76 to C80: wake potentials. *)
From Coq Require Import List Arith ZArith Bool String Lia Ring Field QArith Qcanon.
From Verif Require Import Num Vec FieldModel FieldSpec FieldProofs GridModel SolverModel SolverKern SolverCons SolverKit
  WakeModel WakeNum WakeProofs WakeCells WakeNames WakeRun WakeTrans WakeTotal.
Import ListNotations.
Open Scope nat_scope.

(** Vocabulary (defined with the lemmas): [recorded f nt dt zf dz a] says the file [f] holds the times
    n*dt, the axis [zf], the widths [dz] and, at position n of its sorted names, the array [a n];
    [delay v dt a b] is floor((a - b) / (v dt)), the number of steps light needs from b to a;
    [s_axis w dt len] is the axis -ti v, -ti v + dt v, ... below len; [steps] lists the states of a run:
    [u n] before the source, [b n] after it (when the field is recorded), [u (n+1)] after the callback. *)

(** 10^12: wake potentials are per pC *)
Definition ten {T : Type} {NT : Num T} : T := (none_ + none_ + none_ + none_ + none_ + none_ + none_ + none_ + none_ + none_)%num.
Definition e12 {T : Type} {NT : Num T} : T := (ten * ten * ten * ten * ten * ten * ten * ten * ten * ten * ten * ten)%num.
Section E12.
Context {T : Type} {NT : Num T} {LT : NumLaws T}.
Add Field e12_field : (@num_field T NT LT).
Lemma e12_pico : pico = e12.
Proof.
  assert (H : nofnat 10 = ten :> T) by (unfold ten; cbn; ring).
  unfold pico, e12. rewrite H. generalize (@ten T NT). intros t. cbn. ring.
Qed.
End E12.

(** ** C52.  The record level: any file, any fields. *)
Theorem C52_wake_potential : forall (T : Type) (NT : Num T) (LT : NumLaws T) (OT : NumOrd T) (FT : NumFl T) (FL : NumFlLaws T)
    (w : Wake T) f nt dt zf dz (a : nat -> list T) len,
  wk_hf w = None -> wk_len w = Some len -> wk_skip w = 0 ->
  recorded f nt dt zf dz (fun n => vec (a n)) -> 3 <= nt -> zf <> [] ->
  (forall n, n < nt -> List.length (a n) = List.length zf) ->
  List.length zf <= List.length dz -> nltb nzero dt = true -> nltb nzero (wk_v w) = true ->
  exists zmin w', np_min zf = Ok zmin /\ calc_long_WP w (Some f) None = Ok w' /\
    wk_s w' = Some (s_axis w dt len) /\
    wk_WP w' = Some (tab (List.length (s_axis w dt len)) (fun n =>
      (sum (List.length zf) (fun k =>
         let it := (Z.of_nat n + delay (wk_v w) dt (get zf k) zmin)%Z in
         if (it <? Z.of_nat nt)%Z then get (a (Z.to_nat it)) k * get dz k else nzero)
       / (wk_q w * e12))%num)).
Proof.
  intros T NT LT OT FT FL w f nt dt zf dz a len H1 H2 H3 H4 H5 H6 H7 H8 H9 H10.
  destruct (long_WP_spec w f nt dt zf dz a len H1 H2 H3 H4 H5 H6 H7 H8 H9 H10) as (zmin & w' & A & B & C & D & _).
  exists zmin, w'. unfold s_axis. rewrite tab_length, <- e12_pico. auto.
Qed.
Print Assumptions C52_wake_potential.

(** A whole run: wakesolve on any built solver completes and returns the time-shifted line integral
    of the recorded states along the cells nearest to the test position. *)
Theorem C52_run : forall (T : Type) (NT : Num T) (LT : NumLaws T) (OT : NumOrd T) (FT : NumFl T) (FL : NumFlLaws T)
    env g g' ar (s : Solver T) (w : Wake T) (a : WakeArgs T),
  made env g g' ar s -> nltb nzero (sdt s) = true -> nltb nzero (wk_v w) = true ->
  harmless env g g' ar (wa_beam a) -> harmless env g g' ar (wa_cb a) ->
  named (wa_plane a) "longitudinal" = true -> wk_hf w = None -> wk_skip w = 0 ->
  exists ixt iyt zmin zmax,
    nearest (centres (gx g)) (wk_xtest w) = Ok ixt /\ nearest (centres (gy g)) (wk_ytest w) = Ok iyt /\
    np_min (centres (gz g)) = Ok zmin /\ np_max (centres (gz g)) = Ok zmax /\
    let Nt := Z.to_nat (wake_Nt w (wa_len a) (sdt s) zmax zmin) in
    (3 <= Nt -> Nt <= 10 ^ 5 ->
     exists s' f w' u b c, wakesolve s g w a = Ok (s', f, w') /\
       steps s (KI (Z.of_nat ixt)) (KI (Z.of_nat iyt)) (gNz g) (wa_beam a) (wa_cb a) Nt u b c /\
       wk_s w' = Some (s_axis w (sdt s) (wa_len a)) /\
       wk_WP w' = Some (tab (List.length (s_axis w (sdt s) (wa_len a))) (fun n =>
         (sum (gNz g) (fun k =>
            let it := (Z.of_nat n + delay (wk_v w) (sdt s) (get (centres (gz g)) k) zmin)%Z in
            if (it <? Z.of_nat Nt)%Z then entry (sE (b (Z.to_nat it))) 2 ixt iyt k * get (widths (gz g)) k else nzero)
          / (wk_q w * e12))%num))).
Proof. intros T NT LT OT FT FL. rewrite <- e12_pico. exact (@total_long T NT LT OT FT FL). Qed.
Print Assumptions C52_run.

(** Linearity in the recorded field. *)
Theorem C52_linear : forall (T : Type) (NT : Num T) (LT : NumLaws T) (OT : NumOrd T) (FT : NumFl T) (FL : NumFlLaws T)
    (w : Wake T) f1 f2 f3 nt dt zf dz (a1 a2 a3 : nat -> list T) len al be,
  wk_hf w = None -> wk_len w = Some len -> wk_skip w = 0 -> (wk_q w * e12)%num <> nzero ->
  recorded f1 nt dt zf dz (fun n => vec (a1 n)) -> recorded f2 nt dt zf dz (fun n => vec (a2 n)) ->
  recorded f3 nt dt zf dz (fun n => vec (a3 n)) -> 3 <= nt -> zf <> [] ->
  (forall n, n < nt -> List.length (a1 n) = List.length zf /\ List.length (a2 n) = List.length zf /\
                       List.length (a3 n) = List.length zf) ->
  (forall n k, n < nt -> k < List.length zf -> get (a3 n) k = (al * get (a1 n) k + be * get (a2 n) k)%num) ->
  List.length zf <= List.length dz -> nltb nzero dt = true -> nltb nzero (wk_v w) = true ->
  exists w1 w2 w3 p1 p2 p3, calc_long_WP w (Some f1) None = Ok w1 /\ calc_long_WP w (Some f2) None = Ok w2 /\
    calc_long_WP w (Some f3) None = Ok w3 /\ wk_WP w1 = Some p1 /\ wk_WP w2 = Some p2 /\ wk_WP w3 = Some p3 /\
    wk_s w1 = wk_s w3 /\ wk_s w2 = wk_s w3 /\ List.length p1 = List.length p3 /\ List.length p2 = List.length p3 /\
    forall n, n < List.length p3 -> get p3 n = (al * get p1 n + be * get p2 n)%num.
Proof.
  intros T NT LT OT FT FL w f1 f2 f3 nt dt zf dz a1 a2 a3 len al be H1 H2 H3 HQ R1 R2 R3 H5 H6 Hl Hlin H8 H9 H10.
  destruct (C52_wake_potential T NT LT OT FT FL w f1 nt dt zf dz a1 len H1 H2 H3 R1 H5 H6) as (z1 & w1 & A1 & B1 & C1 & D1); auto.
  { intros n Hn. apply Hl. exact Hn. }
  destruct (C52_wake_potential T NT LT OT FT FL w f2 nt dt zf dz a2 len H1 H2 H3 R2 H5 H6) as (z2 & w2 & A2 & B2 & C2 & D2); auto.
  { intros n Hn. apply Hl. exact Hn. }
  destruct (C52_wake_potential T NT LT OT FT FL w f3 nt dt zf dz a3 len H1 H2 H3 R3 H5 H6) as (z3 & w3 & A3 & B3 & C3 & D3); auto.
  { intros n Hn. apply Hl. exact Hn. }
  assert (z1 = z3) by congruence. assert (z2 = z3) by congruence. subst z1 z2.
  exists w1, w2, w3. do 3 eexists. split; [exact B1|]. split; [exact B2|]. split; [exact B3|].
  split; [exact D1|]. split; [exact D2|]. split; [exact D3|]. rewrite C1, C2, C3, !tab_length.
  do 4 (split; [reflexivity|]). intros n Hn. rewrite !get_tab by exact Hn.
  apply wp_combine; [exact HQ|]. intros k Hk. cbv zeta.
  set (it := (Z.of_nat n + delay (wk_v w) dt (get zf k) z3)%Z).
  assert (P : (0 <= it)%Z).
  { unfold it. apply Z.add_nonneg_nonneg; [lia|]. apply delay_nonneg; auto.
    apply (proj2 (np_min_le _ _ A3)). apply nth_In. exact Hk. }
  destruct (Z.ltb_spec it (Z.of_nat nt)) as [L|L].
  - right. exists (get (a1 (Z.to_nat it)) k), (get (a2 (Z.to_nat it)) k), (get dz k). rewrite Hlin by lia. auto.
  - left. auto.
Qed.
Print Assumptions C52_linear.

(** Examples.  A rational record: 6 steps of period 1/2 on three cells. *)
Definition wQ (skip : nat) (counter : bool) : Wake Qc :=
  wake_init envQ (q 8 1) (q 1 1) (q 1 1) (q 1 1) (q 2 1) (q 2 1) (Some (q 1 2)) (Some (q 2 1)) skip counter true.
Definition zQ : list Qc := [q 1 2; q 3 2; q 3 1].
Definition dzQ : list Qc := [q 1 1; q 1 1; q 2 1].
Definition dxQ : list Qc := [q 1 1; q 2 1; q 1 1].
Definition fileQ (a : nat -> ndarray Qc) : File Qc :=
  axes_file [q 2 1] [q 2 1] zQ dxQ dxQ dzQ (tab 6 (fun n => nofnat n * q 1 2)%num) ++ map (fun n => (snap_key n, a n)) (seq 0 6).
Definition rowQ (m n : nat) : list Qc := map (fun k => q (Z.of_nat ((n * n * m + 3 * k * n + m) mod 7)) 1) (seq 0 3).
Lemma fileQ_recorded a : recorded (fileQ a) 6 (q 1 2) zQ dzQ a.
Proof. apply run_recorded. apply Nat.leb_le. vm_compute. reflexivity. Qed.
Definition WPs (r : result (Wake Qc)) : list Q :=
  match r with Ok w => match wk_WP w with Some v => map this v | None => [] end | Err _ => [] end.
Lemma this_get (p : list Qc) n : this (get p n) = nth n (map this p) 0%Q.
Proof. unfold get. rewrite <- (map_nth this p nzero n). reflexivity. Qed.
Example C52_case : exists w' p, calc_long_WP (wQ 0 false) (Some (fileQ (fun n => vec (rowQ 2 n)))) None = Ok w' /\
  wk_WP w' = Some p /\ List.length p = 5 /\ get p 0 <> get p 1.
Proof.
  destruct (C52_wake_potential Qc _ _ _ _ _ (wQ 0 false) (fileQ (fun n => vec (rowQ 2 n))) 6 (q 1 2) zQ dzQ (rowQ 2) (q 2 1))
    as (zmin & w' & _ & E & _ & P); try reflexivity.
  - apply fileQ_recorded.
  - lia.
  - discriminate.
  - assert (X : exists p, wk_WP w' = Some p) by (eexists; exact P). destruct X as [p X]. clear P.
    exists w', p. split; [exact E|]. split; [exact X|].
    assert (V : WPs (calc_long_WP (wQ 0 false) (Some (fileQ (fun n => vec (rowQ 2 n)))) None)
                = [7 # 500000000000; 1 # 200000000000; 7 # 1000000000000; 1 # 100000000000; 3 # 500000000000]%Q) by (vm_compute; reflexivity).
    rewrite E in V. unfold WPs in V. rewrite X in V. split.
    + apply (f_equal (@List.length Q)) in V. rewrite map_length in V. exact V.
    + intros H. apply (f_equal this) in H. rewrite !this_get, V in H. discriminate H.
Qed.

(** A whole run in an electric box with a constant current as source. *)
Definition runQ : WakeArgs Qc :=
  {| wa_plane := "longitudinal"; wa_len := q 1 1; wa_beam := fun t s => do_op s (OWriteJ (ramp 2)); wa_cb := fun _ s => Ok s |}.
Definition boxQ : Args Qc := argsQ (bcs "pec") (bcs "pec") vac [].
Lemma boxQ_made : exists g' s, made envQ gridQ g' boxQ s /\ sdt s = q 1 4.
Proof.
  destruct (simulated2 envQ gridQ boxQ (fun s _ => neqb (sdt s) (q 1 4)) [] gridQ_obj) as (s & g' & _ & Hm & Hk & _);
    [vm_compute; reflexivity|].
  exists g', s. split; [exact Hm|]. apply neqb_eq. exact Hk.
Qed.
Lemma ramp_harmless env g' ar : harmless env gridQ g' ar (fun t s => do_op s (OWriteJ (ramp 2))).
Proof. apply (write_harmless env gridQ g' ar (fun _ => ramp 2)). intros t. reflexivity. Qed.
Example C52_run_case : exists g' s s' f w' p, made envQ gridQ g' boxQ s /\
  wakesolve s gridQ (wQ 0 false) runQ = Ok (s', f, w') /\ wk_WP w' = Some p /\ List.length p = 6.
Proof.
  destruct boxQ_made as (g' & s & Hm & Hd).
  destruct (C52_run Qc _ _ _ _ _ envQ gridQ g' boxQ s (wQ 0 false) runQ Hm) as (ixt & iyt & zmin & zmax & _ & _ & Hmin & Hmax & R).
  - rewrite Hd. reflexivity.
  - reflexivity.
  - apply ramp_harmless.
  - apply idle_harmless.
  - reflexivity.
  - reflexivity.
  - reflexivity.
  - rewrite Hd in R. cbv zeta in R.
    assert (V : match np_min (centres (gz gridQ)), np_max (centres (gz gridQ)) with
                | Ok lo, Ok hi => wake_Nt (wQ 0 false) (wa_len runQ) (q 1 4) hi lo | _, _ => 0%Z end = 16%Z) by (vm_compute; reflexivity).
    rewrite Hmin, Hmax in V. rewrite V in R.
    destruct R as (s' & f & w' & u & b & c & E & _ & _ & P).
    + apply Nat.leb_le. vm_compute. reflexivity.
    + apply Nat.leb_le. vm_compute. reflexivity.
    + exists g', s, s', f, w'. eexists. split; [exact Hm|]. split; [exact E|]. split; [exact P|].
      rewrite tab_length. vm_compute. reflexivity.
Qed.

(** ** C53.  Full claim: every row of WP_3d is the wake potential of its own cell.  The accumulator is not
    reset between cells, so the m-th cell visited also carries the earlier ones, divided by further
    powers of q*1e12. *)
Section Cells.
  Context {T : Type} {NT : Num T} {OT : NumOrd T} {FT : NumFl T}.
  Local Open Scope num_scope.
  (** Entry (i, j, k) of the recorded array of step n, and the integral along one transverse cell. *)
  Definition at3 (ny nz : nat) (a : nat -> ndarray T) (n i j k : nat) : T := get (dat (a n)) (k + nz * (j + ny * i)).
  Definition cell_wake (w : Wake T) (nt ny : nat) (dt : T) (zf dz : list T) (a : nat -> ndarray T) (zmin zmax : T) (i j n : nat) : T :=
    sum (List.length zf - 2 * wk_skip w) (fun k =>
      if wk_counter w then
        let k' := (wk_skip w + (List.length zf - 2 * wk_skip w - 1 - k))%nat in
        let it := (Z.of_nat n + delay (wk_v w) dt zmax (get zf k'))%Z in
        if (it <? Z.of_nat nt)%Z then - (at3 ny (List.length zf) a (Z.to_nat it) i j k' * get dz k) else 0
      else
        let it := (Z.of_nat n + delay (wk_v w) dt (get zf (wk_skip w + k)) zmin)%Z in
        if (it <? Z.of_nat nt)%Z then at3 ny (List.length zf) a (Z.to_nat it) i j (wk_skip w + k) * get dz k else 0).
End Cells.

Theorem C53_carry_partial : forall (T : Type) (NT : Num T) (LT : NumLaws T) (OT : NumOrd T) (FT : NumFl T) (FL : NumFlLaws T)
    (w : Wake T) f nt nx ny dt zf dz (a : nat -> ndarray T) len,
  wk_hf w = None -> wk_len w = Some len -> 2 * wk_skip w < List.length zf ->
  recorded f nt dt zf dz a -> 3 <= nt ->
  (forall n, n < nt -> shape (a n) = [nx; ny; List.length zf]) ->
  List.length zf - 2 * wk_skip w <= List.length dz -> nltb nzero dt = true -> nltb nzero (wk_v w) = true ->
  (wk_ntc w <= nx / 2 /\ nx / 2 + wk_ntc w < nx) -> (wk_ntc w <= ny / 2 /\ ny / 2 + wk_ntc w < ny) ->
  (wk_q w * pico)%num <> nzero ->
  exists zmin zmax w' WP3, np_min zf = Ok zmin /\ np_max zf = Ok zmax /\ calc_long_WP_3d w (Some f) = Ok w' /\
    wk_s w' = Some (s_axis w dt len) /\ wk_WP3 w' = Some WP3 /\
    wk_WP w' = Some (nth (wk_ntc w) (nth (wk_ntc w) WP3 []) []) /\
    let M := 2 * wk_ntc w + 1 in
    let x0 := nx / 2 - wk_ntc w in let y0 := ny / 2 - wk_ntc w in
    let I i j n := cell_wake w nt ny dt zf dz a zmin zmax (x0 + i) (y0 + j) n in
    forall i j n, i < M -> j < M -> n < List.length (s_axis w dt len) ->
      get (nth j (nth i WP3 []) []) n
      = sum (S (M * i + j)) (fun l => I (l / M)%nat (l mod M)%nat n / npow (wk_q w * pico) (S (M * i + j) - l)%nat)%num.
Proof.
  intros T NT LT OT FT FL w f nt nx ny dt zf dz a len H1 H2 H3 H4 H5 H6 H7 H8 H9 H10 H11 HQ.
  destruct (long_WP_3d_spec w f nt nx ny dt zf dz a len H1 H2 H3 H4 H5 H6 H7 H8 H9 H10 H11)
    as (zmin & zmax & w' & WP3 & Z1 & Z2 & Z3 & Z4 & Z5 & Z6 & _ & _ & Z7 & _).
  exists zmin, zmax, w', WP3. do 6 (split; [assumption|]). intros M x0 y0 I i j n Hi Hj Hn.
  rewrite Z7 by assumption. rewrite (rows_closed _ _ _ _ _ HQ Hn). apply sum_ext. intros l Hl. f_equal.
  unfold I, cell_wake, cell_int. destruct (wk_counter w).
  - unfold cell_bwd. apply sum_ext. intros k Hk. cbv zeta.
    match goal with |- (if ?c then _ else _) = _ => destruct c end; [|reflexivity]. apply mul_opp_r.
  - reflexivity.
Qed.
Print Assumptions C53_carry_partial.

(** Consequences: the first cell is its own wake potential; the second is so exactly where the first
    vanishes. *)
Theorem C53_second_cell : forall (T : Type) (NT : Num T) (LT : NumLaws T) (OT : NumOrd T) (FT : NumFl T) (FL : NumFlLaws T)
    (w : Wake T) f nt nx ny dt zf dz (a : nat -> ndarray T) len,
  wk_hf w = None -> wk_len w = Some len -> 2 * wk_skip w < List.length zf ->
  recorded f nt dt zf dz a -> 3 <= nt ->
  (forall n, n < nt -> shape (a n) = [nx; ny; List.length zf]) ->
  List.length zf - 2 * wk_skip w <= List.length dz -> nltb nzero dt = true -> nltb nzero (wk_v w) = true ->
  (wk_ntc w <= nx / 2 /\ nx / 2 + wk_ntc w < nx) -> (wk_ntc w <= ny / 2 /\ ny / 2 + wk_ntc w < ny) ->
  (wk_q w * pico)%num <> nzero -> 1 <= wk_ntc w ->
  exists zmin zmax w' WP3, np_min zf = Ok zmin /\ np_max zf = Ok zmax /\ calc_long_WP_3d w (Some f) = Ok w' /\
    wk_WP3 w' = Some WP3 /\
    let x0 := nx / 2 - wk_ntc w in let y0 := ny / 2 - wk_ntc w in
    let I i j n := cell_wake w nt ny dt zf dz a zmin zmax (x0 + i) (y0 + j) n in
    forall n, n < List.length (s_axis w dt len) ->
      get (nth 0 (nth 0 WP3 []) []) n = (I 0%nat 0%nat n / (wk_q w * pico))%num /\
      (get (nth 1 (nth 0 WP3 []) []) n = (I 0%nat 1%nat n / (wk_q w * pico))%num <-> I 0 0 n = nzero).
Proof.
  intros T NT LT OT FT FL w f nt nx ny dt zf dz a len H1 H2 H3 H4 H5 H6 H7 H8 H9 H10 H11 HQ Hn1.
  destruct (C53_carry_partial T NT LT OT FT FL w f nt nx ny dt zf dz a len H1 H2 H3 H4 H5 H6 H7 H8 H9 H10 H11 HQ)
    as (zmin & zmax & w' & WP3 & Z1 & Z2 & Z3 & _ & Z5 & _ & Z7).
  exists zmin, zmax, w', WP3. do 4 (split; [assumption|]). intros x0 y0 I n Hn. cbv zeta in Z7.
  pose proof (Z7 0 0 n ltac:(lia) ltac:(lia) Hn) as A. pose proof (Z7 0 1 n ltac:(lia) ltac:(lia) Hn) as B.
  clear Z7. set (M := 2 * wk_ntc w + 1) in *. rewrite Nat.mul_0_r in A, B. cbn [Nat.add sum Nat.sub npow] in A, B.
  assert (D : 1 / M = 0 /\ 1 mod M = 1 /\ 0 / M = 0 /\ 0 mod M = 0).
  { unfold M. rewrite !Nat.div_small, !Nat.mod_small by lia. auto. }
  destruct D as (D1 & D2 & D3 & D4). rewrite D1, D2, D3, D4 in B. rewrite D3, D4 in A.
  fold x0 y0 in A, B. fold (I 0 0 n) in A, B. fold (I 0 1 n) in B.
  apply two_cells; assumption.
Qed.
Print Assumptions C53_second_cell.

(** Witness: a field present only in the corner cell (0, 0) of the window; the row of cell (0, 1) is not
    its own integral, which is zero. *)
Definition cornerQ (n : nat) : ndarray Qc :=
  {| shape := [3; 3; 3]; dat := map (fun p => if p =? 0 then q (Z.of_nat n + 1) 1 else q 0 1) (seq 0 27) |}.
Definition WP3s (r : result (Wake Qc)) (i j : nat) : list Q :=
  match r with Ok w => match wk_WP3 w with Some v => map this (nth j (nth i v []) []) | None => [] end | Err _ => [] end.
Theorem C53_refuted : exists (w : Wake Qc) f nt nx ny dt zf dz a len zmin zmax w' WP3 n,
  wk_hf w = None /\ wk_len w = Some len /\ 2 * wk_skip w < List.length zf /\ recorded f nt dt zf dz a /\ 3 <= nt /\
  (forall n, n < nt -> shape (a n) = [nx; ny; List.length zf]) /\ List.length zf <= List.length dz /\
  nltb nzero dt = true /\ nltb nzero (wk_v w) = true /\
  wk_ntc w = 1 /\ nx = 3 /\ ny = 3 /\ wk_q w <> nzero /\ np_min zf = Ok zmin /\ np_max zf = Ok zmax /\
  calc_long_WP_3d w (Some f) = Ok w' /\ wk_WP3 w' = Some WP3 /\ n < List.length (s_axis w dt len) /\
  get (nth 1 (nth 0 WP3 []) []) n <> (cell_wake w nt ny dt zf dz a zmin zmax 0 1 n / (wk_q w * pico))%num.
Proof.
  destruct (C53_second_cell Qc _ _ _ _ _ (wQ 0 false) (fileQ cornerQ) 6 3 3 (q 1 2) zQ dzQ cornerQ (q 2 1))
    as (zmin & zmax & w' & WP3 & Z1 & Z2 & Z3 & Z4 & Z5).
  - reflexivity.
  - reflexivity.
  - cbn. lia.
  - apply fileQ_recorded.
  - lia.
  - reflexivity.
  - cbn. lia.
  - reflexivity.
  - reflexivity.
  - cbn. lia.
  - cbn. lia.
  - intros H. apply (f_equal this) in H. vm_compute in H. discriminate H.
  - cbn. lia.
  - exists (wQ 0 false), (fileQ cornerQ), 6, 3, 3, (q 1 2), zQ, dzQ, cornerQ, (q 2 1), zmin, zmax, w', WP3, 0.
    do 2 (split; [reflexivity|]). split; [cbn; lia|]. split; [apply fileQ_recorded|]. split; [lia|].
    split; [reflexivity|]. split; [cbn; lia|]. do 5 (split; [reflexivity|]).
    split; [intros H; apply (f_equal this) in H; vm_compute in H; discriminate H|].
    split; [exact Z1|]. split; [exact Z2|]. split; [exact Z3|]. split; [exact Z4|].
    assert (L : 0 < List.length (s_axis (wQ 0 false) (q 1 2) (q 2 1))) by (apply Nat.ltb_lt; vm_compute; reflexivity).
    split; [exact L|]. destruct (Z5 0 L) as [_ Z6]. intros H. apply Z6 in H. change (3 / 2 - wk_ntc (wQ 0 false) + 0) with 0 in H.
    assert (V : this (match np_min zQ, np_max zQ with Ok lo, Ok hi => cell_wake (wQ 0 false) 6 3 (q 1 2) zQ dzQ cornerQ lo hi 0 0 0 | _, _ => q 5 1 end) = 1%Q)
      by (vm_compute; reflexivity).
    rewrite Z1, Z2 in V. rewrite H in V. discriminate V.
Qed.
Print Assumptions C53_refuted.

(** ** C54 *)
Theorem C54_panofsky_wenzel : forall (T : Type) (NT : Num T) (LT : NumLaws T) (w : Wake T) (s : list T) (W : list (list (list T))) dx dy n0,
  wk_ntc w = n0 -> wk_s w = Some s -> 3 <= List.length s -> wk_WP3 w = Some W -> wk_dx w = Some dx -> wk_dy w = Some dy ->
  1 <= n0 -> n0 < List.length dx -> n0 < List.length dy -> List.length W = 2 * n0 + 1 ->
  (forall i, i < 2 * n0 + 1 -> List.length (nth i W []) = 2 * n0 + 1) ->
  (forall i j, i < 2 * n0 + 1 -> j < 2 * n0 + 1 -> List.length (nth j (nth i W []) []) = List.length s) ->
  exists w' WPx WPy, calc_trans_WP w = Ok w' /\ wk_WPx w' = Some WPx /\ wk_WPy w' = Some WPy /\
    List.length WPx = List.length s /\ List.length WPy = List.length s /\
    forall n, n < List.length s ->
      (get WPx n = - (sum n (fun m => (get (nth n0 (nth (n0 + 1)%nat W []) []) m - get (nth n0 (nth (n0 - 1)%nat W []) []) m)
                                       * (get s 2 - get s 1))
                      / (get dx (n0 - 1)%nat + get dx n0)))%num /\
      (get WPy n = - (sum n (fun m => (get (nth (n0 + 1)%nat (nth n0 W []) []) m - get (nth (n0 - 1)%nat (nth n0 W []) []) m)
                                       * (get s 2 - get s 1))
                      / (get dy (n0 - 1)%nat + get dy n0)))%num.
Proof.
  intros T NT LT w s W dx dy n0 <- H1 H2 H3 H4 H5 H6 H7 H8 H9 H10 H11.
  destruct (trans_spec w s (nsub (get s 2) (get s 1)) W dx dy H1 H2 eq_refl H3 H4 H5 H6 H7 H8 H9 H10 H11)
    as (w' & WPx & WPy & A & B & C & -> & -> & _).
  exists w'. do 2 eexists. do 3 (split; [eassumption|]). rewrite !tab_length. do 2 (split; [reflexivity|]).
  intros n Hn. rewrite !get_tab by exact Hn. rewrite !sum_scale_r. split; reflexivity.
Qed.
Print Assumptions C54_panofsky_wenzel.

(** ** C55.  Both text files hold WPx. *)
Definition text_of {T} (txt : list (@TextFile T)) (name : string) : list (list T * list T) :=
  map snd (filter (fun p => String.eqb (fst p) name) txt).
Theorem C55_files_partial : forall (T : Type) (NT : Num T) (LT : NumLaws T) (w : Wake T) (s : list T) (W : list (list (list T))) dx dy n0,
  wk_ntc w = n0 -> wk_s w = Some s -> 3 <= List.length s -> wk_WP3 w = Some W -> wk_dx w = Some dx -> wk_dy w = Some dy ->
  1 <= n0 -> n0 < List.length dx -> n0 < List.length dy -> List.length W = 2 * n0 + 1 ->
  (forall i, i < 2 * n0 + 1 -> List.length (nth i W []) = 2 * n0 + 1) ->
  (forall i j, i < 2 * n0 + 1 -> j < 2 * n0 + 1 -> List.length (nth j (nth i W []) []) = List.length s) ->
  wk_save w = true ->
  exists w' WPx WPy, calc_trans_WP w = Ok w' /\ wk_WPx w' = Some WPx /\ wk_WPy w' = Some WPy /\
    text_of (wk_txt w') "WPx.txt" = text_of (wk_txt w) "WPx.txt" ++ [(s, WPx)] /\
    text_of (wk_txt w') "WPy.txt" = text_of (wk_txt w) "WPy.txt" ++ [(s, WPx)].
Proof.
  intros T NT LT w s W dx dy n0 <- H1 H2 H3 H4 H5 H6 H7 H8 H9 H10 H11 Hs.
  destruct (trans_spec w s (nsub (get s 2) (get s 1)) W dx dy H1 H2 eq_refl H3 H4 H5 H6 H7 H8 H9 H10 H11)
    as (w' & WPx & WPy & A & B & C & _ & _ & D).
  exists w', WPx, WPy. do 3 (split; [assumption|]). rewrite D, Hs. unfold text_of. rewrite !filter_app, !map_app. split; reflexivity.
Qed.
Print Assumptions C55_files_partial.

(** Witness: a potential that varies along y only. *)
Definition bowlQ : list (list (list Qc)) :=
  map (fun i => map (fun j => map (fun n => q (Z.of_nat (j * j + n)) 1) (seq 0 4)) (seq 0 3)) (seq 0 3).
Definition wtQ : Wake Qc :=
  let w := wQ 0 false in
  {| wk_q := wk_q w; wk_v := wk_v w; wk_ti := wk_ti w; wk_xtest := wk_xtest w; wk_ytest := wk_ytest w;
     wk_len := wk_len w; wk_skip := 0; wk_ntc := 1; wk_counter := false; wk_save := true; wk_hf := None;
     wk_t := None; wk_z := None; wk_zf := None; wk_xf := None; wk_yf := None;
     wk_dx := Some dxQ; wk_dy := Some dxQ; wk_dz := None; wk_Ezt := None;
     wk_s := Some [q 0 1; q 1 2; q 1 1; q 3 2]; wk_WP := None; wk_WP3 := Some bowlQ; wk_WPx := None; wk_WPy := None; wk_txt := [] |}.
Lemma wtQ_rows i j : i < 3 -> j < 3 -> List.length (nth i bowlQ []) = 3 /\ List.length (nth j (nth i bowlQ []) []) = 4.
Proof.
  intros Hi Hj. destruct i as [|[|[|i]]]; [| | |lia]; (destruct j as [|[|[|j]]]; [| | |lia]); split; reflexivity.
Qed.
Example C54_case : exists w' WPy, calc_trans_WP wtQ = Ok w' /\ wk_WPy w' = Some WPy /\ get WPy 2 = q (-4) 3.
Proof.
  destruct (C54_panofsky_wenzel Qc _ _ wtQ [q 0 1; q 1 2; q 1 1; q 3 2] bowlQ dxQ dxQ 1) as (w' & WPx & WPy & A & _ & C & _ & _ & V);
    try reflexivity; try (cbn; lia).
  - intros i Hi. apply (wtQ_rows i 0); lia.
  - intros i j Hi Hj. apply (wtQ_rows i j); lia.
  - exists w', WPy. split; [exact A|]. split; [exact C|]. destruct (V 2) as [_ ->]; [cbn; lia|]. apply Qc_this. vm_compute. reflexivity.
Qed.
Theorem C55_refuted : exists (w w' : Wake Qc) s WPy, wk_save w = true /\ wk_s w = Some s /\ wk_txt w = [] /\
  calc_trans_WP w = Ok w' /\ wk_WPy w' = Some WPy /\ ~ In (s, WPy) (text_of (wk_txt w') "WPy.txt").
Proof.
  destruct (C55_files_partial Qc _ _ wtQ [q 0 1; q 1 2; q 1 1; q 3 2] bowlQ dxQ dxQ 1) as (w' & WPx & WPy & A & B & C & _ & D);
    try reflexivity; try (cbn; lia).
  - intros i Hi. apply (wtQ_rows i 0); lia.
  - intros i j Hi Hj. apply (wtQ_rows i j); lia.
  - exists wtQ, w', [q 0 1; q 1 2; q 1 1; q 3 2], WPy. do 3 (split; [reflexivity|]). split; [exact A|]. split; [exact C|].
    rewrite D. cbn [text_of wtQ wk_txt filter map app]. intros [H|[]].
    assert (V : match calc_trans_WP wtQ with Ok w => match wk_WPx w, wk_WPy w with Some x, Some y => neqb (get x 2) (get y 2) | _, _ => true end | Err _ => true end = false)
      by (vm_compute; reflexivity).
    rewrite A, B, C in V. injection H as H. rewrite H in V.
    assert (X : neqb (get WPy 2) (get WPy 2) = true) by (apply neqb_eq; reflexivity). rewrite X in V. discriminate V.
Qed.
Print Assumptions C55_refuted.
