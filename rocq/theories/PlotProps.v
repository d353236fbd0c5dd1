(** Properties C116 and C117: what plots of the field show. *)
From Coq Require Import List Arith ZArith Bool String Lia Reals Lra QArith Qcanon.
From Verif Require Import Num Vec Index FieldModel FieldSpec FieldProofs FieldProofs2 GridModel SolverModel SolverCons SolverTime SolverKit GridProofs GridProofs2 WakeModel WakeNum PlotModel.
Import ListNotations.
Open Scope string_scope.
Open Scope nat_scope.

(** ** Specification *)
(** Axis 0, 1, 2 of the grid and their names. *)
Definition nodes {T} (s : Shown T) (a : nat) : list T := match a with 0 => sh_x s | 1 => sh_y s | _ => sh_z s end.
Definition axname (a : nat) : string := match a with 0 => "x" | 1 => "y" | _ => "z" end.
(** Names of planes: the axis normal to it, the vertical and the horizontal axis of the picture. *)
Definition planes : list (string * (nat * nat * nat)) :=
  [("XY", (2, 0, 1)); ("ZY", (0, 1, 2)); ("YZ", (0, 1, 2)); ("ZX", (1, 0, 2)); ("XZ", (1, 0, 2))].
(** The cell with index i along axis n, p along v, q along the third. *)
Definition cell3 (n v i p q a : nat) : nat := if a =? n then i else if a =? v then p else q.
Definition count {T} (v : list T) : nat := List.length v - 1.
(** A solver: at least one cell per axis, fields of the size of the grid. *)
Definition shown_ok {T} (s : Shown T) : Prop :=
  (forall a, 0 < count (nodes s a)) /\
  forall F, In F [sh_E s; sh_H s; sh_J s] -> fNx F = count (sh_x s) /\ fNy F = count (sh_y s) /\ fNz F = count (sh_z s).
Definition fields {T} (s : Shown T) : list (string * Field T) := [("E", sh_E s); ("H", sh_H s); ("J", sh_J s)].
(** The value of component c: one of three, or the length of the vector. *)
Definition value_of {T} {NT : Num T} (sqrt : T -> T) (c : string) (F : Field T) (i j k : nat) (x : T) : Prop :=
  (c = "x" /\ x = entry F 0 i j k) \/ (c = "y" /\ x = entry F 1 i j k) \/ (c = "z" /\ x = entry F 2 i j k) \/
  (lower c = "abs" /\ x = sqrt (entry F 0 i j k * entry F 0 i j k + entry F 1 i j k * entry F 1 i j k + entry F 2 i j k * entry F 2 i j k)%num).
Definition component (c : string) : Prop := c = "x" \/ c = "y" \/ c = "z" \/ lower c = "abs".
(** imshow with origin 'lower': row p and column q of an array of R rows and C columns. *)
Definition pixel {T} {NT : Num T} (P : Picture T) (p q : nat) : T := get (dat (pi_dat P)) (p * nth 1 (shape (pi_dat P)) 0 + q).
Definition box {T} {NT : Num T} (P : Picture T) (p q : nat) : T * T * T * T :=
  let '(l, r, b, t) := pi_extent P in
  let nr := nofnat (nth 0 (shape (pi_dat P)) 0) in let nc := nofnat (nth 1 (shape (pi_dat P)) 0) in
  (l + nofnat q * ((r - l) / nc), l + nofnat (q + 1) * ((r - l) / nc), b + nofnat p * ((t - b) / nr), b + nofnat (p + 1) * ((t - b) / nr))%num.
Definition uniform (v : list R) : Prop := exists w, (0 < w)%R /\ forall i, i < count v -> (nth (i + 1) v 0 - nth i v 0 = w)%R.

(** ** Lemmas *)
Lemma mat_at {T} {NT : Num T} (m : mat3 T) kx ky kz sx sy sz :
  resolve (m0 m) kx = Ok sx -> resolve (m1 m) ky = Ok sy -> resolve (m2 m) kz = Ok sz ->
  exists d, mat_getitem m kx ky kz = Ok d /\ shape d = keep3 kx ky kz (List.length sx) (List.length sy) (List.length sz) /\
    List.length (dat d) = List.length sx * List.length sy * List.length sz /\
    forall a b c, a < List.length sx -> b < List.length sy -> c < List.length sz ->
      get (dat d) ((a * List.length sy + b) * List.length sz + c) = mget m (nth a sx 0) (nth b sy 0) (nth c sz 0).
Proof.
  intros Hx Hy Hz. unfold mat_getitem. rewrite Hx, Hy, Hz. eexists. split; [reflexivity|]. cbn [shape dat]. split; [reflexivity|]. split; [apply tab_length|].
  intros a b c Ha Hb Hc. rewrite get_tab by (apply corder_lt; assumption). destruct (corder_dec (List.length sy) (List.length sz) a b c Hb Hc) as (-> & -> & ->). reflexivity.
Qed.
Lemma resolve_upto d : resolve d (upto d) = Ok (seq 0 d).
Proof. unfold upto. change 0%Z with (Z.of_nat 0). rewrite resolve_range by lia. rewrite Nat.sub_0_r. reflexivity. Qed.
Lemma trunc_index (n : nat) (pos : R) : 0 < n -> (0 <= pos < 1)%R -> exists i, i < n /\ rel_ n pos = KI (Z.of_nat i) /\ (INR i <= INR n * pos < INR i + 1)%R.
Proof.
  intros Hn [P0 P1]. assert (N : (0 < INR n)%R) by (apply lt_0_INR; lia).
  assert (X : (0 <= INR n * pos < INR n)%R) by (split; nra).
  unfold rel_. rewrite nofnat_INR. change (nmul (INR n) pos) with (INR n * pos)%R. set (x := (INR n * pos)%R) in *.
  assert (T : ntrunc x = (up x - 1)%Z). { unfold ntrunc. destruct (nltb x nzero) eqn:E; [|reflexivity]. apply nltb_R in E. cbn in E. lra. }
  destruct (archimed x) as [A B]. assert (U : (IZR (up x) - 1 <= x < IZR (up x))%R) by lra.
  assert (U0 : (0 <= up x - 1)%Z). { apply Z.lt_succ_r. apply lt_IZR. rewrite succ_IZR, minus_IZR. cbn. lra. }
  exists (Z.to_nat (up x - 1)). split.
  - apply INR_lt. rewrite INR_IZR_INZ, Z2Nat.id by exact U0. rewrite minus_IZR. lra.
  - rewrite T, Z2Nat.id by exact U0. split; [reflexivity|]. rewrite INR_IZR_INZ, Z2Nat.id by exact U0. rewrite minus_IZR. cbn. lra.
Qed.
Lemma uniform_node (v : list R) : uniform v -> 0 < count v -> forall q, q <= count v ->
  (get v q = get v 0 + INR q * ((last_ v - first v) / INR (count v)))%R /\ (0 < (last_ v - first v) / INR (count v))%R.
Proof.
  intros (w & W & H) Hc. assert (G : forall q, q <= count v -> (get v q = get v 0 + INR q * w)%R).
  { induction q as [|q IH]; intros Hq; [cbn; lra|]. rewrite S_INR. specialize (H q ltac:(lia)). rewrite Nat.add_1_r in H. specialize (IH ltac:(lia)).
    change (nth (S q) v 0%R) with (get v (S q)) in H. change (nth q v 0%R) with (get v q) in H. lra. }
  assert (N : (0 < INR (count v))%R) by (apply lt_0_INR; lia).
  assert (E : ((last_ v - first v) / INR (count v) = w)%R).
  { unfold last_, first. change (List.length v - 1) with (count v). rewrite (G (count v) (le_n _)). field. lra. }
  rewrite E. intros q Hq. split; [apply G, Hq|exact W].
Qed.
Section Data.
  Context {T : Type} {NT : Num T} (sqrt : T -> T).
  Lemma field_matrix (F : Field T) c : component c -> exists m, m0 m = fNx F /\ m1 m = fNy F /\ m2 m = fNz F /\
    (forall kx ky kz, getitem sqrt F (KTup kx ky kz (CStr c)) = mat_getitem m kx ky kz) /\
    forall i j k, i < fNx F -> j < fNy F -> k < fNz F -> value_of sqrt c F i j k (mget m i j k).
  Proof.
    intros Hc. assert (D : (c = "x" \/ c = "y" \/ c = "z") \/ (comp_of (CStr c) = None /\ lower c = "abs")).
    { destruct Hc as [H|[H|[H|H]]]; auto. right. split; [|exact H]. cbn [comp_of].
      destruct (String.eqb_spec c "x") as [->|]; [discriminate H|]. destruct (String.eqb_spec c "y") as [->|]; [discriminate H|]. destruct (String.eqb_spec c "z") as [->|]; [discriminate H|]. reflexivity. }
    destruct D as [[->|[->| ->]]|[Hn Hl]].
    1: exists (to_matrix_c F 0). 2: exists (to_matrix_c F 1). 3: exists (to_matrix_c F 2).
    1-3: split; [reflexivity|]; split; [reflexivity|]; split; [reflexivity|]; split; [intros; reflexivity|].
    1-3: intros i j k Hi Hj Hk; unfold value_of; rewrite mget_to_matrix by assumption; rewrite <- entry_at; auto 6.
    exists (get_abs sqrt F). split; [reflexivity|]. split; [reflexivity|]. split; [reflexivity|]. split.
    - intros kx ky kz. cbn [getitem]. unfold to_matrix. rewrite Hn. cbn [option_map is_abs]. rewrite Hl. reflexivity.
    - intros i j k Hi Hj Hk. right. right. right. split; [exact Hl|]. unfold get_abs. rewrite mget_mtab by assumption. rewrite !mget_to_matrix by assumption. rewrite <- !entry_at. reflexivity.
  Qed.
End Data.
Lemma plane_cut (s : Shown R) name n v h pos : In (name, (n, v, h)) planes -> (forall a, 0 < count (nodes s a)) -> (0 <= pos < 1)%R ->
  exists i kx ky kz, i < count (nodes s n) /\ (INR i <= INR (count (nodes s n)) * pos < INR i + 1)%R /\
    cut2 s (Named name) pos = Ok (kx, ky, kz, (first (nodes s h), last_ (nodes s h), first (nodes s v), last_ (nodes s v)), axname h, axname v,
      (pos * (last_ (nodes s n) - first (nodes s n)) + first (nodes s n))%R) /\
    (n < 3 /\ v < 3 /\ h < 3) /\
    forall m : mat3 R, m0 m = count (sh_x s) -> m1 m = count (sh_y s) -> m2 m = count (sh_z s) ->
      exists d, mat_getitem m kx ky kz = Ok d /\ shape d = [count (nodes s v); count (nodes s h)] /\
        forall p q, p < count (nodes s v) -> q < count (nodes s h) ->
          get (dat d) (p * count (nodes s h) + q) = mget m (cell3 n v i p q 0) (cell3 n v i p q 1) (cell3 n v i p q 2).
Proof.
  intros Hin Hc Hp. destruct (trunc_index (count (nodes s n)) pos (Hc n) Hp) as (i & Hi & Ek & Hb). exists i.
  assert (D : forall m : mat3 R, forall a, 0 < a -> i < a -> resolve a (KI (Z.of_nat i)) = Ok [i]) by (intros _ a _ H; apply resolve_nat; exact H).
  cbn in Hin. destruct Hin as [E|[E|[E|[E|[E|[]]]]]]; injection E as <- <- <- <-; cbn [nodes] in *.
  1: exists (upto (count (sh_x s))), (upto (count (sh_y s))), (KI (Z.of_nat i)).
  2-3: exists (KI (Z.of_nat i)), (upto (count (sh_y s))), (upto (count (sh_z s))).
  4-5: exists (upto (count (sh_x s))), (KI (Z.of_nat i)), (upto (count (sh_z s))).
  all: split; [exact Hi|]; split; [exact Hb|]; split;
    [unfold cut2; cbn [String.eqb Ascii.eqb Bool.eqb orb]; unfold cells; fold (count (sh_x s)) (count (sh_y s)) (count (sh_z s)); rewrite Ek; reflexivity|];
    split; [lia|]; intros m M0 M1 M2.
  1: destruct (mat_at m (upto (count (sh_x s))) (upto (count (sh_y s))) (KI (Z.of_nat i)) (seq 0 (count (sh_x s))) (seq 0 (count (sh_y s))) [i]) as (d & E & Sd & _ & G).
  5-6: destruct (mat_at m (KI (Z.of_nat i)) (upto (count (sh_y s))) (upto (count (sh_z s))) [i] (seq 0 (count (sh_y s))) (seq 0 (count (sh_z s)))) as (d & E & Sd & _ & G).
  13-14: destruct (mat_at m (upto (count (sh_x s))) (KI (Z.of_nat i)) (upto (count (sh_z s))) (seq 0 (count (sh_x s))) [i] (seq 0 (count (sh_z s)))) as (d & E & Sd & _ & G).
  all: try (rewrite ?M0, ?M1, ?M2; first [apply resolve_upto|apply resolve_nat; exact Hi]).
  all: exists d; split; [exact E|]; rewrite !seq_length in Sd; split; [exact Sd|]; rewrite ?seq_length in G; intros p q P Q; cbn [List.length] in G; cbn [cell3 Nat.eqb].
  - specialize (G p q 0 P Q (Nat.lt_0_1)). rewrite !seq_nth in G by assumption. cbn [nth Nat.add] in G. rewrite <- G. f_equal. lia.
  - specialize (G 0 p q Nat.lt_0_1 P Q). rewrite !seq_nth in G by assumption. cbn [nth Nat.add Nat.mul] in G. exact G.
  - specialize (G 0 p q Nat.lt_0_1 P Q). rewrite !seq_nth in G by assumption. cbn [nth Nat.add Nat.mul] in G. exact G.
  - specialize (G p 0 q P Nat.lt_0_1 Q). rewrite !seq_nth in G by assumption. cbn [nth Nat.add] in G. rewrite <- G. f_equal. lia.
  - specialize (G p 0 q P Nat.lt_0_1 Q). rewrite !seq_nth in G by assumption. cbn [nth Nat.add] in G. rewrite <- G. f_equal. lia.
Qed.
Lemma lower_length c : String.length (lower c) = String.length c.
Proof. induction c as [|a c IH]; [reflexivity|]. cbn. f_equal. exact IH. Qed.
Lemma split_one f c : In f ["E"; "H"; "J"] -> split2 f c = (f, c).
Proof. cbn. intros [<-|[<-|[<-|[]]]]; reflexivity. Qed.
Lemma split_joined f c c' : In f ["E"; "H"; "J"] -> component c -> split2 (f ++ c) c' = (f, c).
Proof.
  intros Hf Hc. assert (L : String.length c = 1 \/ String.length c = 3).
  { destruct Hc as [->|[->|[->|H]]]; auto. right. rewrite <- lower_length, H. reflexivity. }
  cbn in Hf. destruct L as [L|L]; destruct c as [|a c]; try discriminate L; cbn in L; injection L as L.
  - destruct c; [|discriminate L]. destruct Hf as [<-|[<-|[<-|[]]]]; reflexivity.
  - destruct c as [|b c]; [discriminate L|]. cbn in L. injection L as L. destruct c as [|d c]; [discriminate L|]. cbn in L. injection L as L.
    destruct c; [|discriminate L]. destruct Hf as [<-|[<-|[<-|[]]]]; reflexivity.
Qed.
Lemma fields_of {T} (s : Shown T) f F : In (f, F) (fields s) -> In f ["E"; "H"; "J"] /\ field_of s f = Ok F /\ In F [sh_E s; sh_H s; sh_J s].
Proof. cbn. intros [E|[E|[E|[]]]]; injection E as <- <-; split; auto. Qed.
Lemma first_nth (v : list R) : first v = nth 0 v 0%R.
Proof. reflexivity. Qed.
Lemma last_nth (v : list R) : last_ v = nth (count v) v 0%R.
Proof. reflexivity. Qed.
Lemma title_cell (v : list R) i pos : uniform v -> i < count v -> (INR i <= INR (count v) * pos < INR i + 1)%R ->
  (nth i v 0 <= pos * (last_ v - first v) + first v < nth (i + 1) v 0)%R.
Proof.
  intros U Hi Hb. assert (Hc : 0 < count v) by lia.
  destruct (uniform_node v U Hc i ltac:(lia)) as [A W]. destruct (uniform_node v U Hc (i + 1) ltac:(lia)) as [B _].
  change (nth i v 0%R) with (get v i). change (nth (i + 1) v 0%R) with (get v (i + 1)). rewrite A, B. change (first v) with (get v 0) in *.
  rewrite plus_INR. change (INR 1) with 1%R. assert (N : (0 < INR (count v))%R) by (apply lt_0_INR; lia).
  set (w := ((last_ v - get v 0) / INR (count v))%R) in *. assert (X : (last_ v - get v 0 = INR (count v) * w)%R) by (unfold w; field; lra).
  rewrite X. split; nra.
Qed.

(** ** C116: plot2D *)
(** The numbers: every cell of the plane appears once, with the names of the axes, whatever the steps of the mesh. *)
Theorem C116_values_partial : forall (sqrt : R -> R) (s : Shown R) name n v h f F c c' pos,
  shown_ok s -> In (name, (n, v, h)) planes -> In (f, F) (fields s) -> component c -> (0 <= pos < 1)%R ->
  exists P i, plot2D sqrt s f c (Named name) pos = Ok P /\ plot2D sqrt s (f ++ c) c' (Named name) pos = Ok P /\
    i < count (nodes s n) /\ (INR i <= INR (count (nodes s n)) * pos < INR i + 1)%R /\
    shape (pi_dat P) = [count (nodes s v); count (nodes s h)] /\ pi_xax P = axname h /\ pi_yax P = axname v /\
    (forall p q, p < count (nodes s v) -> q < count (nodes s h) ->
       value_of sqrt c F (cell3 n v i p q 0) (cell3 n v i p q 1) (cell3 n v i p q 2) (pixel P p q)) /\
    pi_pos P = (nth 0 (nodes s n) 0 + pos * (nth (count (nodes s n)) (nodes s n) 0 - nth 0 (nodes s n) 0))%R /\
    pi_extent P = (nth 0 (nodes s h) 0, nth (count (nodes s h)) (nodes s h) 0, nth 0 (nodes s v) 0, nth (count (nodes s v)) (nodes s v) 0)%R.
Proof.
  intros sqrt s name n v h f F c c' pos [Hc HF] Hin Hf Hcomp Hp.
  destruct (fields_of s f F Hf) as (Hf1 & EF & InF). destruct (HF F InF) as (FX & FY & FZ).
  destruct (plane_cut s name n v h pos Hin Hc Hp) as (i & kx & ky & kz & Hi & Hb & Ec & Hl & Hm).
  destruct (field_matrix sqrt F c Hcomp) as (m & M0 & M1 & M2 & Eg & Hv).
  destruct (Hm m ltac:(congruence) ltac:(congruence) ltac:(congruence)) as (d & Ed & Sd & Gd).
  eexists. exists i. unfold plot2D. rewrite (split_one f c Hf1), (split_joined f c c' Hf1 Hcomp), Ec. cbn [bind]. rewrite EF. cbn [bind]. rewrite Eg, Ed. cbn [bind].
  split; [reflexivity|]. split; [reflexivity|]. split; [exact Hi|]. split; [exact Hb|]. cbn [pi_dat pi_xax pi_yax pi_pos pi_extent].
  split; [exact Sd|]. split; [reflexivity|]. split; [reflexivity|]. split.
  - intros p q P Q. unfold pixel. cbn [pi_dat]. rewrite Sd. cbn [nth]. rewrite Gd by assumption. apply Hv.
    all: clear - FX FY FZ Hin Hi P Q; cbn in Hin; destruct Hin as [E|[E|[E|[E|[E|[]]]]]]; injection E as <- <- <- <-; cbn [cell3 nodes Nat.eqb] in *; congruence.
  - split; [|reflexivity]. rewrite first_nth, last_nth. change (nth 0 (nodes s n) 0%R) with (get (nodes s n) 0). cbn. lra.
Qed.
Print Assumptions C116_values_partial.

(** On a uniform mesh the boxes imshow paints are the cells, and the position in the title lies in the layer of cells shown. *)
Theorem C116_place_partial : forall (sqrt : R -> R) (s : Shown R) name n v h f F c pos P,
  shown_ok s -> In (name, (n, v, h)) planes -> In (f, F) (fields s) -> component c -> (0 <= pos < 1)%R ->
  plot2D sqrt s f c (Named name) pos = Ok P -> (forall a, uniform (nodes s a)) ->
  exists i, i < count (nodes s n) /\
    (forall p q, p < count (nodes s v) -> q < count (nodes s h) ->
       value_of sqrt c F (cell3 n v i p q 0) (cell3 n v i p q 1) (cell3 n v i p q 2) (pixel P p q) /\
       box P p q = (nth q (nodes s h) 0, nth (q + 1) (nodes s h) 0, nth p (nodes s v) 0, nth (p + 1) (nodes s v) 0)%R) /\
    (nth i (nodes s n) 0 <= pi_pos P < nth (i + 1) (nodes s n) 0)%R.
Proof.
  intros sqrt s name n v h f F c pos P Hs Hin Hf Hcomp Hp EP U.
  destruct (C116_values_partial sqrt s name n v h f F c c pos Hs Hin Hf Hcomp Hp) as (P' & i & EP' & _ & Hi & Hb & Sd & _ & _ & Hv & Hpos & He).
  rewrite EP in EP'. injection EP' as <-. exists i. split; [exact Hi|]. split.
  - intros p q Hpp Hq. split; [apply Hv; assumption|]. unfold box. rewrite He, Sd, !nofnat_INR. cbn [nth].
    destruct Hs as [Hc _].
    destruct (uniform_node _ (U h) (Hc h) q ltac:(lia)) as [A _]. destruct (uniform_node _ (U h) (Hc h) (q + 1) ltac:(lia)) as [B _].
    destruct (uniform_node _ (U v) (Hc v) p ltac:(lia)) as [A' _]. destruct (uniform_node _ (U v) (Hc v) (p + 1) ltac:(lia)) as [B' _].
    rewrite last_nth, first_nth in *. unfold get in A, B, A', B'. cbn in A, B, A', B'.
    f_equal; [f_equal; [f_equal|]|]; symmetry; assumption.
  - rewrite Hpos. pose proof (title_cell _ i pos (U n) Hi Hb) as X. rewrite last_nth, first_nth in X. lra.
Qed.
Print Assumptions C116_place_partial.

(** The overlay of a solid covers exactly its cells in the plane (with reverse: the others), in the same boxes as the field. *)
Theorem C116_solid : forall (sqrt : R -> R) (s : Shown R) mask reverse name n v h pos,
  shown_ok s -> In (name, (n, v, h)) planes -> (0 <= pos < 1)%R -> List.length mask = count (sh_x s) * count (sh_y s) * count (sh_z s) ->
  exists M P i, patch2D s mask reverse (Named name) pos = Ok M /\ plot2D sqrt s "E" "z" (Named name) pos = Ok P /\
    pi_extent M = pi_extent P /\ shape (pi_dat M) = shape (pi_dat P) /\ pi_xax M = pi_xax P /\ pi_yax M = pi_yax P /\
    forall p q, p < count (nodes s v) -> q < count (nodes s h) ->
      let i0 := cell3 n v i p q 0 in let j0 := cell3 n v i p q 1 in let k0 := cell3 n v i p q 2 in
      pixel P p q = entry (sh_E s) 2 i0 j0 k0 /\
      pixel M p q = if xorb reverse (nth ((i0 * count (sh_y s) + j0) * count (sh_z s) + k0) mask false) then 1%R else 0%R.
Proof.
  intros sqrt s mask reverse name n v h pos Hs Hin Hp HL.
  destruct Hs as [Hc HF]. destruct (HF (sh_E s) (or_introl eq_refl)) as (FX & FY & FZ).
  destruct (plane_cut s name n v h pos Hin Hc Hp) as (i & kx & ky & kz & Hi & Hb & Ec & Hl & Hm).
  destruct (field_matrix sqrt (sh_E s) "z" ltac:(right; right; left; reflexivity)) as (m & M0 & M1 & M2 & Eg & Hv).
  destruct (Hm m ltac:(congruence) ltac:(congruence) ltac:(congruence)) as (d & Ed & Sd & Gd).
  set (mm := {| m0 := count (sh_x s); m1 := count (sh_y s); m2 := count (sh_z s); mdat := map (fun b : bool => if (if reverse then negb b else b) then none_ else nzero) mask |} : mat3 R).
  destruct (Hm mm eq_refl eq_refl eq_refl) as (d' & Ed' & Sd' & Gd').
  eexists; eexists; exists i. split; [|split].
  - unfold patch2D. rewrite Ec. cbn [bind]. unfold cells. fold (count (sh_x s)) (count (sh_y s)) (count (sh_z s)). rewrite HL, Nat.eqb_refl. fold mm. rewrite Ed'. reflexivity.
  - unfold plot2D. cbn [split2 String.length Nat.eqb]. rewrite Ec. cbn [bind field_of String.eqb Ascii.eqb Bool.eqb]. rewrite Eg, Ed. reflexivity.
  - cbn [pi_dat pi_extent pi_xax pi_yax]. split; [reflexivity|]. split; [congruence|]. split; [reflexivity|]. split; [reflexivity|].
    intros p q P Q. set (i0 := cell3 n v i p q 0). set (j0 := cell3 n v i p q 1). set (k0 := cell3 n v i p q 2). unfold pixel. cbn [pi_dat]. rewrite Sd, Sd'. cbn [nth].
    assert (B : i0 < count (sh_x s) /\ j0 < count (sh_y s) /\ k0 < count (sh_z s)).
    { clear - Hin Hi P Q. unfold i0, j0, k0. cbn in Hin; destruct Hin as [E|[E|[E|[E|[E|[]]]]]]; injection E as <- <- <- <-; cbn [cell3 nodes Nat.eqb] in *; auto. }
    destruct B as (B0 & B1 & B2). split.
    + rewrite Gd by assumption. fold i0 j0 k0. destruct (Hv i0 j0 k0) as [[E _]|[[E _]|[[_ E]|[E _]]]]; try discriminate E; try congruence; exact E.
    + rewrite Gd' by assumption. fold i0 j0 k0. unfold mget, mm. cbn [m1 m2 mdat].
      pose proof (corder_lt _ _ _ _ _ _ B0 B1 B2) as Hlt. rewrite <- HL in Hlt. set (t := (i0 * count (sh_y s) + j0) * count (sh_z s) + k0) in *.
      unfold get. rewrite (nth_indep _ nzero (if (if reverse then negb false else false) then none_ else nzero)) by (rewrite map_length; exact Hlt).
      rewrite (map_nth (fun b : bool => if (if reverse then negb b else b) then none_ else nzero) mask false t).
      destruct reverse, (nth t mask false); reflexivity.
Qed.
Print Assumptions C116_solid.

(** The length of the picture of a mesh that is not uniform is right but its boxes are not the cells. *)
Definition mesh3 {T} {NT : Num T} (x y z : list T) : Shown T :=
  let F := {| fNx := count x; fNy := count y; fNz := count z; farr := tab (3 * (count x * count y * count z)) nofnat |} in
  {| sh_x := x; sh_y := y; sh_z := z; sh_E := F; sh_H := F; sh_J := F |}.
Lemma mesh3_ok {T} {NT : Num T} (x y z : list T) : 1 < List.length x -> 1 < List.length y -> 1 < List.length z -> shown_ok (mesh3 x y z).
Proof.
  intros. split.
  - intros [|[|a]]; unfold count; cbn; lia.
  - intros F HF. cbn in HF. destruct HF as [<-|[<-|[<-|[]]]]; repeat split; reflexivity.
Qed.

Theorem C116_graded_refuted : exists (s : Shown Qc) P, shown_ok s /\
  plot2D (fun x : Qc => x) s "E" "z" (Named "XY") (Q2Qc 0) = Ok P /\ shape (pi_dat P) = [1; 2] /\
  box P 0 1 = (Q2Qc (3#2), Q2Qc 3, Q2Qc 0, Q2Qc 1) /\ nth 1 (sh_y s) (Q2Qc 0) = Q2Qc 1.
Proof.
  exists (mesh3 [Q2Qc 0; Q2Qc 1] [Q2Qc 0; Q2Qc 1; Q2Qc 3] [Q2Qc 0; Q2Qc 1]). eexists.
  split; [apply mesh3_ok; cbn; lia|]. split; [reflexivity|]. split; [reflexivity|]. split; [|reflexivity]. vm_compute. reflexivity.
Qed.
Print Assumptions C116_graded_refuted.

(** There the position in the title is not in the layer of cells shown either. *)
Theorem C116_graded_title_refuted : exists (s : Shown Qc) P, shown_ok s /\
  plot2D (fun x : Qc => x) s "E" "z" (Named "XY") (Q2Qc (2#5)) = Ok P /\ pixel P 0 0 = entry (sh_E s) 2 0 0 0 /\ entry (sh_E s) 2 0 0 0 <> entry (sh_E s) 2 0 0 1 /\
  pi_pos P = Q2Qc (6#5) /\ sh_z s = [Q2Qc 0; Q2Qc 1; Q2Qc 3].
Proof.
  exists (mesh3 [Q2Qc 0; Q2Qc 1] [Q2Qc 0; Q2Qc 1] [Q2Qc 0; Q2Qc 1; Q2Qc 3]). eexists.
  split; [apply mesh3_ok; cbn; lia|]. split; [reflexivity|]. split; [vm_compute; reflexivity|]. split; [|split; [vm_compute; reflexivity|reflexivity]].
  intros E. apply (f_equal this) in E. vm_compute in E. discriminate E.
Qed.
Print Assumptions C116_graded_title_refuted.

(** A plane given as slices: the picture spans the centres of the first and last cell, so the boxes are not the cells even on a uniform mesh. *)
Definition sides (b : Qc * Qc * Qc * Qc) : list Q := let '(l, r, u, t) := b in [this l; this r; this u; this t].
Theorem C116_slices_refuted : exists (s : Shown Qc) P, shown_ok s /\
  plot2D (fun x : Qc => x) s "E" "z" (Seq kfull kfull (KI 0)) (Q2Qc 0) = Ok P /\ shape (pi_dat P) = [2; 2] /\
  sides (box P 0 0) = [1#2; 1; 1#2; 1]%Q /\ sh_x s = [Q2Qc 0; Q2Qc 1; Q2Qc 2] /\ sh_y s = [Q2Qc 0; Q2Qc 1; Q2Qc 2].
Proof.
  exists (mesh3 [Q2Qc 0; Q2Qc 1; Q2Qc 2] [Q2Qc 0; Q2Qc 1; Q2Qc 2] [Q2Qc 0; Q2Qc 1]).
  set (s := mesh3 _ _ _).
  assert (H : match plot2D (fun x : Qc => x) s "E" "z" (Seq kfull kfull (KI 0)) (Q2Qc 0) with
              | Ok P => shape (pi_dat P) = [2; 2] /\ sides (box P 0 0) = [1#2; 1; 1#2; 1]%Q | Err _ => False end) by (vm_compute; split; reflexivity).
  destruct (plot2D _ s _ _ _ _) as [P|] eqn:E; [|contradiction]. destruct H as [H1 H2]. exists P.
  split; [apply mesh3_ok; cbn; lia|]. repeat split; assumption || reflexivity.
Qed.
Print Assumptions C116_slices_refuted.

(** The documented range of [pos] includes 1, which names no cell: every such plot raises IndexError. *)
Lemma rel_one (n : nat) : rel_ n 1%R = KI (Z.of_nat n).
Proof.
  unfold rel_. f_equal. change (nmul (nofnat n) 1%R) with (nofnat n * 1)%R. rewrite Rmult_1_r.
  rewrite trunc_nonneg; [apply fl_nofnat|]. rewrite nofnat_INR. destruct (nltb (INR n) nzero) eqn:E; [|reflexivity]. apply nltb_R in E. pose proof (pos_INR n). cbn in E. lra.
Qed.
Lemma resolve_end d : resolve d (KI (Z.of_nat d)) = Err IndexError.
Proof.
  unfold resolve. replace (Z.of_nat d <? Z.of_nat d)%Z with false by (symmetry; apply Z.ltb_ge; lia). rewrite ?andb_false_r.
  replace (Z.of_nat d <? 0)%Z with false by (symmetry; apply Z.ltb_ge; lia). rewrite ?andb_false_r. reflexivity.
Qed.

Theorem C116_end_fails : forall (sqrt : R -> R) (s : Shown R) name n v h f F c,
  shown_ok s -> In (name, (n, v, h)) planes -> In (f, F) (fields s) -> component c ->
  plot2D sqrt s f c (Named name) 1%R = Err IndexError.
Proof.
  intros sqrt s name n v h f F c [Hc HF] Hin Hf Hcomp.
  destruct (fields_of s f F Hf) as (Hf1 & EF & InF). destruct (HF F InF) as (FX & FY & FZ).
  destruct (field_matrix sqrt F c Hcomp) as (m & M0 & M1 & M2 & Eg & _).
  unfold plot2D. rewrite (split_one f c Hf1).
  assert (Hx : cells (sh_x s) = m0 m) by (rewrite M0, FX; reflexivity). assert (Hy : cells (sh_y s) = m1 m) by (rewrite M1, FY; reflexivity).
  assert (Hz : cells (sh_z s) = m2 m) by (rewrite M2, FZ; reflexivity).
  cbn in Hin; destruct Hin as [E|[E|[E|[E|[E|[]]]]]]; injection E as <- <- <- <-; unfold cut2; cbn [String.eqb Ascii.eqb Bool.eqb orb bind];
    rewrite EF; cbn [bind]; rewrite Eg, Hx, Hy, Hz, rel_one; unfold mat_getitem; rewrite ?resolve_upto, ?resolve_end; reflexivity.
Qed.
Print Assumptions C116_end_fails.

(** Names the code does not know leave a local variable unset. *)
Theorem C116_unknown_names : forall (sqrt : R -> R) (s : Shown R) f c name pos,
  ~ In name (map fst planes) -> plot2D sqrt s f c (Named name) pos = Err UnboundLocalError.
Proof.
  intros sqrt s f c name pos H. unfold plot2D. destruct (split2 f c) as [f' c']. unfold cut2. cbn in H.
  repeat match goal with |- context [String.eqb name ?x] => destruct (String.eqb_spec name x) as [->|]; [exfalso; apply H; auto 10|] end.
  reflexivity.
Qed.
Print Assumptions C116_unknown_names.

Example C116_case :
  match plot2D (fun x : Qc => x) (mesh3 [Q2Qc 0; Q2Qc 1; Q2Qc 2] [Q2Qc 0; Q2Qc 1] [Q2Qc 0; Q2Qc 2; Q2Qc 4; Q2Qc 6]) "Ey" "z" (Named "XZ") (Q2Qc (1#2)) with
  | Ok P => shape (pi_dat P) = [2; 3] /\ map this (dat (pi_dat P)) = [6; 8; 10; 7; 9; 11]%Q /\ pi_xax P = "z" /\ pi_yax P = "x" /\ pi_pos P = Q2Qc (1#2)
  | Err _ => False
  end.
Proof. vm_compute. repeat split. Qed.

(** ** C117: plot1D *)
(** Index along axis b of cell q of the line along axis a whose other indices are [cell]. *)
Definition on_line (a : nat) (cell : nat -> nat) (q b : nat) : nat := if b =? a then q else cell b.
(** One curve at relative position pos. *)
Definition right_curve (sqrt : R -> R) (s : Shown R) (F : Field R) (c : string) (a : nat) (pos : R) (r : Curve R) : Prop :=
  exists cell : nat -> nat,
    (forall b, b < 3 -> b <> a -> cell b < count (nodes s b) /\ (INR (cell b) <= INR (count (nodes s b)) * pos < INR (cell b) + 1)%R) /\
    cu_ax r = axname a /\ List.length (cu_x r) = count (nodes s a) /\ List.length (cu_y r) = count (nodes s a) /\
    (forall q, q < count (nodes s a) ->
       (nth q (cu_x r) 0 = (nth q (nodes s a) 0 + nth (q + 1) (nodes s a) 0) / 2)%R /\
       value_of sqrt c F (on_line a cell q 0) (on_line a cell q 1) (on_line a cell q 2) (nth q (cu_y r) 0%R)) /\
    (let lab b := ((nth (cell b) (nodes s b) 0 + nth (cell b + 1) (nodes s b) 0) / 2)%R in
     cu_at r = match a with 0 => (lab 1, lab 2) | 1 => (lab 0, lab 2) | _ => (lab 0, lab 1) end).

Lemma centres_length (v : list R) : List.length (centres v) = count v.
Proof. apply tab_length. Qed.
Lemma centres_get (v : list R) q : q < count v -> get (centres v) q = ((get v q + get v (q + 1)) / 2)%R.
Proof.
  intros H. unfold centres, count in *. rewrite get_tab by exact H. unfold diff. rewrite get_tab by exact H. rewrite nofnat_INR. cbn. replace (q + 1) with (S q) by lia. lra.
Qed.
Lemma where_at (v : list R) i : i < count v -> where_ (centres v) (KI (Z.of_nat i)) = Ok ((get v i + get v (i + 1)) / 2)%R.
Proof. intros H. unfold where_. rewrite centres_length, resolve_nat by exact H. cbn [bind]. rewrite centres_get by exact H. reflexivity. Qed.

Lemma curve_right sqrt (s : Shown R) f F c line a pos : shown_ok s -> In (f, F) (fields s) -> component c -> a < 3 -> lower line = axname a -> (0 <= pos < 1)%R ->
  exists r, curve sqrt s f c line pos = Ok r /\ right_curve sqrt s F c a pos r.
Proof.
  intros [Hc HF] Hf Hcomp Ha El Hp.
  destruct (fields_of s f F Hf) as (Hf1 & EF & InF). destruct (HF F InF) as (FX & FY & FZ).
  destruct (field_matrix sqrt F c Hcomp) as (m & M0 & M1 & M2 & Eg & Hv).
  destruct (trunc_index (count (nodes s 0)) pos (Hc 0) Hp) as (i & Hi & Ei & Bi).
  destruct (trunc_index (count (nodes s 1)) pos (Hc 1) Hp) as (j & Hj & Ej & Bj).
  destruct (trunc_index (count (nodes s 2)) pos (Hc 2) Hp) as (k & Hk & Ek & Bk).
  cbn [nodes] in *. unfold curve. rewrite El. unfold cells. fold (count (sh_x s)) (count (sh_y s)) (count (sh_z s)).
  assert (RX : resolve (m0 m) (KI (Z.of_nat i)) = Ok [i]) by (apply resolve_nat; congruence).
  assert (RY : resolve (m1 m) (KI (Z.of_nat j)) = Ok [j]) by (apply resolve_nat; congruence).
  assert (RZ : resolve (m2 m) (KI (Z.of_nat k)) = Ok [k]) by (apply resolve_nat; congruence).
  assert (UX : resolve (m0 m) (upto (count (sh_x s))) = Ok (seq 0 (count (sh_x s)))) by (rewrite M0, FX; apply resolve_upto).
  assert (UY : resolve (m1 m) (upto (count (sh_y s))) = Ok (seq 0 (count (sh_y s)))) by (rewrite M1, FY; apply resolve_upto).
  assert (UZ : resolve (m2 m) (upto (count (sh_z s))) = Ok (seq 0 (count (sh_z s)))) by (rewrite M2, FZ; apply resolve_upto).
  assert (CE : forall b, b < 3 -> b <> a -> (match b with 0 => i | 1 => j | _ => k end) < count (nodes s b) /\
     (INR (match b with 0 => i | 1 => j | _ => k end) <= INR (count (nodes s b)) * pos < INR (match b with 0 => i | 1 => j | _ => k end) + 1)%R).
  { intros [|[|[|b]]] ? ?; cbn [nodes]; try lia; auto. }
  destruct a as [|[|[|a]]]; [| | |lia]; cbn [axname String.eqb Ascii.eqb Bool.eqb]; rewrite ?Ei, ?Ej, ?Ek, ?where_at by assumption; cbn [bind]; rewrite EF; cbn [bind]; rewrite Eg.
  - destruct (mat_at m _ _ _ _ _ _ UX RY RZ) as (d & -> & _ & L & G). cbn [bind]. eexists. split; [reflexivity|].
    exists (fun b => match b with 0 => i | 1 => j | _ => k end). split; [exact CE|]. cbn [cu_ax cu_x cu_y cu_at nodes].
    rewrite seq_length in L. cbn [List.length] in L, G. rewrite seq_length in G. split; [reflexivity|]. split; [apply centres_length|]. split; [lia|]. split; [|reflexivity].
    intros q Hq. split; [apply centres_get, Hq|]. specialize (G q 0 0 Hq Nat.lt_0_1 Nat.lt_0_1). rewrite seq_nth in G by exact Hq. cbn [nth Nat.add] in G.
    replace ((q * 1 + 0) * 1 + 0) with q in G by lia. change (nth q (dat d) 0%R) with (get (dat d) q). rewrite G. cbn [on_line Nat.eqb]. apply Hv; congruence.
  - destruct (mat_at m _ _ _ _ _ _ RX UY RZ) as (d & -> & _ & L & G). cbn [bind]. eexists. split; [reflexivity|].
    exists (fun b => match b with 0 => i | 1 => j | _ => k end). split; [exact CE|]. cbn [cu_ax cu_x cu_y cu_at nodes].
    rewrite seq_length in L. cbn [List.length] in L, G. rewrite seq_length in G. split; [reflexivity|]. split; [apply centres_length|]. split; [lia|]. split; [|reflexivity].
    intros q Hq. split; [apply centres_get, Hq|]. specialize (G 0 q 0 Nat.lt_0_1 Hq Nat.lt_0_1). rewrite seq_nth in G by exact Hq. cbn [nth Nat.add] in G.
    replace ((0 * count (sh_y s) + q) * 1 + 0) with q in G by lia. change (nth q (dat d) 0%R) with (get (dat d) q). rewrite G. cbn [on_line Nat.eqb]. apply Hv; congruence.
  - destruct (mat_at m _ _ _ _ _ _ RX RY UZ) as (d & -> & _ & L & G). cbn [bind]. eexists. split; [reflexivity|].
    exists (fun b => match b with 0 => i | 1 => j | _ => k end). split; [exact CE|]. cbn [cu_ax cu_x cu_y cu_at nodes].
    rewrite seq_length in L. cbn [List.length] in L, G. rewrite seq_length in G. split; [reflexivity|]. split; [apply centres_length|]. split; [lia|]. split; [|reflexivity].
    intros q Hq. split; [apply centres_get, Hq|]. specialize (G 0 0 q Nat.lt_0_1 Nat.lt_0_1 Hq). rewrite seq_nth in G by exact Hq. cbn [nth Nat.add] in G.
    replace ((0 * 1 + 0) * count (sh_z s) + q) with q in G by lia. change (nth q (dat d) 0%R) with (get (dat d) q). rewrite G. cbn [on_line Nat.eqb]. apply Hv; congruence.
Qed.
Lemma split1_one f c : In f ["E"; "H"; "J"] -> split1 f c = (f, c).
Proof. cbn. intros [<-|[<-|[<-|[]]]]; reflexivity. Qed.

(** Up to seven positions: one curve per position, in order, each of the right values at the centres of the cells. *)
Theorem C117_curves_partial : forall (sqrt : R -> R) (s : Shown R) f F c line a poss,
  shown_ok s -> In (f, F) (fields s) -> component c -> a < 3 -> lower line = axname a -> List.length poss <= 7 ->
  (forall pos, In pos poss -> (0 <= pos < 1)%R) ->
  exists rs, plot1D sqrt s f c line poss = Ok rs /\ Forall2 (right_curve sqrt s F c a) poss rs.
Proof.
  intros sqrt s f F c line a poss Hs Hf Hcomp Ha El L Hp. unfold plot1D. rewrite (split1_one f c) by (apply (fields_of s f F Hf)).
  assert (G : forall poss done, List.length done + List.length poss <= 7 -> (forall pos, In pos poss -> (0 <= pos < 1)%R) ->
    exists rs, seq_upd (fun l p => do r <- curve sqrt s f c line p; if (List.length l <? colours1) then Ok (l ++ [r])%list else Err IndexError) done poss = Ok (done ++ rs)%list /\
      Forall2 (right_curve sqrt s F c a) poss rs).
  { clear poss L Hp. induction poss as [|p ps IH]; intros done L Hp.
    - exists []. rewrite app_nil_r. split; [reflexivity|constructor].
    - destruct (curve_right sqrt s f F c line a p Hs Hf Hcomp Ha El (Hp p (or_introl eq_refl))) as (r & Er & Hr).
      cbn [seq_upd]. rewrite Er. cbn [bind]. cbn [List.length] in L. replace (List.length done <? colours1) with true by (symmetry; apply Nat.ltb_lt; unfold colours1; lia).
      cbn [bind]. destruct (IH (done ++ [r])%list) as (rs & E & H2). { rewrite app_length. cbn [List.length]. lia. } { intros; apply Hp; right; assumption. }
      exists (r :: rs). rewrite E, <- app_assoc. split; [reflexivity|constructor; assumption]. }
  destruct (G poss [] ltac:(cbn [List.length]; lia) Hp) as (rs & E & H). exists rs. split; assumption.
Qed.
Print Assumptions C117_curves_partial.

(** The default list has seven colours: an eighth position always fails, although any list is accepted. *)
Theorem C117_eight_fail : forall (sqrt : R -> R) (s : Shown R) f F c line a poss,
  shown_ok s -> In (f, F) (fields s) -> component c -> a < 3 -> lower line = axname a -> 7 < List.length poss ->
  (forall pos, In pos poss -> (0 <= pos < 1)%R) -> plot1D sqrt s f c line poss = Err IndexError.
Proof.
  intros sqrt s f F c line a poss Hs Hf Hcomp Ha El L Hp. unfold plot1D. rewrite (split1_one f c) by (apply (fields_of s f F Hf)).
  assert (G : forall poss done, List.length done <= 7 -> 7 < List.length done + List.length poss -> (forall pos, In pos poss -> (0 <= pos < 1)%R) ->
    seq_upd (fun l p => do r <- curve sqrt s f c line p; if (List.length l <? colours1) then Ok (l ++ [r])%list else Err IndexError) done poss = Err IndexError).
  { clear poss L Hp. induction poss as [|p ps IH]; intros done D L Hp; [cbn [List.length] in L; lia|].
    destruct (curve_right sqrt s f F c line a p Hs Hf Hcomp Ha El (Hp p (or_introl eq_refl))) as (r & Er & Hr).
    cbn [seq_upd]. rewrite Er. cbn [bind]. cbn [List.length] in L. destruct (Nat.ltb_spec (List.length done) colours1) as [Q|Q]; [|reflexivity].
    cbn [bind]. apply IH; [rewrite app_length; cbn [List.length]; unfold colours1 in Q; lia|rewrite app_length; cbn [List.length]; lia|intros; apply Hp; right; assumption]. }
  apply G; [cbn [List.length]; lia|cbn [List.length]; lia|exact Hp].
Qed.
Print Assumptions C117_eight_fail.

Definition cube2 : Shown Qc := mesh3 [Q2Qc 0; Q2Qc 1; Q2Qc 2] [Q2Qc 0; Q2Qc 1; Q2Qc 2] [Q2Qc 0; Q2Qc 1; Q2Qc 3].
Theorem C117_eight_refuted : exists poss : list Qc, List.length poss = 8 /\ shown_ok cube2 /\
  (forall p, In p poss -> p = Q2Qc (1#2)) /\ plot1D (fun x : Qc => x) cube2 "E" "z" "z" poss = Err IndexError.
Proof.
  exists (repeat (Q2Qc (1#2)) 8). split; [reflexivity|]. split; [apply mesh3_ok; cbn; lia|]. split; [apply repeat_spec|]. vm_compute. reflexivity.
Qed.
Print Assumptions C117_eight_refuted.
(** field='EAbs', which plot2D takes, leaves the data of plot1D unset. *)
Theorem C117_abs_refuted : exists (s : Shown Qc) P, shown_ok s /\
  plot2D (fun x : Qc => x) s "EAbs" "z" (Named "XY") (Q2Qc 0) = Ok P /\
  plot1D (fun x : Qc => x) s "EAbs" "z" "z" [Q2Qc 0] = Err UnboundLocalError.
Proof.
  exists cube2. assert (H : match plot2D (fun x : Qc => x) cube2 "EAbs" "z" (Named "XY") (Q2Qc 0) with Ok _ => True | Err _ => False end) by (vm_compute; exact I).
  destruct (plot2D _ cube2 _ _ _ _) as [P|] eqn:E; [|contradiction]. exists P. split; [apply mesh3_ok; cbn; lia|]. split; [reflexivity|]. vm_compute. reflexivity.
Qed.
Print Assumptions C117_abs_refuted.
Theorem C117_end_refuted : exists s : Shown Qc, shown_ok s /\ plot1D (fun x : Qc => x) s "E" "z" "z" [Q2Qc 1] = Err IndexError.
Proof. exists cube2. split; [apply mesh3_ok; cbn; lia|]. vm_compute. reflexivity. Qed.
Print Assumptions C117_end_refuted.

Example C117_case : match plot1D (fun x : Qc => x) cube2 "Hx" "z" "Z" [Q2Qc 0; Q2Qc (1#2)] with
  | Ok [r0; r1] => map this (cu_x r0) = [1#2; 2]%Q /\ map this (cu_y r0) = [0; 4]%Q /\ map this (cu_y r1) = [3; 7]%Q /\ cu_ax r0 = "z" /\ this (fst (cu_at r1)) = (3#2)%Q
  | _ => False
  end.
Proof. vm_compute. repeat split. Qed.
