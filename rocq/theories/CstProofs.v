(** Lemmas about CstModel.v. *)
From Coq Require Import List Arith ZArith Bool String Ascii Lia Permutation.
From Verif Require Import Num Vec FieldModel GridModel SolverModel WakeModel WakeNum WakeNames CstModel.
Import ListNotations.

(** Rows and cells of an n x n x m block. *)
Lemma cell_row n i j k : i < n -> j < n -> let r := i + n * (j + n * k) in
  r / (n * n) = k /\ r / n - n * k = j /\ r - j * n - k * (n * n) = i.
Proof.
  intros Hi Hj r. assert (E1 : r / n = j + n * k).
  { unfold r. rewrite Nat.add_comm, Nat.mul_comm, Nat.div_add_l by lia. rewrite Nat.div_small by exact Hi. lia. }
  assert (E2 : r / (n * n) = k).
  { rewrite <- Nat.div_div by lia. rewrite E1. rewrite Nat.add_comm, Nat.mul_comm, Nat.div_add_l by lia. rewrite Nat.div_small by exact Hj. lia. }
  split; [exact E2|]. split; [rewrite E1; lia|]. unfold r. nia.
Qed.
Lemma row_cell n m r : r < n * n * m -> exists i j k, i < n /\ j < n /\ k < m /\ r = i + n * (j + n * k).
Proof.
  intros H. assert (N : n <> 0) by (intros ->; cbn in H; lia). exists (r mod n), (r / n mod n), (r / n / n).
  pose proof (Nat.div_mod r n N) as A. pose proof (Nat.div_mod (r / n) n N) as B.
  split; [apply Nat.mod_upper_bound, N|]. split; [apply Nat.mod_upper_bound, N|]. split; [|lia].
  apply Nat.div_lt_upper_bound; [exact N|]. apply Nat.div_lt_upper_bound; [exact N|]. lia.
Qed.

Section Cst.
  Context {T : Type} {NT : Num T} {OT : NumOrd T} (num : string -> option T) (stamp : string -> option T) (units ns : T).

  (** A row with these numbers. *)
  Definition row_is (ws : line) (a b c v : T) : Prop := exists w0 w1 w2 w3 w4 w5 rest, ws = w0 :: w1 :: w2 :: w3 :: w4 :: w5 :: rest /\
    num w0 = Some a /\ num w1 = Some b /\ num w2 = Some c /\ num w5 = Some v.

  Section Block.
    Context (n m : nat) (X Y Z : nat -> T) (V : nat -> nat -> nat -> T).
    (** The state after [r] rows. *)
    Definition after (r : nat) (st : Scan T) : Prop :=
      (forall i j k, i < n -> j < n -> k < m -> i + n * (j + n * k) < r -> sc_E st i j k = V i j k) /\
      (forall i, i < n -> i < r -> sc_x st i = nmul (X i) units) /\
      (forall j, j < n -> n * j < r -> sc_y st j = nmul (Y j) units) /\
      (forall k, k < m -> n * n * k < r -> sc_z st k = nmul (Z k) units).
    Lemma scan_row_after st i j k ws : i < n -> j < n -> k < m -> let r := i + n * (j + n * k) in
      after r st -> row_is ws (X i) (Y j) (Z k) (V i j k) ->
      exists st', scan_row num n m units r ws st = Ok st' /\ after (S r) st'.
    Proof.
      intros Hi Hj Hk r (A & B & C & D) (w0 & w1 & w2 & w3 & w4 & w5 & rest & -> & E0 & E1 & E2 & E5).
      destruct (cell_row n i j k Hi Hj) as (R1 & R2 & R3). fold r in R1, R2, R3.
      assert (Er : r = i + n * (j + n * k)) by reflexivity. clearbody r.
      unfold scan_row. cbn [List.length Nat.ltb Nat.leb]. rewrite R1, R2, R3. unfold word at 1. cbn [nth_error some bind]. rewrite E5. cbn [some bind].
      destruct (Nat.eqb_spec m 0) as [->|_]; [lia|]. destruct (Nat.leb_spec m k) as [L|_]; [lia|].
      unfold word. cbn [nth_error some bind]. rewrite E0, E1, E2. cbn [some bind].
      eexists. split; [reflexivity|]. unfold after. cbn [sc_E sc_x sc_y sc_z]. unfold put1. split; [|split; [|split]].
      - intros i' j' k' Hi' Hj' Hk' L. destruct (Nat.eqb_spec i' i) as [->|Ni]; cbn [andb].
        + destruct (Nat.eqb_spec j' j) as [->|Nj]; cbn [andb].
          * destruct (Nat.eqb_spec k' k) as [->|Nk]; [reflexivity|]. apply A; try assumption. assert (i + n * (j + n * k') <> r) by (intros F; destruct (cell_row n i j k' Hi' Hj') as (F1 & _); rewrite F in F1; congruence). lia.
          * apply A; try assumption. assert (i + n * (j' + n * k') <> r); [|lia]. intros F.
            destruct (cell_row n i j' k' Hi' Hj') as (F1 & F2 & _). rewrite F in F1, F2. congruence.
        + apply A; try assumption. assert (i' + n * (j' + n * k') <> r); [|lia]. intros F.
          destruct (cell_row n i' j' k' Hi' Hj') as (F1 & F2 & F3). rewrite F in F1, F2, F3. congruence.
      - intros i' Hi' L. destruct (Nat.eqb_spec i' i) as [->|Ni]; [reflexivity|]. apply B; [exact Hi'|]. destruct (Nat.eq_dec i' r) as [E|]; [|lia].
        exfalso. destruct (cell_row n i' 0 0 Hi' ltac:(lia)) as (F1 & F2 & F3). assert (G : i' + n * (0 + n * 0) = r) by (clear - E; lia). rewrite G in F1, F2, F3. congruence.
      - intros j' Hj' L. destruct (Nat.eqb_spec j' j) as [->|Nj]; [reflexivity|]. apply C; [exact Hj'|]. destruct (Nat.eq_dec (n * j') r) as [E|]; [|lia].
        exfalso. destruct (cell_row n 0 j' 0 ltac:(lia) Hj') as (F1 & F2 & _).
        assert (G : 0 + n * (j' + n * 0) = r) by (clear - E; lia). rewrite G in F1, F2. congruence.
      - intros k' Hk' L. destruct (Nat.eqb_spec k' k) as [->|Nk]; [reflexivity|]. apply D; [exact Hk'|]. destruct (Nat.eq_dec (n * n * k') r) as [E|]; [|lia].
        exfalso. destruct (cell_row n 0 0 k' ltac:(lia) ltac:(lia)) as (F1 & _).
        assert (G : 0 + n * (0 + n * k') = r) by (clear - E; lia). rewrite G in F1. congruence.
    Qed.
    Lemma scan_rows_after body : forall r st, r + List.length body = n * n * m ->
      (forall i j k, i < n -> j < n -> k < m -> forall ws p, i + n * (j + n * k) = r + p -> nth_error body p = Some ws -> row_is ws (X i) (Y j) (Z k) (V i j k)) ->
      after r st -> exists st', scan_rows num n m units r body st = Ok st' /\ after (n * n * m) st'.
    Proof.
      induction body as [|ws body IH]; intros r st L H A; cbn [scan_rows].
      - exists st. split; [reflexivity|]. cbn in L. replace (n * n * m) with r by lia. exact A.
      - cbn [List.length] in L. destruct (row_cell n m r ltac:(lia)) as (i & j & k & Hi & Hj & Hk & E).
        assert (Q : row_is ws (X i) (Y j) (Z k) (V i j k)) by (apply (H i j k Hi Hj Hk ws 0); [lia|reflexivity]).
        subst r. destruct (scan_row_after st i j k ws Hi Hj Hk A Q) as (st1 & E1 & A1). rewrite E1. cbn [bind].
        rewrite Nat.add_1_r. apply IH; [lia| |exact A1].
        intros i' j' k' Hi' Hj' Hk' ws' p Ep Np. apply (H i' j' k' Hi' Hj' Hk' ws' (S p)); [lia|exact Np].
    Qed.
  End Block.

  Lemma count_found ls x1 n : forall fuel i, i <= n -> n < i + fuel ->
    (forall p, i <= p -> p < n -> exists w, first_word ls (p + 3) = Ok w /\ x1 <> w) -> first_word ls (n + 3) = Ok x1 ->
    count_from fuel i x1 ls = Ok n.
  Proof.
    induction fuel as [|f IH]; intros i Hi Hf H E; [lia|]. cbn [count_from]. destruct (Nat.eq_dec i n) as [->|N].
    - rewrite E. cbn [bind]. rewrite String.eqb_refl. reflexivity.
    - destruct (H i (le_n i) ltac:(lia)) as (w & Ew & Nw). rewrite Ew. cbn [bind]. apply String.eqb_neq in Nw. rewrite Nw.
      apply IH; [lia|lia| |exact E]. intros p Lp Hp. apply H; lia.
  Qed.

  Lemma insert_file_perm a l : Permutation (insert_file a l) (a :: l).
  Proof.
    induction l as [|b l IH]; [reflexivity|]. cbn [insert_file]. destruct (nltb (fst b) (fst a)); [|reflexivity].
    rewrite IH. apply perm_swap.
  Qed.
  Lemma sorted_perm l : Permutation (fold_right insert_file [] l) l.
  Proof. induction l as [|a l IH]; [reflexivity|]. cbn [fold_right]. rewrite insert_file_perm, IH. reflexivity. Qed.
  Lemma stamped_map l : forall k, stamped stamp l = Some k -> map snd k = l /\ Forall (fun a => stamp (fst (snd a)) = Some (fst a)) k.
  Proof.
    induction l as [|f l IH]; intros k H; cbn [stamped] in H; [injection H as <-; auto|].
    destruct (stamp (fst f)) as [t|] eqn:E; [|discriminate]. destruct (stamped stamp l) as [r|]; [|discriminate]. injection H as <-.
    destruct (IH r eq_refl) as [M F]. cbn. rewrite M. auto.
  Qed.
  Lemma stamped_all l : (forall f, In f l -> stamp (fst f) <> None) -> exists k, stamped stamp l = Some k.
  Proof.
    induction l as [|f l IH]; intros H; [exists []; reflexivity|]. cbn [stamped]. destruct (stamp (fst f)) as [t|] eqn:E.
    - destruct IH as [k ->]; [intros g Hg; apply H; right; exact Hg|]. exists ((t, f) :: k). reflexivity.
    - exfalso. apply (H f (or_introl eq_refl) E).
  Qed.
  Lemma sort_files_perm l : Permutation (sort_files stamp l) l.
  Proof.
    unfold sort_files. destruct (stamped stamp l) as [k|] eqn:E; [|reflexivity]. destruct (stamped_map l k E) as [<- _].
    apply Permutation_map, sorted_perm.
  Qed.

  Context {LT : NumLaws T} {FT : NumFl T} {FL : NumFlLaws T}.
  (** No later file has an earlier time. *)
  Fixpoint increasing_ (l : list (T * @CstModel.file)) : Prop :=
    match l with a :: r => (forall b, In b r -> nltb (fst b) (fst a) = false) /\ increasing_ r | [] => True end.
  Lemma insert_file_sorted a l : increasing_ l -> increasing_ (insert_file a l).
  Proof.
    induction l as [|b l IH]; intros H; [cbn; intuition|]. cbn [insert_file]. destruct (nltb (fst b) (fst a)) eqn:E; destruct H as [H1 H2].
    - split; [|apply IH, H2]. intros c Hc. apply (Permutation_in _ (insert_file_perm a l)) in Hc. destruct Hc as [<-|Hc]; [|apply H1, Hc].
      destruct (nltb (fst a) (fst b)) eqn:F; [|reflexivity]. exfalso. pose proof (ol_trans _ _ _ E F) as G. rewrite ol_irr in G. discriminate G.
    - split; [|split; assumption]. intros c [<-|Hc]; [exact E|]. specialize (H1 c Hc).
      destruct (nltb (fst c) (fst a)) eqn:F; [|reflexivity]. exfalso. destruct (nltb (fst a) (fst b)) eqn:G.
      + pose proof (ol_trans _ _ _ F G) as K. congruence.
      + rewrite (ol_total _ _ E G) in H1. congruence.
  Qed.
  Lemma sorted_sorted l : increasing_ (fold_right insert_file [] l).
  Proof. induction l as [|a l IH]; [exact I|]. cbn [fold_right]. apply insert_file_sorted, IH. Qed.
End Cst.
