(** Lemmas: linear interpolation and the charge distribution. *)
From Coq Require Import List Arith ZArith Bool String Lia Ring Field.
From Verif Require Import Num Vec FieldModel GridModel SolverModel SolverBuild GridFileModel WakeModel WakeNum WakeProofs WakeZ SourceModel FftModel.
Import ListNotations.

Section Interp.
  Context {T : Type} {NT : Num T} {LT : NumLaws T} {OT : NumOrd T} {FT : NumFl T} {FL : NumFlLaws T}.
  Add Field fi : (@num_field T NT LT).
  Local Open Scope num_scope.

  (** Strictly increasing nodes. *)
  Definition rising (x : list T) : Prop := forall i, (S i < List.length x)%nat -> nltb (get x i) (get x (S i)) = true.
  Definition pt (xp fp : list T) (x : T) : T :=
    match xp, fp with x0 :: xs, y0 :: ys => if nltb x x0 then y0 else interp_from chord x x0 y0 xs ys | _, _ => 0 end.

  Lemma interp_ok xs xp fp : (0 < List.length xp)%nat -> List.length fp = List.length xp ->
    interp xs xp fp = Ok (map (pt xp fp) xs).
  Proof.
    intros H L. unfold interp, interp_with, pt. destruct xp as [|x0 xp]; [cbn in H; lia|]. destruct fp as [|y0 fp]; [discriminate|].
    cbn in L. injection L as L. rewrite L, Nat.eqb_refl. reflexivity.
  Qed.
  Lemma interp_bad xs xp fp : List.length fp <> List.length xp -> interp xs xp fp = Err ValueError.
  Proof.
    intros H. unfold interp, interp_with. destruct xp as [|x0 xp], fp as [|y0 fp]; try reflexivity.
    destruct (Nat.eqb_spec (List.length xp) (List.length fp)) as [E|_]; [|reflexivity]. cbn in H. lia.
  Qed.
  Lemma rising_tail x0 xs : rising (x0 :: xs) -> rising xs.
  Proof. intros H i Hi. exact (H (S i) ltac:(cbn; lia)). Qed.
  Lemma rising_lt xs : rising xs -> forall j i, (i < j < List.length xs)%nat -> nltb (get xs i) (get xs j) = true.
  Proof.
    intros H. induction j as [|j IH]; intros i Hi; [lia|]. destruct (Nat.eq_dec i j) as [->|N]; [apply H; lia|].
    apply (ol_trans _ (get xs j)); [apply IH; lia|apply H; lia].
  Qed.
  Lemma le_lt (a b c : T) : nltb b a = false -> nltb b c = true -> nltb a c = true.
  Proof.
    intros H1 H2. destruct (nltb a b) eqn:E; [apply (ol_trans _ b); assumption|]. rewrite (ol_total a b E H1). exact H2.
  Qed.
  Lemma lt_asym (a b : T) : nltb a b = true -> nltb b a = false.
  Proof.
    intros H. destruct (nltb b a) eqn:E; [|reflexivity]. pose proof (ol_trans a b a H E) as C. rewrite ol_irr in C. discriminate.
  Qed.

  Lemma from_chord : forall xs ys x0 y0 x i, List.length ys = List.length xs -> rising (x0 :: xs) -> (i < List.length xs)%nat ->
    nltb x (get (x0 :: xs) i) = false -> nltb x (get (x0 :: xs) (S i)) = true ->
    interp_from chord x x0 y0 xs ys = chord x (get (x0 :: xs) i) (get (y0 :: ys) i) (get (x0 :: xs) (S i)) (get (y0 :: ys) (S i)).
  Proof.
    induction xs as [|x1 xs IH]; intros ys x0 y0 x i L R Hi H1 H2; [cbn in Hi; lia|]. destruct ys as [|y1 ys]; [discriminate|].
    cbn [interp_from]. destruct i as [|i].
    - change (get (x0 :: x1 :: xs) 1) with x1 in *. rewrite H2. reflexivity.
    - change (get (x0 :: x1 :: xs) (S i)) with (get (x1 :: xs) i) in *. change (get (x0 :: x1 :: xs) (S (S i))) with (get (x1 :: xs) (S i)) in *.
      assert (F : nltb x x1 = false).
      { destruct (nltb x x1) eqn:E; [|reflexivity]. destruct i as [|i].
        - change (get (x1 :: xs) 0) with x1 in H1. congruence.
        - assert (Q : nltb x1 (get (x1 :: xs) (S i)) = true).
          { change x1 with (get (x1 :: xs) 0) at 1. apply (rising_lt _ (rising_tail _ _ R)). cbn in *. lia. }
          rewrite (ol_trans _ _ _ E Q) in H1. discriminate. }
      rewrite F. change (get (y0 :: y1 :: ys) (S i)) with (get (y1 :: ys) i). change (get (y0 :: y1 :: ys) (S (S i))) with (get (y1 :: ys) (S i)).
      apply IH; [cbn in L; lia|apply (rising_tail _ _ R)|cbn in Hi; lia|exact H1|exact H2].
  Qed.
  Lemma from_end : forall xs ys x0 y0 x, List.length ys = List.length xs -> rising (x0 :: xs) ->
    nltb x (get (x0 :: xs) (List.length xs)) = false -> interp_from chord x x0 y0 xs ys = get (y0 :: ys) (List.length ys).
  Proof.
    induction xs as [|x1 xs IH]; intros ys x0 y0 x L R H; destruct ys as [|y1 ys]; try discriminate; [reflexivity|].
    cbn [interp_from]. assert (F : nltb x x1 = false).
    { destruct (nltb x x1) eqn:E; [|reflexivity]. destruct xs as [|x2 xs]; [unfold get in H; cbn in H; congruence|].
      assert (Q : nltb x1 (get (x0 :: x1 :: x2 :: xs) (List.length (x1 :: x2 :: xs))) = true).
      { change x1 with (get (x0 :: x1 :: x2 :: xs) 1) at 1. apply (rising_lt _ R). cbn. lia. }
      rewrite (ol_trans _ _ _ E Q) in H. discriminate. }
    rewrite F. change (get (y0 :: y1 :: ys) (List.length (y1 :: ys))) with (get (y1 :: ys) (List.length ys)).
    apply IH; [cbn in L; lia|apply (rising_tail _ _ R)|exact H].
  Qed.

  Lemma pt_spec xp fp x : rising xp -> (0 < List.length xp)%nat -> List.length fp = List.length xp -> let n := (List.length xp - 1)%nat in
    (nltb x (get xp 0) = true -> pt xp fp x = get fp 0) /\
    (forall i, (i < n)%nat -> nltb x (get xp i) = false -> nltb x (get xp (S i)) = true ->
       pt xp fp x = get fp i + (get fp (S i) - get fp i) * ((x - get xp i) / (get xp (S i) - get xp i))) /\
    (nltb x (get xp n) = false -> pt xp fp x = get fp n).
  Proof.
    intros R H L n. destruct xp as [|x0 xp]; [cbn in H; lia|]. destruct fp as [|y0 fp]; [discriminate|].
    assert (En : n = List.length xp) by (unfold n; cbn; lia). rewrite En. cbn in L. injection L as L. cbn [pt]. split; [|split].
    - intros E. change (get (x0 :: xp) 0) with x0 in E. rewrite E. reflexivity.
    - intros i Hi H1 H2. assert (F : nltb x x0 = false).
      { destruct (nltb x x0) eqn:E; [|reflexivity]. destruct i as [|i]; [change (get (x0 :: xp) 0) with x0 in H1; congruence|].
        assert (Q : nltb x0 (get (x0 :: xp) (S i)) = true) by (change x0 with (get (x0 :: xp) 0) at 1; apply (rising_lt _ R); cbn; lia).
        rewrite (ol_trans _ _ _ E Q) in H1. discriminate. }
      rewrite F. rewrite (from_chord xp fp x0 y0 x i L R Hi H1 H2). unfold chord. field.
      intros Z. assert (P : nltb (get (x0 :: xp) i) (get (x0 :: xp) (S i)) = true) by (apply R; cbn; lia).
      rewrite <- (ol_add _ _ (- get (x0 :: xp) i)) in P. replace (get (x0 :: xp) i + - get (x0 :: xp) i) with (0 : T) in P by ring.
      replace (get (x0 :: xp) (S i) + - get (x0 :: xp) i) with (get (x0 :: xp) (S i) - get (x0 :: xp) i) in P by ring.
      rewrite Z, ol_irr in P. discriminate.
    - intros H1. assert (F : nltb x x0 = false).
      { destruct (nltb x x0) eqn:E; [|reflexivity]. destruct xp as [|x1 xp]; [change (get [x0] (List.length (@nil T))) with x0 in H1; congruence|].
        assert (Q : nltb x0 (get (x0 :: x1 :: xp) (List.length (x1 :: xp))) = true)
          by (change x0 with (get (x0 :: x1 :: xp) 0) at 1; apply (rising_lt _ R); cbn; lia).
        rewrite (ol_trans _ _ _ E Q) in H1. discriminate. }
      rewrite F. rewrite <- L. apply from_end; [exact L|exact R|exact H1].
  Qed.
  Lemma pt_node xp fp i : rising xp -> (i < List.length xp)%nat -> List.length fp = List.length xp -> pt xp fp (get xp i) = get fp i.
  Proof.
    intros R Hi L. destruct (pt_spec xp fp (get xp i) R ltac:(lia) L) as (_ & P2 & P3).
    destruct (Nat.eq_dec i (List.length xp - 1)) as [->|N]; [apply P3, ol_irr|].
    rewrite (P2 i ltac:(lia) (ol_irr _) (R i ltac:(lia))).
    assert (Z : get xp i - get xp i = 0) by ring. rewrite Z.
    assert (D : forall d : T, 0 / d = 0) by (intros d; rewrite (Fdiv_def num_field); ring). rewrite D. ring.
  Qed.

  Lemma lambdas_arr z zf (l : list T) q s zz : match_axis z zf (List.length l) = Ok zz -> (0 < List.length l)%nat -> List.length zz = List.length l ->
    calc_lambdas (ChArr l) z zf q s = Ok (map (pt zz (map (fun x => x / q) l)) s).
  Proof. intros M H L. cbn [calc_lambdas]. rewrite M. cbn [bind]. apply interp_ok; [lia|rewrite map_length; lia]. Qed.
  Lemma match_axis_len (z zf : option (list T)) n (zz : list T) : match_axis z zf n = Ok zz -> List.length zz = n /\ (z = Some zz \/ zf = Some zz).
  Proof.
    unfold match_axis, len_of, some. destruct z as [z|]; [|discriminate]. cbn [bind]. destruct (Nat.eqb_spec (List.length z) n) as [E|_].
    - intros H. injection H as <-. split; [exact E|left; reflexivity].
    - destruct zf as [zf|]; [|discriminate]. cbn [bind]. destruct (Nat.eqb_spec (List.length zf) n) as [E|_]; [|discriminate].
      intros H. injection H as <-. split; [exact E|right; reflexivity].
  Qed.
End Interp.
