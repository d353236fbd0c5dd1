(** Lemmas: frequencies kept by the impedance calculation and the sums behind each value. *)
From Coq Require Import List Arith ZArith Bool String Lia Ring Field.
From Verif Require Import Num Vec FieldModel GridModel SolverModel MpiTiles WakeModel WakeNum WakeProofs WakeTrans WakeZ.
Import ListNotations.

Lemma filter_initial (p : nat -> bool) M : forall n a, (forall i, a <= i < a + n -> p i = (i <? M)) -> M <= a + n -> a <= M ->
  filter p (seq a n) = seq a (M - a).
Proof.
  induction n as [|n IH]; intros a Hp H1 H2.
  - replace (M - a) with 0 by lia. reflexivity.
  - cbn [seq filter]. rewrite Hp by lia. destruct (Nat.ltb_spec a M) as [L|L].
    + rewrite IH; [|intros i Hi; apply Hp; lia|lia|lia]. replace (M - a) with (S (M - S a)) by lia. reflexivity.
    + replace (M - a) with 0 by lia. cbn [seq].
      assert (G : forall m b, M <= b -> a < b -> b + m <= a + S n -> filter p (seq b m) = []).
      { induction m as [|m IHm]; intros b B1 B2 B3; [reflexivity|]. cbn [seq filter]. rewrite Hp by lia.
        destruct (Nat.ltb_spec b M); [lia|]. apply IHm; lia. }
      apply G; lia.
Qed.

Section ZProofs.
  Context {T : Type} {NT : Num T} {LT : NumLaws T} {OT : NumOrd T} {FT : NumFl T} {FL : NumFlLaws T}.
  Add Field zpf : (@num_field T NT LT).
  Local Open Scope num_scope.

  Lemma ceil_lt k (x : T) : nltb (nofnat k) x = true <-> (Z.of_nat k < nceil x)%Z.
  Proof.
    unfold nceil. assert (E : nltb (nofnat k) x = nltb (nofnat k + - x) 0).
    { rewrite <- (ol_add (nofnat k) x (- x)). f_equal. ring. }
    rewrite E, fl_neg, fl_nat. lia.
  Qed.
  Lemma ceil_le n (x : T) : nltb (nofnat n) x = false -> (nceil x <= Z.of_nat n)%Z.
  Proof.
    intros H. destruct (Z.le_gt_cases (nceil x) (Z.of_nat n)) as [|G]; [assumption|].
    assert (C : nltb (nofnat n) x = true) by (apply ceil_lt; lia). congruence.
  Qed.
  Lemma nofnat_pos n : (0 < n)%nat -> nltb 0 (nofnat n : T) = true.
  Proof.
    intros H. assert (E : nltb (nofnat 0 : T) (nofnat n) = true); [|exact E].
    apply ceil_lt. rewrite ceil_nofnat. lia.
  Qed.
  Lemma nofnat_neq n : (0 < n)%nat -> (nofnat n : T) <> 0.
  Proof. intros H. apply pos_neq. apply nofnat_pos. exact H. Qed.
  Lemma inv_pos (x : T) : nltb 0 x = true -> nltb 0 (1 / x) = true.
  Proof.
    intros H. rewrite <- (ol_mul 0 (1 / x) x H). replace (0 * x) with (0 : T) by ring.
    replace (1 / x * x) with (1 : T) by (field; apply pos_neq; exact H). apply ol_01.
  Qed.
  Lemma div_pos (a b : T) : nltb 0 a = true -> nltb 0 b = true -> nltb 0 (a / b) = true.
  Proof.
    intros H1 H2. replace (a / b) with (a * (1 / b)) by (field; apply pos_neq; exact H2).
    apply mul_pos; [exact H1|apply inv_pos; exact H2].
  Qed.
  Lemma neg_pos (x : T) : nltb 0 x = true -> nltb (- x) 0 = true.
  Proof. intros H. rewrite <- (ol_add (- x) 0 x). replace (- x + x) with (0 : T) by ring. replace (0 + x) with x by ring. exact H. Qed.

  (** The positions kept: 0 .. M-1. *)
  Definition kept (N : nat) (d fmax : T) : nat := Nat.min ((N - 1) / 2 + 1) (Z.to_nat (nceil (fmax * (nofnat N * d)))).
  Lemma fftfreq_length N (d : T) : (0 < N)%nat -> List.length (fftfreq N d) = N.
  Proof.
    intros H. unfold fftfreq. rewrite app_length, !tab_length.
    pose proof (Nat.div_mod N 2 ltac:(lia)). pose proof (Nat.div_mod (N - 1) 2 ltac:(lia)).
    pose proof (Nat.mod_upper_bound N 2 ltac:(lia)). pose proof (Nat.mod_upper_bound (N - 1) 2 ltac:(lia)). lia.
  Qed.
  Lemma picked_spec N (d fmax : T) : (0 < N)%nat -> nltb 0 d = true ->
    picked (fftfreq N d) fmax = seq 0 (kept N d fmax) /\
    map (get (fftfreq N d)) (picked (fftfreq N d) fmax) = tab (kept N d fmax) (fun k => nofnat k * (1 / (nofnat N * d))).
  Proof.
    intros HN Hd. set (val := 1 / (nofnat N * d)). set (M := kept N d fmax).
    assert (P : nltb 0 (nofnat N * d) = true) by (apply mul_pos; [apply nofnat_pos; exact HN|exact Hd]).
    assert (Vp : nltb 0 val = true) by (apply inv_pos; exact P).
    set (h := ((N - 1) / 2 + 1)%nat).
    assert (Gl : forall i, (i < h)%nat -> get (fftfreq N d) i = nofnat i * val).
    { intros i Hi. unfold fftfreq, get. rewrite app_nth1 by (rewrite tab_length; exact Hi). rewrite nth_tab by exact Hi. reflexivity. }
    assert (Hh : (h <= N)%nat).
    { unfold h. pose proof (Nat.div_le_upper_bound (N - 1) 2 (N - 1) ltac:(lia) ltac:(lia)). lia. }
    assert (Gh : forall i, (h <= i < N)%nat -> nltb (get (fftfreq N d) i) 0 = true).
    { intros i Hi. unfold fftfreq, get. rewrite app_nth2 by (rewrite tab_length; fold h; lia). rewrite tab_length. fold h.
      assert (E : (N / 2 + h = N)%nat).
      { unfold h. pose proof (Nat.div_mod N 2 ltac:(lia)). pose proof (Nat.div_mod (N - 1) 2 ltac:(lia)).
        pose proof (Nat.mod_upper_bound N 2 ltac:(lia)). pose proof (Nat.mod_upper_bound (N - 1) 2 ltac:(lia)). lia. }
      rewrite nth_tab by lia. fold val.
      destruct (Z.of_nat (i - h) - Z.of_nat (N / 2))%Z as [|p|p] eqn:Ez; [lia|lia|]. unfold nofZ.
      replace (- nofnat (Z.to_nat (- Z.neg p)) * val) with (- (nofnat (Z.to_nat (- Z.neg p)) * val)) by ring.
      apply neg_pos. apply mul_pos; [apply nofnat_pos; lia|exact Vp]. }
    assert (S0 : picked (fftfreq N d) fmax = seq 0 M).
    { unfold picked. rewrite fftfreq_length by exact HN. rewrite (filter_initial _ M); [f_equal; lia| |unfold M, kept; lia|lia].
      intros i [_ Hi]. cbn [plus] in Hi. destruct (Nat.lt_ge_cases i h) as [L|L].
      - rewrite Gl by exact L.
        assert (N0 : nltb (nofnat i * val) 0 = false).
        { destruct i as [|i]; [cbn [nofnat]; replace (0 * val) with (0 : T) by ring; apply ol_irr|].
          apply ltb_asym. apply mul_pos; [apply nofnat_pos; lia|exact Vp]. }
        rewrite N0. cbn [negb andb].
        assert (X : nltb (nofnat i * val) fmax = nltb (nofnat i) (fmax * (nofnat N * d))).
        { rewrite <- (ol_mul (nofnat i * val) fmax (nofnat N * d) P). f_equal. unfold val. field.
          split; [apply pos_neq; exact Hd|apply nofnat_neq; exact HN]. }
        rewrite X. unfold M, kept. fold h.
        destruct (nltb (nofnat i) (fmax * (nofnat N * d))) eqn:Y.
        + apply ceil_lt in Y. symmetry. apply Nat.ltb_lt. lia.
        + apply ceil_le in Y. symmetry. apply Nat.ltb_ge. lia.
      - rewrite Gh by lia. cbn [negb andb]. symmetry. apply Nat.ltb_ge. unfold M, kept. fold h. lia. }
    split; [exact S0|]. rewrite S0. change (map (get (fftfreq N d)) (seq 0 M)) with (tab M (get (fftfreq N d))).
    apply tab_ext. intros i Hi. apply Gl. unfold M, kept in Hi. fold h in Hi. lia.
  Qed.

  (** The length of the transform. *)
  Lemma dft_len_spec (v ds fmax : T) samples : nltb 0 v = true -> nltb 0 ds = true -> nltb 0 fmax = true -> (1 <= samples)%nat ->
    nltb (v / ds) fmax = false ->
    exists m, (1 <= m)%nat /\ Z.of_nat m = nfloor (v / ds / fmax)%num /\ dft_len v ds fmax samples = Ok (m * samples)%nat.
  Proof.
    intros Hv Hd Hf Hs Hle. pose proof (pos_neq _ Hd) as Nd. pose proof (pos_neq _ Hf) as Nf.
    assert (F : (1 <= nfloor (v / ds / fmax)%num)%Z).
    { apply (proj1 (fl_lower (v / ds / fmax) 1)). rewrite <- Hle. rewrite <- (ol_mul _ (nofnat 1) _ Hf).
      f_equal; [field; auto|]. cbn [nofnat]. ring. }
    exists (Z.to_nat (nfloor (v / ds / fmax)%num)). split; [lia|]. split; [lia|]. unfold dft_len.
    destruct (neqb ds 0) eqn:E1; [apply neqb_eq in E1; contradiction|]. destruct (neqb fmax 0) eqn:E2; [apply neqb_eq in E2; contradiction|].
    cbn [orb]. destruct (Z.ltb_spec (nfloor (v / ds / fmax)%num * Z.of_nat samples) 1) as [L|L]; [nia|].
    f_equal. rewrite Z2Nat.inj_mul by lia. rewrite Nat2Z.id. reflexivity.
  Qed.
  Lemma dft_len_fails (v ds fmax : T) samples : nltb 0 ds = true -> nltb 0 fmax = true -> nltb (v / ds) fmax = true ->
    dft_len v ds fmax samples = Err ValueError.
  Proof.
    intros Hd Hf Hlt. pose proof (pos_neq _ Hd) as Nd. pose proof (pos_neq _ Hf) as Nf. unfold dft_len.
    destruct (neqb ds 0 || neqb fmax 0)%bool; [reflexivity|].
    assert (F : (nfloor (v / ds / fmax)%num < 1)%Z).
    { destruct (Z.lt_ge_cases (nfloor (v / ds / fmax)%num) 1) as [|G]; [assumption|].
      apply (proj2 (fl_lower (v / ds / fmax) 1)) in G. rewrite <- (ol_mul _ (nofnat 1) _ Hf) in G.
      replace (v / ds / fmax * fmax) with (v / ds) in G by (field; auto).
      replace (nofnat 1 * fmax) with fmax in G by (cbn [nofnat]; ring). congruence. }
    destruct (Z.ltb_spec (nfloor (v / ds / fmax)%num * Z.of_nat samples) 1) as [|G]; [reflexivity|nia].
  Qed.

  (** At most [samples] frequencies; they reach fmax when the sampling allows it. *)
  Lemma kept_le (v ds fmax : T) samples m : nltb 0 v = true -> nltb 0 ds = true -> nltb 0 fmax = true -> (1 <= samples)%nat -> (1 <= m)%nat ->
    Z.of_nat m = nfloor (v / ds / fmax)%num -> (1 <= kept (m * samples) (ds / v)%num fmax <= samples)%nat.
  Proof.
    intros Hv Hd Hf Hs Hm Em. pose proof (pos_neq _ Hv) as Nv. pose proof (pos_neq _ Hd) as Nd. pose proof (pos_neq _ Hf) as Nf.
    set (x := fmax * (nofnat (m * samples) * (ds / v))).
    assert (Px : nltb 0 x = true).
    { unfold x. repeat apply mul_pos; try assumption; [apply nofnat_pos; nia|]. apply div_pos; assumption. }
    assert (C1 : (0 < nceil x)%Z). { change 0%Z with (Z.of_nat 0). apply ceil_lt. exact Px. }
    assert (C2 : (nceil x <= Z.of_nat samples)%Z).
    { apply ceil_le. assert (L : nltb (v / ds / fmax) (nofnat m) = false) by (apply fl_lower; lia).
      assert (Q : nltb 0 (nofnat samples * (fmax * (ds / v))) = true).
      { repeat apply mul_pos; try assumption; [apply nofnat_pos; lia|]. apply div_pos; assumption. }
      rewrite <- L. rewrite <- (ol_mul (v / ds / fmax) (nofnat m) _ Q). f_equal.
      - field. auto.
      - unfold x. rewrite nofnat_mul. field. exact Nv. }
    unfold kept. fold x. split; [|lia]. apply Nat.min_glb; [lia|]. lia.
  Qed.
  Lemma kept_reaches (v ds fmax : T) N : nltb 0 v = true -> nltb 0 ds = true -> nltb 0 fmax = true -> (0 < N)%nat ->
    nltb (v / ds) (nofnat 2 * fmax) = false ->
    nltb (nofnat (kept N (ds / v) fmax) * (1 / (nofnat N * (ds / v)))) fmax = false.
  Proof.
    intros Hv Hd Hf HN H2. pose proof (pos_neq _ Hv) as Nv. pose proof (pos_neq _ Hd) as Nd.
    set (x := fmax * (nofnat N * (ds / v))). set (h := ((N - 1) / 2 + 1)%nat).
    assert (P : nltb 0 (nofnat N * (ds / v)) = true) by (apply mul_pos; [apply nofnat_pos; exact HN|apply div_pos; assumption]).
    assert (Ch : (nceil x <= Z.of_nat h)%Z).
    { apply ceil_le. assert (B : nltb (nofnat N) (nofnat 2 * x) = false).
      { assert (Q : nltb 0 (nofnat N * (ds / v)) = true) by exact P. rewrite <- H2.
        rewrite <- (ol_mul (v / ds) (nofnat 2 * fmax) _ Q). f_equal; [field; auto|]. unfold x. field. exact Nv. }
      assert (B2 : nltb (nofnat 2 * nofnat h) (nofnat N) = false).
      { rewrite <- nofnat_mul. destruct (nltb (nofnat (2 * h)) (nofnat N : T)) eqn:Y; [|reflexivity].
        apply ceil_lt in Y. rewrite ceil_nofnat in Y. unfold h in Y.
        pose proof (Nat.div_mod (N - 1) 2 ltac:(lia)). pose proof (Nat.mod_upper_bound (N - 1) 2 ltac:(lia)). lia. }
      assert (B3 : nltb (nofnat 2 * nofnat h) (nofnat 2 * x) = false) by (eapply le_trans; eassumption).
      pose proof (ol_mul (nofnat h) x (nofnat 2) (nofnat_pos 2 ltac:(lia))) as E.
      replace (nofnat h * nofnat 2) with (nofnat 2 * nofnat h) in E by ring. replace (x * nofnat 2) with (nofnat 2 * x) in E by ring.
      congruence. }
    assert (K : Z.of_nat (kept N (ds / v) fmax) = nceil x).
    { unfold kept. fold x h. assert (Px : nltb 0 x = true) by (unfold x; apply mul_pos; assumption).
      assert (C1 : (0 < nceil x)%Z) by (change 0%Z with (Z.of_nat 0); apply ceil_lt; exact Px). lia. }
    assert (X : nltb (nofnat (kept N (ds / v) fmax)) x = false).
    { destruct (nltb (nofnat (kept N (ds / v) fmax)) x) eqn:Y; [|reflexivity]. apply ceil_lt in Y. lia. }
    rewrite <- X. rewrite <- (ol_mul _ fmax _ P). f_equal. field. repeat split; auto. apply nofnat_neq. exact HN.
  Qed.

  Lemma kept_below N (d fmax : T) k : (0 < N)%nat -> nltb 0 d = true -> (k < kept N d fmax)%nat ->
    nltb (nofnat k * (1 / (nofnat N * d))) fmax = true.
  Proof.
    intros HN Hd Hk.
    assert (P : nltb 0 (nofnat N * d) = true) by (apply mul_pos; [apply nofnat_pos; exact HN|exact Hd]).
    assert (C : nltb (nofnat k) (fmax * (nofnat N * d)) = true) by (apply ceil_lt; unfold kept in Hk; lia).
    rewrite <- C. rewrite <- (ol_mul _ fmax _ P). f_equal. field. split; [apply pos_neq; exact Hd|apply nofnat_neq; exact HN].
  Qed.
  Lemma grid_increasing (y : T) i j : nltb 0 y = true -> (i < j)%nat -> nltb (nofnat i * y) (nofnat j * y) = true.
  Proof. intros Hy H. rewrite ol_mul by exact Hy. apply ceil_lt. rewrite ceil_nofnat. lia. Qed.
  Lemma step_form (v ds : T) N : nltb 0 v = true -> nltb 0 ds = true -> (0 < N)%nat -> 1 / (nofnat N * (ds / v)) = v / (nofnat N * ds).
  Proof. intros Hv Hd HN. field. repeat split; try (apply pos_neq; assumption). apply nofnat_neq. exact HN. Qed.

  Lemma nofnat_0_mul (y : T) : nofnat 0 * y = 0.
  Proof. cbn [nofnat]. ring. Qed.
  Lemma double_gt (x : T) : nltb 0 x = true -> nltb x (nofnat 2 * x) = true.
  Proof.
    intros H. rewrite <- H. rewrite <- (ol_add 0 x x). f_equal; [ring|]. cbn [nofnat]. ring.
  Qed.

  (** *** Values *)
  Lemma csum_ext n (f g : nat -> cx T) : (forall i, (i < n)%nat -> f i = g i) -> csum n f = csum n g.
  Proof. intros H. unfold csum. f_equal; apply sum_ext; intros i Hi; rewrite H by exact Hi; reflexivity. Qed.
  Lemma csum_scale n x (f : nat -> cx T) : csum n (fun i => cscale x (f i)) = cscale x (csum n f).
  Proof. unfold csum, cscale. cbn [fst snd]. rewrite !sum_scale. reflexivity. Qed.
  Lemma csum_cut n m (f : nat -> cx T) : (n <= m)%nat -> (forall i, (n <= i < m)%nat -> f i = c0) -> csum m f = csum n f.
  Proof.
    intros H Z. replace m with (n + (m - n))%nat by lia. unfold csum. rewrite !sum_split.
    rewrite (sum_0 (m - n) (fun i => fst (f (n + i)%nat))), (sum_0 (m - n) (fun i => snd (f (n + i)%nat))).
    - f_equal; ring.
    - intros i Hi. rewrite Z by lia. reflexivity.
    - intros i Hi. rewrite Z by lia. reflexivity.
  Qed.
  Lemma cscale_scale x y (a : cx T) : cscale x (cscale y a) = cscale (x * y) a.
  Proof. unfold cscale. cbn [fst snd]. f_equal; ring. Qed.
  Lemma cdiv_scale (d : T) (a b : cx T) : d <> 0 -> cnorm2 b <> 0 -> cdiv (cscale d a) (cscale d b) = cdiv a b.
  Proof.
    intros Hd Hb. unfold cdiv, cscale, cnorm2 in *. cbn [fst snd].
    assert (E : d * fst b * (d * fst b) + d * snd b * (d * snd b) = d * d * (fst b * fst b + snd b * snd b)) by ring.
    assert (N : d * fst b * (d * fst b) + d * snd b * (d * snd b) <> 0).
    { rewrite E. intros H. apply Hb.
      replace (fst b * fst b + snd b * snd b) with (d * d * (fst b * fst b + snd b * snd b) / (d * d)) by (field; exact Hd).
      rewrite H. field. exact Hd. }
    f_equal; (replace (d * fst b * (d * fst b) + d * snd b * (d * snd b)) with (d * d * (fst b * fst b + snd b * snd b)) by ring); field; auto.
  Qed.
  Lemma cscale_opp d (a : cx T) : copp (cscale d a) = cscale d (copp a).
  Proof. unfold copp, cscale. cbn [fst snd]. f_equal; ring. Qed.
  Lemma cscale_mul d (a b : cx T) : cmul a (cscale d b) = cscale d (cmul a b).
  Proof. unfold cmul, cscale. cbn [fst snd]. f_equal; ring. Qed.
  Lemma cget_tab n (f : nat -> cx T) i : (i < n)%nat -> cget (tab n f) i = f i.
  Proof. intros H. unfold cget. apply nth_tab. exact H. Qed.
  Lemma get_map_mul (x : list T) y n : get (map (fun a => a * y) x) n = get x n * y.
  Proof.
    unfold get. destruct (Nat.lt_ge_cases n (List.length x)) as [H|H].
    - rewrite (nth_indep _ 0 (0 * y)) by (rewrite map_length; exact H). apply (map_nth (fun a => a * y) x 0 n).
    - rewrite !nth_overflow by (rewrite ?map_length; exact H). ring.
  Qed.

  Section Values.
    Context (tw : nat -> nat -> cx T).
    (** The transform of a whole list at frequency index k. *)
    Definition dft (N : nat) (x : list T) (k : nat) : cx T := csum (List.length x) (fun n => cscale (get x n) (tw N (n * k))).
    (** The transform as computed: first N entries. *)
    Definition dft_cut (N : nat) (x : list T) (k : nat) : cx T := csum N (fun n => cscale (get x n) (tw N (n * k))).
    Lemma dft_cut_whole N x k : (List.length x <= N)%nat -> dft_cut N x k = dft N x k.
    Proof.
      intros H. unfold dft_cut, dft. apply csum_cut; [exact H|]. intros i Hi. rewrite get_over by lia.
      unfold cscale, c0. f_equal; ring.
    Qed.
    Lemma spectra_spec (v fmax ds : T) samples s lam WPs N : mean_step s = Ok ds -> dft_len v ds fmax samples = Ok N -> (0 < N)%nat ->
      nltb 0 (ds / v) = true ->
      exists r, spectra tw v fmax samples s lam WPs = Ok r /\
        let M := kept N (ds / v)%num fmax in
        sp_f r = tab M (fun k => nofnat k * (1 / (nofnat N * (ds / v)))) /\
        sp_lam r = tab M (fun k => cscale (ds * v) (dft_cut N lam k)) /\
        sp_WP r = map (fun WP => tab M (fun k => cscale (ds * pico) (dft_cut N WP k))) WPs.
    Proof.
      intros Hs HN Hpos Hd. unfold spectra. rewrite Hs. cbn [bind]. rewrite HN. cbn [bind].
      eexists. split; [reflexivity|]. cbv zeta. cbn [sp_f sp_lam sp_WP].
      destruct (picked_spec N (ds / v) fmax Hpos Hd) as [P1 P2]. split; [exact P2|]. rewrite P1.
      assert (KN : (kept N (ds / v)%num fmax <= N)%nat).
      { unfold kept. pose proof (Nat.div_le_upper_bound (N - 1) 2 (N - 1) ltac:(lia) ltac:(lia)). lia. }
      assert (G : forall x y, map (fun i => cscale ds (cget (fft tw N (map (fun a => a * y) x)) i)) (seq 0 (kept N (ds / v)%num fmax))
        = tab (kept N (ds / v)%num fmax) (fun k => cscale (ds * y) (dft_cut N x k))).
      { intros x y. change (map ?h (seq 0 ?n)) with (tab n h). apply tab_ext. intros k Hk. unfold fft. rewrite cget_tab by lia.
        unfold dft_cut. rewrite <- cscale_scale. f_equal. rewrite <- csum_scale. apply csum_ext. intros n Hn.
        rewrite get_map_mul, cscale_scale. f_equal. ring. }
      split; [apply G|]. apply map_ext. intros WP. apply G.
    Qed.
    Lemma dft_cut_firstn N x k : dft_cut N (firstn N x) k = dft_cut N x k.
    Proof.
      unfold dft_cut. apply csum_ext. intros n Hn. f_equal. unfold get.
      rewrite <- (firstn_skipn N x) at 2. destruct (Nat.lt_ge_cases n (List.length (firstn N x))) as [L|L].
      - rewrite app_nth1 by exact L. reflexivity.
      - rewrite firstn_length in L. assert (List.length x <= n)%nat by lia.
        rewrite (firstn_all2 x) by lia. rewrite (skipn_all2 x) by lia. rewrite app_nil_r. reflexivity.
    Qed.
    (** The sums as computed: every impedance is a ratio of sums over the first N entries. *)
    Lemma spectra_ratio (v fmax ds : T) samples s lam WPs N (g : cx T -> cx T) j : mean_step s = Ok ds -> dft_len v ds fmax samples = Ok N -> (0 < N)%nat ->
      nltb 0 ds = true -> nltb 0 (ds / v) = true -> (forall d a, g (cscale d a) = cscale d (g a)) -> (j < List.length WPs)%nat ->
      exists r, spectra tw v fmax samples s lam WPs = Ok r /\
        forall i, (i < List.length (sp_f r))%nat -> get (sp_f r) i = nofnat i * (1 / (nofnat N * (ds / v))) /\
          (cnorm2 (cscale v (dft_cut N lam i)) <> 0 ->
           cget (ratio g (nth j (sp_WP r) []) (sp_lam r)) i = cdiv (g (cscale pico (dft_cut N (nth j WPs []) i))) (cscale v (dft_cut N lam i))).
    Proof.
      intros Hs HN PN Hd Hdv Hg Hj. destruct (spectra_spec v fmax ds samples s lam WPs N Hs HN PN Hdv) as (r & Er & F1 & F2 & F3).
      exists r. split; [exact Er|]. rewrite F1, tab_length. intros i Hi. split; [rewrite get_tab by exact Hi; reflexivity|]. intros Hn.
      rewrite F2, F3. set (h := fun WP => tab (kept N (ds / v) fmax) (fun k => cscale (ds * pico) (dft_cut N WP k))).
      rewrite (nth_indep _ [] (h [])) by (rewrite map_length; exact Hj). rewrite map_nth. unfold h, ratio. rewrite tab_length.
      rewrite !cget_tab by (rewrite ?tab_length; exact Hi). rewrite <- (cscale_scale ds pico), <- (cscale_scale ds v), Hg.
      apply cdiv_scale; [apply pos_neq; exact Hd|exact Hn].
    Qed.
  End Values.
End ZProofs.
