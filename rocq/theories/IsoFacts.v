(** Reading dates, times and durations. *)
From Verif Require Import PyBase PyBaseFacts LeafFacts Regex RegexFacts FormatSpec IsoSpec Iso PropsPointer PropsFormats.
Local Open Scope Z_scope.
Local Notation length := List.length (only parsing).

Section Facts.
  Variable X : iso_env.
  Hypothesis Xok : digits_ok X.
  Local Notation dig := (digit X).
  Local Notation isd := (is_digit X).

  Lemma isd_iff c : isd c = true <-> exists d, dig c = Some d.
  Proof. unfold is_digit. destruct (dig c) as [d|]; split; intro H; eauto; try discriminate. destruct H; discriminate. Qed.
  Lemma ascii_isd c : ascii_digit c -> isd c = true.
  Proof. intro H. apply ascii_digit_iff in H. apply isd_iff. eexists. apply Xok. exact H. Qed.
  Lemma isd_ascii c : isd c = true -> (c < 128)%N -> ascii_digit c.
  Proof.
    intros H Hc. apply ascii_digit_iff. destruct (is_ascii_digit c) eqn:E; [reflexivity|].
    destruct Xok as (_ & K & _). apply isd_iff in H as [d H]. rewrite (K c Hc E) in H. discriminate.
  Qed.
  Lemma not_isd c : (c < 128)%N -> ~ ascii_digit c -> isd c = false.
  Proof. intros Hc Hn. destruct (isd c) eqn:E; [|reflexivity]. exfalso. apply Hn, isd_ascii; assumption. Qed.

  Lemma int_snoc w c d : dig c = Some d -> int_of X (w ++ [c]) = 10 * int_of X w + d.
  Proof. intro H. unfold int_of. rewrite fold_left_app. cbn [fold_left]. rewrite H. reflexivity. Qed.
  Lemma numeral_iff w n : numeral dig w n <-> w <> [] /\ Forall (fun c => isd c = true) w /\ n = int_of X w.
  Proof.
    split.
    - induction 1 as [c d Hc|w n c d Hw (H1 & H2 & ->) Hc].
      + split; [discriminate|]. split; [constructor; [apply isd_iff; eauto|constructor]|].
        unfold int_of. cbn [fold_left]. rewrite Hc. lia.
      + split; [destruct w; discriminate|]. split; [apply Forall_app; split; [assumption|constructor; [apply isd_iff; eauto|constructor]]|].
        rewrite (int_snoc w c d Hc). reflexivity.
    - intros (Hn & Hf & ->). induction w as [|c w IH] using rev_ind; [congruence|].
      apply Forall_app in Hf as [Hf Hc]. inversion Hc as [|? ? Hc' _]; subst. apply isd_iff in Hc' as [d Hd].
      rewrite (int_snoc w c d Hd). destruct w as [|x w]; [|apply numeral_more; [apply IH; [discriminate|exact Hf]|exact Hd]].
      replace (10 * int_of X [] + d) with d by (unfold int_of; simpl; lia). apply numeral_one. exact Hd.
  Qed.
  Lemma numeral_fun w n n' : numeral dig w n -> numeral dig w n' -> n = n'.
  Proof. rewrite !numeral_iff. intros (_ & _ & ->) (_ & _ & ->). reflexivity. Qed.
  Lemma int_nonneg w : 0 <= int_of X w.
  Proof.
    induction w as [|c w IH] using rev_ind; [unfold int_of; simpl; lia|]. unfold int_of in *. rewrite fold_left_app. cbn [fold_left].
    destruct (dig c) as [d|] eqn:Hd; [apply Xok in Hd; lia|lia].
  Qed.
  Lemma isd_val c : isd c = true -> exists d, dig c = Some d /\ 0 <= d <= 9.
  Proof. intro H. apply isd_iff in H as [d Hd]. exists d. split; [exact Hd|]. apply Xok in Hd. exact Hd. Qed.
  Lemma ascii_val c : ascii_digit c -> dig c = Some (Z.of_N c - 48).
  Proof. intro H. apply Xok. apply ascii_digit_iff; exact H. Qed.
  Lemma int_two a b da db : dig a = Some da -> dig b = Some db -> int_of X [a; b] = 10 * da + db.
  Proof. intros Ha Hb. unfold int_of. cbn [fold_left]. rewrite Ha, Hb. lia. Qed.

  (** fields: explicit characters *)
  Lemma field2 w n : field dig 2 w n <-> exists a b d, w = [a; b] /\ ascii_digit a /\ dig b = Some d /\ n = 10 * (Z.of_N a - 48) + d.
  Proof.
    unfold field. rewrite numeral_iff. split.
    - intros ((_ & Hf & ->) & Hl & Ha). destruct w as [|a [|b [|]]]; try discriminate. inversion Hf as [|? ? H1 Hf']; subst.
      inversion Hf' as [|? ? H2 _]; subst. apply isd_iff in H2 as [d Hd]. exists a, b, d. split; [reflexivity|].
      pose proof (Ha a [b] eq_refl) as Haa. split; [exact Haa|]. split; [exact Hd|].
      apply int_two; [apply ascii_val; exact Haa|exact Hd].
    - intros (a & b & d & -> & Ha & Hd & ->). split; [|split; [reflexivity|]].
      + split; [discriminate|]. split; [constructor; [apply ascii_isd; exact Ha|constructor; [apply isd_iff; eauto|constructor]]|].
        symmetry. apply int_two; [apply ascii_val; exact Ha|exact Hd].
      + intros c w' [= <- _]. exact Ha.
  Qed.

  (** ** Words of the pattern pieces *)
  Lemma reads_digit_times k w : reads (times k (d1 X)) w <-> length w = k /\ Forall (fun c => isd c = true) w.
  Proof. apply reads_times_cls. Qed.
  Lemma reads_number w : reads (number X) w <-> numeral dig w (int_of X w).
  Proof. unfold number, d1. rewrite reads_plus_cls, numeral_iff. tauto. Qed.
  Lemma reads_maybe c s w : u s = [c] -> reads (opt (Cls (one c))) w <-> maybe s w.
  Proof.
    intro E. unfold maybe. rewrite E, reads_opt, reads_one. tauto.
  Qed.
  (** two digits, the first one from [48] to [hi] *)
  Lemma reads_rng hi w : reads (Seq (rng 48 hi) (d1 X)) w <->
    exists a b, w = [a; b] /\ (48 <= a <= hi)%N /\ isd b = true.
  Proof.
    rewrite reads_seq by reflexivity. split.
    - intros (w1 & w2 & -> & H1 & H2). apply reads_cls in H1 as (a & -> & Ha). apply between_iff in Ha.
      apply reads_cls in H2 as (b & -> & Hb). exists a, b. auto.
    - intros (a & b & -> & Ha & Hb). exists [a], [b]. split; [reflexivity|].
      split; apply reads_cls; [exists a; split; [reflexivity|apply between_iff; exact Ha]|exists b; auto].
  Qed.
  Lemma reads_rng_field hi w : (hi <= 57)%N -> reads (Seq (rng 48 hi) (d1 X)) w <->
    exists n, field dig 2 w n /\ n < 10 * (Z.of_N hi - 47).
  Proof.
    intro Hhi. rewrite reads_rng. split.
    - intros (a & b & -> & Ha & Hb). apply isd_val in Hb as (d & Hd & Hr). exists (10 * (Z.of_N a - 48) + d).
      split; [|lia]. apply field2. exists a, b, d. split; [reflexivity|]. split; [unfold ascii_digit; lia|auto].
    - intros (n & Hf & Hn). apply field2 in Hf as (a & b & d & -> & Ha & Hd & ->).
      assert (0 <= d <= 9) by (apply Xok in Hd; exact Hd). unfold ascii_digit in Ha.
      exists a, b. split; [reflexivity|]. split; [lia|apply isd_iff; eauto].
  Qed.
  Lemma field_int k w n : field dig k w n -> int_of X w = n.
  Proof. intros [H _]. apply numeral_iff in H as (_ & _ & ->). reflexivity. Qed.
  Lemma field_nonneg k w n : field dig k w n -> 0 <= n.
  Proof. intro H. rewrite <- (field_int k w n H). apply int_nonneg. Qed.

  (** ** The date part *)
  Definition date_pieces (ys h1 ms h2 ds : pystr) (y m d : Z) : Prop :=
    numeral dig ys y /\ length ys = 4%nat /\ maybe "-" h1 /\ (field dig 2 ms m /\ m < 20) /\ maybe "-" h2 /\ (field dig 2 ds d /\ d < 40).
  Lemma parse_seq_cons a l w cs cs' : parse (seqs (a :: l)) w cs cs' <->
    exists w1 w2 cs1, w = w1 ++ w2 /\ parse a w1 cs cs1 /\ parse (seqs l) w2 cs1 cs'.
  Proof. apply parse_seq. Qed.
  Lemma parse_grp_nogrp i a w cs cs' : nogrp a = true -> parse (Grp i a) w cs cs' <-> reads a w /\ cs' = (i, w) :: cs.
  Proof.
    intro Hn. rewrite parse_grp. split.
    - intros (cs1 & -> & H). apply (nogrp_reads a _ _ _ Hn) in H as [H ->]. auto.
    - intros [H ->]. exists cs. split; [reflexivity|]. apply (nogrp_reads a _ _ _ Hn). auto.
  Qed.
  Lemma parse_date l w cs cs' : parse (seqs (date_body X ++ l)) w cs cs' <->
    exists ys h1 ms h2 ds y m d w', w = ys ++ h1 ++ ms ++ h2 ++ ds ++ w' /\ date_pieces ys h1 ms h2 ds y m d /\
      parse (seqs l) w' ((3%nat, ds) :: (2%nat, ms) :: (1%nat, ys) :: cs) cs'.
  Proof.
    unfold date_body, date_pieces. cbn [app]. split.
    - intro H. apply parse_seq_cons in H as (ys & w1 & c1 & -> & P1 & H). apply parse_grp_nogrp in P1 as [P1 ->]; [|reflexivity].
      apply parse_seq_cons in H as (h1 & w2 & c2 & -> & P2 & H). apply nogrp_reads in P2 as [P2 ->]; [|reflexivity].
      apply parse_seq_cons in H as (ms & w3 & c3 & -> & P3 & H). apply parse_grp_nogrp in P3 as [P3 ->]; [|reflexivity].
      apply parse_seq_cons in H as (h2 & w4 & c4 & -> & P4 & H). apply nogrp_reads in P4 as [P4 ->]; [|reflexivity].
      apply parse_seq_cons in H as (ds & w5 & c5 & -> & P5 & H). apply parse_grp_nogrp in P5 as [P5 ->]; [|reflexivity].
      apply reads_digit_times in P1 as [L1 F1]. apply (reads_maybe _ "-") in P2; [|reflexivity].
      apply (reads_maybe _ "-") in P4; [|reflexivity].
      apply reads_rng_field in P3 as (m & P3); [|lia]. apply reads_rng_field in P5 as (d & P5); [|lia].
      exists ys, h1, ms, h2, ds, (int_of X ys), m, d, w5. split; [reflexivity|].
      split; [|exact H]. split; [apply numeral_iff; repeat split; [destruct ys; discriminate|exact F1]|].
      exact (conj L1 (conj P2 (conj P3 (conj P4 P5)))).
    - intros (ys & h1 & ms & h2 & ds & y & m & d & w' & -> & (Hy & Ly & H1 & Hm & H2 & Hd) & H).
      apply parse_seq_cons. eexists _, _, _. split; [reflexivity|]. apply numeral_iff in Hy as (_ & Fy & _).
      split; [apply parse_grp_nogrp; [reflexivity|]; split; [apply reads_digit_times; auto|reflexivity]|].
      apply parse_seq_cons. eexists _, _, _. split; [reflexivity|].
      split; [apply nogrp_reads; [reflexivity|]; split; [apply (reads_maybe _ "-"); [reflexivity|exact H1]|reflexivity]|].
      apply parse_seq_cons. eexists _, _, _. split; [reflexivity|].
      split; [apply parse_grp_nogrp; [reflexivity|]; split; [apply reads_rng_field; [lia|]; exists m; split; [apply Hm|apply Hm]|reflexivity]|].
      apply parse_seq_cons. eexists _, _, _. split; [reflexivity|].
      split; [apply nogrp_reads; [reflexivity|]; split; [apply (reads_maybe _ "-"); [reflexivity|exact H2]|reflexivity]|].
      apply parse_seq_cons. eexists _, _, _. split; [reflexivity|].
      split; [apply parse_grp_nogrp; [reflexivity|]; split; [apply reads_rng_field; [lia|]; exists d; split; [apply Hd|apply Hd]|reflexivity]|].
      exact H.
  Qed.
  Lemma pieces_written ys h1 ms h2 ds y m d : date_pieces ys h1 ms h2 ds y m d -> written_date dig (ys ++ h1 ++ ms ++ h2 ++ ds) y m d.
  Proof. intros (Hy & Ly & H1 & Hm & H2 & Hd). exists ys, h1, ms, h2, ds. exact (conj eq_refl (conj Hy (conj Ly (conj H1 (conj (proj1 Hm) (conj H2 (proj1 Hd))))))). Qed.

  (** the same text has only one date reading, whatever follows *)
  Lemma maybe_unique sep c h h' r r' : u sep = [c] ->
    maybe sep h -> maybe sep h' -> (forall x r0, r = x :: r0 -> x <> c) -> (forall x r0, r' = x :: r0 -> x <> c) ->
    h ++ r = h' ++ r' -> h = h' /\ r = r'.
  Proof.
    intros E [->| ->] [->| ->] H1 H2 Heq; rewrite ?E in *; simpl in Heq.
    - auto.
    - exfalso. exact (H1 _ _ Heq eq_refl).
    - exfalso. exact (H2 _ _ (eq_sym Heq) eq_refl).
    - injection Heq as ->. auto.
  Qed.
  Lemma app_len {A} (a a' b b' : list A) : length a = length a' -> a ++ b = a' ++ b' -> a = a' /\ b = b'.
  Proof.
    revert a'; induction a as [|x a IH]; intros [|x' a'] Hl He; try discriminate; [auto|].
    injection He as -> He. injection Hl as Hl. destruct (IH a' Hl He) as [-> ->]. auto.
  Qed.
  Lemma field_head k w n c r x r0 : field dig k w n -> (0 < k)%nat -> ~ ascii_digit c -> w ++ r = x :: r0 -> x <> c.
  Proof.
    intros (Hn & Hl & Ha) Hk Hc He ->. destruct w as [|y w]; [simpl in Hl; lia|]. injection He as -> _. exact (Hc (Ha c w eq_refl)).
  Qed.
  Lemma date_unique ys h1 ms h2 ds y m d r ys' h1' ms' h2' ds' y' m' d' r' :
    date_pieces ys h1 ms h2 ds y m d -> date_pieces ys' h1' ms' h2' ds' y' m' d' ->
    ys ++ h1 ++ ms ++ h2 ++ ds ++ r = ys' ++ h1' ++ ms' ++ h2' ++ ds' ++ r' ->
    ys = ys' /\ ms = ms' /\ ds = ds' /\ y = y' /\ m = m' /\ d = d' /\ r = r'.
  Proof.
    intros (Hy & Ly & H1 & [Hm _] & H2 & [Hd _]) (Hy' & Ly' & H1' & [Hm' _] & H2' & [Hd' _]) He.
    assert (Hh : ~ ascii_digit 45) by (unfold ascii_digit; lia).
    apply app_len in He as [-> He]; [|congruence].
    apply (maybe_unique "-" 45) in He as [-> He]; try assumption; try reflexivity;
      try (intros x r0 E; eapply field_head; [| |exact Hh|exact E]; [eassumption|lia]).
    apply app_len in He as [-> He]; [|destruct Hm as (_ & -> & _); destruct Hm' as (_ & -> & _); reflexivity].
    apply (maybe_unique "-" 45) in He as [-> He]; try assumption; try reflexivity;
      try (intros x r0 E; eapply field_head; [| |exact Hh|exact E]; [eassumption|lia]).
    apply app_len in He as [-> He]; [|destruct Hd as (_ & -> & _); destruct Hd' as (_ & -> & _); reflexivity].
    repeat split; auto; [exact (numeral_fun _ _ _ Hy Hy')|exact (numeral_fun _ _ _ (proj1 Hm) (proj1 Hm'))|exact (numeral_fun _ _ _ (proj1 Hd) (proj1 Hd'))].
  Qed.

  (** the calendar *)
  Lemma leap_iff y : leap y = true <-> leap_year y.
  Proof.
    unfold leap, leap_year. rewrite andb_true_iff, orb_true_iff, negb_true_iff, !Z.eqb_eq, Z.eqb_neq.
    rewrite <- !Z.mod_divide by lia. tauto.
  Qed.
  Lemma mk_date_spec y m d : (real_date y m d /\ mk_date y m d = Ok (PDate y m d)) \/ (~ real_date y m d /\ mk_date y m d = Raise EValue).
  Proof.
    unfold mk_date.
    assert (K : 1 <= m <= 12 -> (d <= month_days y m <-> (In m [1; 3; 5; 7; 8; 10; 12] -> d <= 31) /\
      (In m [4; 6; 9; 11] -> d <= 30) /\ (m = 2 -> d <= 29 /\ (d = 29 -> leap_year y)))).
    { intro Hm. pose proof (leap_iff y) as L. unfold month_days.
      assert (C : m = 1 \/ m = 2 \/ m = 3 \/ m = 4 \/ m = 5 \/ m = 6 \/ m = 7 \/ m = 8 \/ m = 9 \/ m = 10 \/ m = 11 \/ m = 12) by lia.
      repeat destruct C as [C|C]; subst m; cbn [Z.eqb Pos.eqb orb In];
        try (split; [intro Hd; split; [intros; lia|split; [intros; lia|intros; exfalso; lia]]
                    |intros (A & B & _); first [specialize (A ltac:(lia)); lia|specialize (B ltac:(lia)); lia]]; fail).
      destruct (leap y) eqn:El.
      - split; [intro Hd; split; [intros; lia|split; [intros; lia|intros _; split; [lia|intros _; apply L; reflexivity]]]
               |intros (_ & _ & C); destruct (C eq_refl); lia].
      - split; [intro Hd; split; [intros; lia|split; [intros; lia|intros _; split; [lia|intros; exfalso; lia]]]
               |intros (_ & _ & C); destruct (C eq_refl) as [C1 C2]].
        destruct (Z.eq_dec d 29) as [->|]; [|lia]. specialize (C2 eq_refl). apply L in C2. discriminate. }
    unfold real_date.
    destruct ((1 <=? y) && (y <=? 9999) && (1 <=? m) && (m <=? 12) && (1 <=? d) && (d <=? month_days y m)) eqn:E.
    - left. rewrite !andb_true_iff, !Z.leb_le in E. destruct E as [[[[[? ?] ?] ?] ?] ?]. split; [|reflexivity].
      repeat (split; [lia|]). apply K; lia.
    - right. split; [|reflexivity]. intros (H1 & H2 & H3 & H4). apply K in H4; [|exact H2].
      rewrite <- not_true_iff_false, !andb_true_iff, !Z.leb_le in E. lia.
  Qed.
  Lemma real_date_bounds y m d : real_date y m d -> m < 20 /\ d < 40.
  Proof.
    intros (_ & Hm & Hd & H1 & H2 & H3). split; [lia|].
    assert (C : m = 1 \/ m = 2 \/ m = 3 \/ m = 4 \/ m = 5 \/ m = 6 \/ m = 7 \/ m = 8 \/ m = 9 \/ m = 10 \/ m = 11 \/ m = 12) by lia.
    simpl in *. intuition lia.
  Qed.
End Facts.
