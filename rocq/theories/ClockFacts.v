(** Reading clocks, fractions and zones. *)
From Verif Require Import PyBase PyBaseFacts LeafFacts Regex RegexFacts FormatSpec IsoSpec Iso IsoFacts PropsPointer PropsFormats.
Local Open Scope Z_scope.
Local Notation length := List.length (only parsing).

Section Facts.
  Variable X : iso_env.
  Hypothesis Xok : digits_ok X.
  Local Notation dig := (digit X).
  Local Notation isd := (is_digit X).

  (** ** Clock *)
  (** the range the pattern itself enforces *)
  Definition clock_range (cols : nat) (h m sec : Z) : Prop :=
    (h < 30 /\ m < 60 /\ sec < 60) \/ (h = 23 /\ m = 59 /\ sec = 60 /\ cols <> 1%nat).

  Lemma reads_seqs_cons a l w : nogrp a = true ->
    reads (seqs (a :: l)) w <-> exists w1 w2, w = w1 ++ w2 /\ reads a w1 /\ reads (seqs l) w2.
  Proof. intro H. apply (reads_seq a (seqs l) w H). Qed.
  Lemma reads_seq_assoc a b c w : nogrp a = true -> nogrp b = true -> reads (Seq a (Seq b c)) w <-> reads (Seq (Seq a b) c) w.
  Proof.
    intros Ha Hb. rewrite !reads_seq by (simpl; rewrite ?Ha, ?Hb; reflexivity). split.
    - intros (w1 & w2 & -> & H1 & H). apply reads_seq in H as (w3 & w4 & -> & H3 & H4); [|exact Hb].
      exists (w1 ++ w3), w4. rewrite app_assoc. split; [reflexivity|]. split; [apply reads_seq; eauto|exact H4].
    - intros (w1 & w2 & -> & H1 & H). apply reads_seq in H1 as (w3 & w4 & -> & H3 & H4); [|exact Ha].
      exists w3, (w4 ++ w2). rewrite app_assoc. split; [reflexivity|]. split; [exact H3|apply reads_seq; eauto].
  Qed.
  Lemma reads_lits s w : reads (lits s) w <-> w = u s.
  Proof.
    unfold lits. generalize (u s) as l. intro l. revert w. induction l as [|c l IH]; intro w; cbn [map seqs fold_right].
    - apply reads_eps.
    - rewrite reads_seq by reflexivity. change (fold_right Seq Eps (map (fun c => Cls (one c)) l)) with (seqs (map (fun c => Cls (one c)) l)).
      split.
      + intros (w1 & w2 & -> & H1 & H2). apply reads_one in H1 as ->. apply IH in H2 as ->. reflexivity.
      + intros ->. exists [c], l. split; [reflexivity|]. split; [apply reads_one; reflexivity|apply IH; reflexivity].
  Qed.
  Lemma clock_main w : reads (seqs [rng 48 50; d1 X; colon; rng 48 53; d1 X; colon; rng 48 53; d1 X]) w <->
    exists cols h m sec, written_clock dig w cols h m sec /\ h < 30 /\ m < 60 /\ sec < 60.
  Proof.
    assert (E : reads (seqs [rng 48 50; d1 X; colon; rng 48 53; d1 X; colon; rng 48 53; d1 X]) w <->
      reads (seqs [Seq (rng 48 50) (d1 X); colon; Seq (rng 48 53) (d1 X); colon; Seq (rng 48 53) (d1 X)]) w).
    { cbn [seqs fold_right]. split; intro H.
      - apply reads_seq_assoc in H; [|reflexivity|reflexivity].
        apply reads_seq in H as (w1 & w2 & -> & H1 & H); [|reflexivity]. apply reads_seq; [reflexivity|]. exists w1, w2. split; [reflexivity|split; [exact H1|]].
        apply reads_seq in H as (w3 & w4 & -> & H3 & H); [|reflexivity]. apply reads_seq; [reflexivity|]. exists w3, w4. split; [reflexivity|split; [exact H3|]].
        apply reads_seq_assoc in H; [|reflexivity|reflexivity].
        apply reads_seq in H as (w5 & w6 & -> & H5 & H); [|reflexivity]. apply reads_seq; [reflexivity|]. exists w5, w6. split; [reflexivity|split; [exact H5|]].
        apply reads_seq in H as (w7 & w8 & -> & H7 & H); [|reflexivity]. apply reads_seq; [reflexivity|]. exists w7, w8. split; [reflexivity|split; [exact H7|]].
        apply reads_seq_assoc in H; [|reflexivity|reflexivity]. exact H.
      - apply reads_seq_assoc; [reflexivity|reflexivity|].
        apply reads_seq in H as (w1 & w2 & -> & H1 & H); [|reflexivity]. apply reads_seq; [reflexivity|]. exists w1, w2. split; [reflexivity|split; [exact H1|]].
        apply reads_seq in H as (w3 & w4 & -> & H3 & H); [|reflexivity]. apply reads_seq; [reflexivity|]. exists w3, w4. split; [reflexivity|split; [exact H3|]].
        apply reads_seq_assoc; [reflexivity|reflexivity|].
        apply reads_seq in H as (w5 & w6 & -> & H5 & H); [|reflexivity]. apply reads_seq; [reflexivity|]. exists w5, w6. split; [reflexivity|split; [exact H5|]].
        apply reads_seq in H as (w7 & w8 & -> & H7 & H); [|reflexivity]. apply reads_seq; [reflexivity|]. exists w7, w8. split; [reflexivity|split; [exact H7|]].
        apply reads_seq_assoc; [reflexivity|reflexivity|]. exact H. }
    rewrite E. split.
    - intro H. apply reads_seqs_cons in H as (hs & w1 & -> & H1 & H); [|reflexivity].
      apply reads_seqs_cons in H as (c1 & w2 & -> & H2 & H); [|reflexivity].
      apply reads_seqs_cons in H as (ms & w3 & -> & H3 & H); [|reflexivity].
      apply reads_seqs_cons in H as (c2 & w4 & -> & H4 & H); [|reflexivity].
      apply reads_seqs_cons in H as (ss & w5 & -> & H5 & H); [|reflexivity]. apply reads_eps in H as ->.
      apply (reads_rng_field X Xok) in H1 as (h & F1 & B1); [|lia]. apply (reads_rng_field X Xok) in H3 as (m & F3 & B3); [|lia].
      apply (reads_rng_field X Xok) in H5 as (sec & F5 & B5); [|lia].
      apply (reads_maybe _ ":") in H2; [|reflexivity]. apply (reads_maybe _ ":") in H4; [|reflexivity].
      exists (length c1 + length c2)%nat, h, m, sec. split; [|lia]. exists hs, c1, ms, c2, ss. rewrite app_nil_r.
      exact (conj eq_refl (conj F1 (conj H2 (conj F3 (conj H4 (conj F5 eq_refl)))))).
    - intros (cols & h & m & sec & (hs & c1 & ms & c2 & ss & -> & F1 & H2 & F3 & H4 & F5 & _) & B1 & B3 & B5).
      rewrite <- (app_nil_r ss).
      apply reads_seqs_cons; [reflexivity|]. eexists _, _. split; [reflexivity|]. split; [apply (reads_rng_field X Xok); [lia|]; exists h; split; [exact F1|exact B1]|].
      apply reads_seqs_cons; [reflexivity|]. eexists _, _. split; [reflexivity|]. split; [apply (reads_maybe _ ":"); [reflexivity|exact H2]|].
      apply reads_seqs_cons; [reflexivity|]. eexists _, _. split; [reflexivity|]. split; [apply (reads_rng_field X Xok); [lia|]; exists m; split; [exact F3|exact B3]|].
      apply reads_seqs_cons; [reflexivity|]. eexists _, _. split; [reflexivity|]. split; [apply (reads_maybe _ ":"); [reflexivity|exact H4]|].
      apply reads_seqs_cons; [reflexivity|]. eexists _, _. split; [reflexivity|]. split; [apply (reads_rng_field X Xok); [lia|]; exists sec; split; [exact F5|exact B5]|].
      apply reads_eps; reflexivity.
  Qed.
  Lemma field_ascii a b : ascii_digit a -> ascii_digit b -> field dig 2 [a; b] (10 * (Z.of_N a - 48) + (Z.of_N b - 48)).
  Proof. intros Ha Hb. apply (field2 X Xok). exists a, b, (Z.of_N b - 48). split; [reflexivity|]. split; [exact Ha|]. split; [apply (ascii_val X Xok); exact Hb|reflexivity]. Qed.
  Lemma clock_sound w : reads (clock X) w -> exists cols h m sec, written_clock dig w cols h m sec /\ clock_range cols h m sec.
  Proof.
    unfold clock. rewrite !reads_alt, !reads_lits. intros [H|[->| ->]].
    - apply clock_main in H as (cols & h & m & sec & Hw & B). exists cols, h, m, sec. split; [exact Hw|left; exact B].
    - exists 2%nat, 23, 59, 60. split; [|right; repeat split; discriminate].
      exists (u "23"), (u ":"), (u "59"), (u ":"), (u "60"). split; [reflexivity|].
      split; [apply (field_ascii 50 51); unfold ascii_digit; lia|]. split; [right; reflexivity|].
      split; [apply (field_ascii 53 57); unfold ascii_digit; lia|]. split; [right; reflexivity|].
      split; [apply (field_ascii 54 48); unfold ascii_digit; lia|reflexivity].
    - exists 0%nat, 23, 59, 60. split; [|right; repeat split; discriminate].
      exists (u "23"), [], (u "59"), [], (u "60"). split; [reflexivity|].
      split; [apply (field_ascii 50 51); unfold ascii_digit; lia|]. split; [left; reflexivity|].
      split; [apply (field_ascii 53 57); unfold ascii_digit; lia|]. split; [left; reflexivity|].
      split; [apply (field_ascii 54 48); unfold ascii_digit; lia|reflexivity].
  Qed.
  Lemma clock_complete w cols h m sec : written_clock dig w cols h m sec -> h < 30 -> m < 60 -> sec < 60 -> reads (clock X) w.
  Proof. intros Hw H1 H2 H3. unfold clock. apply reads_alt. left. apply clock_main. eauto 8. Qed.

  Lemma clock_unique w cols h m sec r w' cols' h' m' sec' r' :
    written_clock dig w cols h m sec -> written_clock dig w' cols' h' m' sec' -> w ++ r = w' ++ r' ->
    w = w' /\ cols = cols' /\ h = h' /\ m = m' /\ sec = sec' /\ r = r'.
  Proof.
    intros (hs & c1 & ms & c2 & ss & -> & F1 & H2 & F3 & H4 & F5 & ->)
           (hs' & c1' & ms' & c2' & ss' & -> & F1' & H2' & F3' & H4' & F5' & ->) He.
    assert (Hh : ~ ascii_digit 58) by (unfold ascii_digit; lia). rewrite <- !app_assoc in He.
    apply app_len in He as [-> He]; [|destruct F1 as (_ & -> & _); destruct F1' as (_ & -> & _); reflexivity].
    apply (maybe_unique ":" 58) in He as [-> He]; try assumption; try reflexivity;
      try (intros x r0 E; eapply (field_head X); [| |exact Hh|exact E]; [eassumption|lia]).
    apply app_len in He as [-> He]; [|destruct F3 as (_ & -> & _); destruct F3' as (_ & -> & _); reflexivity].
    apply (maybe_unique ":" 58) in He as [-> He]; try assumption; try reflexivity;
      try (intros x r0 E; eapply (field_head X); [| |exact Hh|exact E]; [eassumption|lia]).
    apply app_len in He as [-> He]; [|destruct F5 as (_ & -> & _); destruct F5' as (_ & -> & _); reflexivity].
    repeat split; auto;
      [exact (numeral_fun X _ _ _ (proj1 F1) (proj1 F1'))|exact (numeral_fun X _ _ _ (proj1 F3) (proj1 F3'))|exact (numeral_fun X _ _ _ (proj1 F5) (proj1 F5'))].
  Qed.

  (** the parts the program cuts the clock into *)
  Lemma field_nocolon k w n : field dig k w n -> ~ In 58%N w.
  Proof.
    intros [H _] Hi. apply (numeral_iff X) in H as (_ & H & _). rewrite Forall_forall in H. apply H in Hi.
    apply (isd_ascii X Xok) in Hi; [unfold ascii_digit in Hi|]; lia.
  Qed.
  Lemma colon_in w : str_in (u ":") w = true <-> In 58%N w.
  Proof.
    rewrite str_in_spec. split.
    - intros (a & b & ->). apply in_or_app. right. left. reflexivity.
    - intro H. apply in_split in H as (a & b & ->). exists a, b. reflexivity.
  Qed.
  Lemma clock_parts_spec w cols h m sec : written_clock dig w cols h m sec ->
    (cols <> 1%nat -> exists hs ms ss, clock_parts w = [hs; ms; ss] /\ int_of X hs = h /\ int_of X ms = m /\ int_of X ss = sec) /\
    (cols = 1%nat -> exists a b, clock_parts w = [a; b]).
  Proof.
    intros (hs & c1 & ms & c2 & ss & -> & F1 & H2 & F3 & H4 & F5 & ->).
    pose proof (field_nocolon _ _ _ F1) as N1. pose proof (field_nocolon _ _ _ F3) as N3. pose proof (field_nocolon _ _ _ F5) as N5.
    pose proof (field_int X _ _ _ F1) as I1. pose proof (field_int X _ _ _ F3) as I3. pose proof (field_int X _ _ _ F5) as I5.
    unfold clock_parts. change (chr ":") with 58%N. destruct H2 as [->| ->], H4 as [->| ->]; cbn [app]; split; try (intro; discriminate); try (intro C; exfalso; apply C; reflexivity); intros _.
    - assert (Hn : str_in (u ":") (hs ++ ms ++ ss) = false).
      { apply not_true_iff_false. rewrite colon_in, !in_app_iff. tauto. }
      rewrite Hn. apply (field2 X Xok) in F1 as (a1 & b1 & d1 & -> & _). apply (field2 X Xok) in F3 as (a2 & b2 & d2 & -> & _).
      apply (field2 X Xok) in F5 as (a3 & b3 & d3 & -> & _). exists [a1; b1], [a2; b2], [a3; b3]. repeat split; assumption.
    - assert (Hc : str_in (u ":") (hs ++ ms ++ u ":" ++ ss) = true).
      { apply colon_in. rewrite !in_app_iff. cbn. tauto. }
      rewrite Hc. exists (hs ++ ms), ss. rewrite app_assoc. change (u ":" ++ ss) with (58%N :: ss). rewrite split_app by (rewrite in_app_iff; tauto).
      rewrite split_none by exact N5. reflexivity.
    - assert (Hc : str_in (u ":") (hs ++ u ":" ++ ms ++ ss) = true).
      { apply colon_in. rewrite !in_app_iff. cbn. tauto. }
      rewrite Hc. exists hs, (ms ++ ss). change (u ":" ++ ms ++ ss) with (58%N :: ms ++ ss). rewrite split_app by exact N1.
      rewrite split_none by (rewrite in_app_iff; tauto). reflexivity.
    - assert (Hc : str_in (u ":") (hs ++ u ":" ++ ms ++ u ":" ++ ss) = true).
      { apply colon_in. rewrite !in_app_iff. cbn. tauto. }
      rewrite Hc. exists hs, ms, ss. change (u ":" ++ ms ++ u ":" ++ ss) with (58%N :: ms ++ 58%N :: ss). rewrite split_app by exact N1.
      rewrite split_app by exact N3. rewrite split_none by exact N5. repeat split; assumption.
  Qed.

  (** ** Fraction and zone *)
  Lemma reads_fraction w : reads (opt (fraction X)) w <-> exists n, written_fraction dig w n.
  Proof.
    unfold fraction, written_fraction. rewrite reads_opt, reads_seq by reflexivity. split.
    - intros [(w1 & w2 & -> & H1 & H2)| ->]; [|exists 0; left; auto].
      apply reads_one in H1 as ->. apply (reads_number X) in H2. eexists. right. exists w2. split; [reflexivity|exact H2].
    - intros (n & [[-> _]|(w' & -> & H)]); [right; reflexivity|left]. exists (u "."), w'. split; [reflexivity|].
      split; [apply reads_one; reflexivity|]. apply (reads_number X). apply (numeral_iff X). apply (numeral_iff X) in H. tauto.
  Qed.
  Lemma reads_plus_minus w : reads (Cls (among (u "+-"))) w <-> w = u "+" \/ w = u "-".
  Proof.
    rewrite reads_cls. split.
    - intros (c & -> & H). apply among_In in H. cbn in H. destruct H as [<-|[<-|[]]]; auto.
    - intros [->| ->]; [exists 43%N|exists 45%N]; split; reflexivity.
  Qed.
  Lemma lit_z w : reads (Cls (lit_i (chr "z"))) w <-> w = u "z" \/ w = u "Z".
  Proof.
    rewrite reads_cls. change (chr "z") with 122%N. split.
    - intros (c & -> & H). unfold lit_i in H. cbn [N.eqb Pos.eqb N.sub Pos.sub] in H. simpl in H. rewrite !orb_false_r, orb_true_iff, !N.eqb_eq in H.
      destruct H as [->| ->]; [left|right]; reflexivity.
    - intros [->| ->]; [exists 122%N|exists 90%N]; split; reflexivity.
  Qed.
  Lemma two_digits w : reads (times 2 (d1 X)) w <-> numeral dig w (int_of X w) /\ length w = 2%nat.
  Proof.
    rewrite reads_digit_times, (numeral_iff X). split.
    - intros [H1 H2]. split; [|exact H1]. split; [destruct w; discriminate|auto].
    - tauto.
  Qed.
  Lemma reads_zone w : reads (opt (zone X)) w <-> exists tz, written_zone dig w tz.
  Proof.
    unfold zone, written_zone. rewrite reads_opt, reads_alt, lit_z. split.
    - intros [[H|H]| ->].
      + exists (Some 0). right; left. auto.
      + apply reads_seqs_cons in H as (sg & w1 & -> & H1 & H); [|reflexivity]. apply reads_plus_minus in H1.
        apply reads_seqs_cons in H as (hs & w2 & -> & H2 & H); [|reflexivity]. apply two_digits in H2 as [H2 L2].
        apply reads_seqs_cons in H as (c & w3 & -> & H3 & H); [|reflexivity]. apply reads_one in H3 as ->.
        apply reads_seqs_cons in H as (ms & w4 & -> & H4 & H); [|reflexivity]. apply two_digits in H4 as [H4 L4].
        apply reads_eps in H as ->. rewrite app_nil_r.
        destruct H1 as [->| ->]; eexists; right; right; [exists (u "+")|exists (u "-")]; exists hs, ms, (int_of X hs), (int_of X ms);
          (split; [exact H2|]; split; [exact L2|]; split; [exact H4|]; split; [exact L4|]; split; [|reflexivity]); auto.
      + exists None. left; auto.
    - intros (tz & [[-> _]|[[H _]|(sg & hs & ms & h & m & Hh & Lh & Hm & Lm & Hs & ->)]]); [right; reflexivity|left; left; exact H|].
      left; right. apply (numeral_iff X) in Hh as (Nh & Fh & _). apply (numeral_iff X) in Hm as (Nm & Fm & _).
      rewrite <- (app_nil_r ms).
      apply reads_seqs_cons; [reflexivity|]. eexists _, _. split; [reflexivity|]. split; [apply reads_plus_minus; tauto|].
      apply reads_seqs_cons; [reflexivity|]. eexists _, _. split; [reflexivity|]. split; [apply two_digits; rewrite (numeral_iff X); auto|].
      apply reads_seqs_cons; [reflexivity|]. eexists _, _. split; [reflexivity|]. split; [apply reads_one; reflexivity|].
      apply reads_seqs_cons; [reflexivity|]. eexists _, _. split; [reflexivity|]. split; [apply two_digits; rewrite (numeral_iff X); auto|].
      apply reads_eps; reflexivity.
  Qed.
  Lemma numeral_nocolon w n : numeral dig w n -> ~ In 58%N w.
  Proof.
    intros H Hi. apply (numeral_iff X) in H as (_ & H & _). rewrite Forall_forall in H. apply H in Hi.
    apply (isd_ascii X Xok) in Hi; [unfold ascii_digit in Hi|]; lia.
  Qed.
  Lemma zone_of_spec w tz : written_zone dig w tz ->
    (zone_ok tz -> zone_of X w = Ok tz) /\ (~ zone_ok tz -> zone_of X w = Raise EValue).
  Proof.
    intros [[-> ->]|[[Hz ->]|(sg & hs & ms & h & m & Hh & Lh & Hm & Lm & Hs & ->)]].
    - split; [reflexivity|]. intro H. exfalso. apply H. intros n Hn. discriminate.
    - split; [intros _; destruct Hz as [->| ->]; reflexivity|]. intro H. exfalso. apply H. intros n [= <-]. lia.
    - assert (E : zone_of X (sg ++ hs ++ u ":" ++ ms) = n <- mk_zone (match tz with Some n => n | None => 0 end) ;; Ok (Some n)).
      { assert (Es : split (chr ":") (hs ++ u ":" ++ ms) = [hs; ms]).
        { change (chr ":") with 58%N. change (u ":" ++ ms) with (58%N :: ms).
          rewrite split_app by exact (numeral_nocolon _ _ Hh). rewrite split_none by exact (numeral_nocolon _ _ Hm). reflexivity. }
        apply (numeral_iff X) in Hh as (_ & _ & ->). apply (numeral_iff X) in Hm as (_ & _ & ->).
        assert (Hne : exists c r, hs ++ u ":" ++ ms = c :: r) by (destruct hs; [discriminate|]; eexists _, _; reflexivity).
        destruct Hs as [[-> ->]|[-> ->]].
        - change (u "+" ++ hs ++ u ":" ++ ms) with (43%N :: (hs ++ u ":" ++ ms)). unfold zone_of.
          rewrite Es. destruct Hne as (c & r & ->). change (N.eqb 43 (chr "+")) with true. cbn iota.
          replace (int_of X hs * 1 * 60 + int_of X ms * 1) with (60 * int_of X hs + int_of X ms) by lia. reflexivity.
        - change (u "-" ++ hs ++ u ":" ++ ms) with (45%N :: (hs ++ u ":" ++ ms)). unfold zone_of.
          rewrite Es. destruct Hne as (c & r & ->). change (N.eqb 45 (chr "+")) with false. cbn iota.
          replace (int_of X hs * -1 * 60 + int_of X ms * -1) with (- (60 * int_of X hs + int_of X ms)) by lia. reflexivity. }
      rewrite E. assert (Et : exists n, tz = Some n) by (destruct Hs as [[_ ->]|[_ ->]]; eauto). destruct Et as [n ->].
      unfold mk_zone, zone_ok. split.
      + intro H. specialize (H n eq_refl). destruct ((-1440 <? n) && (n <? 1440)) eqn:Eb; [reflexivity|lia].
      + intro H. destruct ((-1440 <? n) && (n <? 1440)) eqn:Eb; [|reflexivity]. exfalso. apply H. intros k [= <-]. lia.
  Qed.
  Lemma zone_ok_dec tz : zone_ok tz \/ ~ zone_ok tz.
  Proof.
    destruct tz as [n|]; [|left; intros n Hn; discriminate].
    destruct (Z_lt_dec (-1440) n); [destruct (Z_lt_dec n 1440)|].
    - left. intros k [= <-]. lia.
    - right. intro H. specialize (H n eq_refl). lia.
    - right. intro H. specialize (H n eq_refl). lia.
  Qed.

  (** uniqueness *)
  Lemma span_unique (P : N -> bool) w w' r r' :
    Forall (fun c => P c = true) w -> Forall (fun c => P c = true) w' ->
    (forall x r0, r = x :: r0 -> P x = false) -> (forall x r0, r' = x :: r0 -> P x = false) ->
    w ++ r = w' ++ r' -> w = w' /\ r = r'.
  Proof.
    intro H. revert w'. induction H as [|c w Hc H IH]; intros w' H' Hr Hr' He.
    - destruct H' as [|c' w' Hc' H']; [auto|]. exfalso. simpl in He. rewrite (Hr c' (w' ++ r') He) in Hc'. discriminate.
    - destruct H' as [|c' w' Hc' H'].
      + exfalso. simpl in He. rewrite (Hr' c (w ++ r) (eq_sym He)) in Hc. discriminate.
      + injection He as -> He. destruct (IH w' H' Hr Hr' He) as [-> ->]. auto.
  Qed.
  (** what may come after the fraction *)
  Definition tail (r : pystr) : Prop := r = [] \/ exists c r0, r = c :: r0 /\ isd c = false /\ c <> 46%N.
  Lemma fraction_unique f n r f' n' r' : written_fraction dig f n -> written_fraction dig f' n' -> tail r -> tail r' ->
    f ++ r = f' ++ r' -> f = f' /\ n = n' /\ r = r'.
  Proof.
    intros Hf Hf' Hr Hr' He.
    assert (T : forall r, tail r -> (forall x r0, r = x :: r0 -> isd x = false)).
    { intros q [->|(c & r0 & -> & Hc & _)] x r1 Hx; [discriminate|]. injection Hx as <- _. exact Hc. }
    assert (T2 : forall r w, tail r -> r <> u "." ++ w).
    { intros q w [->|(c & r0 & -> & _ & Hc)] Hx; [discriminate|]. injection Hx as -> _. apply Hc. reflexivity. }
    destruct Hf as [[-> ->]|(w & -> & Hw)], Hf' as [[-> ->]|(w' & -> & Hw')].
    - auto.
    - exfalso. simpl app at 1 in He. rewrite <- app_assoc in He. exact (T2 _ _ Hr He).
    - exfalso. simpl app at 3 in He. rewrite <- app_assoc in He. exact (T2 _ _ Hr' (eq_sym He)).
    - rewrite <- !app_assoc in He. apply app_inv_head in He.
      pose proof Hw as Hn. pose proof Hw' as Hn'. apply (numeral_iff X) in Hw as (_ & F & _). apply (numeral_iff X) in Hw' as (_ & F' & _).
      apply (span_unique isd) in He as [<- <-]; [|exact F|exact F'|exact (T r Hr)|exact (T r' Hr')]. split; [reflexivity|]. split; [exact (numeral_fun X _ _ _ Hn Hn')|reflexivity].
  Qed.
  Lemma zone_tail z tz t : written_zone dig z tz -> final_newline t -> tail (z ++ t).
  Proof.
    intros Hz Ht. destruct Hz as [[-> _]|[[Hz _]|(sg & hs & ms & h & m & _ & _ & _ & _ & Hs & ->)]].
    - destruct Ht as [->| ->]; [left; reflexivity|right]. exists 10%N, []. split; [reflexivity|]. split; [apply (not_isd X Xok); [|unfold ascii_digit]; lia|discriminate].
    - right. destruct Hz as [->| ->]; [exists 122%N, t|exists 90%N, t]; (split; [reflexivity|]; split; [apply (not_isd X Xok); [|unfold ascii_digit]; lia|discriminate]).
    - right. destruct Hs as [[-> _]|[-> _]]; [exists 43%N|exists 45%N]; eexists; (split; [reflexivity|]; split; [apply (not_isd X Xok); [|unfold ascii_digit]; lia|discriminate]).
  Qed.
  Lemma zone_unique z tz t z' tz' t' : written_zone dig z tz -> written_zone dig z' tz' -> final_newline t -> final_newline t' ->
    z ++ t = z' ++ t' -> z = z' /\ tz = tz' /\ t = t'.
  Proof.
    intros Hz Hz' Ht Ht' He.
    destruct Hz as [[-> ->]|[[Hz ->]|(sg & hs & ms & h & m & Hh & Lh & Hm & Lm & Hs & ->)]],
             Hz' as [[-> ->]|[[Hz' ->]|(sg' & hs' & ms' & h' & m' & Hh' & Lh' & Hm' & Lm' & Hs' & ->)]].
    1: auto.
    1-3,5-7: exfalso; destruct Ht as [->| ->]; destruct Ht' as [->| ->];
       repeat match goal with H : _ \/ _ |- _ => destruct H | H : _ /\ _ |- _ => destruct H end; subst; discriminate.
    - destruct Hz as [->| ->], Hz' as [->| ->]; try discriminate; apply app_inv_head in He; subst; auto.
    - rewrite <- !app_assoc in He.
      apply app_len in He as [Esg He]; [|destruct Hs as [[-> _]|[-> _]], Hs' as [[-> _]|[-> _]]; reflexivity].
      apply app_len in He as [Eh He]; [|congruence]. apply app_len in He as [_ He]; [|reflexivity].
      apply app_len in He as [Em He]; [|congruence]. subst. split; [reflexivity|]. split; [|reflexivity].
      pose proof (numeral_fun X _ _ _ Hh Hh') as ->. pose proof (numeral_fun X _ _ _ Hm Hm') as ->.
      destruct Hs as [[-> ->]|[-> ->]], Hs' as [[E ->]|[E ->]]; try discriminate; reflexivity.
  Qed.
End Facts.
