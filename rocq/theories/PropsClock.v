(** C61: times and date-times. *)
From Verif Require Import PyBase PyBaseFacts LeafFacts Regex RegexFacts FormatSpec IsoSpec Iso IsoFacts ClockFacts PropsPointer PropsFormats PropsIso.
Local Open Scope Z_scope.
Local Notation length := List.length (only parsing).

Lemma parse_opt_grp i a w cs cs' : nogrp a = true -> ~ reads a [] ->
  parse (opt (Grp i a)) w cs cs' <-> reads (opt a) w /\ cs' = match w with [] => cs | _ => (i, w) :: cs end.
Proof.
  intros Hn H0. rewrite parse_opt, parse_grp_nogrp, reads_opt by exact Hn. split.
  - intros [[H ->]|[-> ->]]; [split; [auto|]; destruct w; [contradiction|reflexivity]|auto].
  - intros [[H| ->] ->]; [left; split; [exact H|]; destruct w; [contradiction|reflexivity]|right; auto].
Qed.
Lemma reads_nonempty_fraction X : ~ reads (fraction X) [].
Proof.
  unfold fraction. rewrite reads_seq by reflexivity. intros (w1 & w2 & E & H1 & _). apply reads_one in H1 as ->. discriminate.
Qed.
Lemma reads_nonempty_zone X : ~ reads (zone X) [].
Proof.
  unfold zone. rewrite reads_alt, lit_z. intros [[H|H]|H]; try discriminate.
  apply reads_seqs_cons in H as (w1 & w2 & E & H1 & _); [|reflexivity]. apply reads_plus_minus in H1. destruct H1 as [->| ->]; discriminate.
Qed.
Definition put (i : nat) (w : pystr) (cs : caps) : caps := match w with [] => cs | _ => (i, w) :: cs end.

Section Iso.
  Variable X : iso_env.
  Hypothesis Xok : digits_ok X.
  Local Notation dig := (digit X).

  Lemma clock_reads ck : reads (clock X) ck <-> clock_shape dig ck.
  Proof.
    unfold clock, clock_shape. rewrite !reads_alt, !reads_lits, (clock_main X Xok). tauto.
  Qed.
  Lemma shape_written ck : clock_shape dig ck -> exists cols h m sec, written_clock dig ck cols h m sec /\ clock_range cols h m sec.
  Proof. intro H. apply (clock_sound X Xok). apply clock_reads. exact H. Qed.

  Lemma time_caps i j k w cs cs' :
    parse (seqs [Grp i (clock X); opt (Grp j (fraction X)); opt (Grp k (zone X))]) w cs cs' <->
    exists ck fr zn frac tz, w = ck ++ fr ++ zn /\ clock_shape dig ck /\ written_fraction dig fr frac /\ written_zone dig zn tz /\
      cs' = put k zn (put j fr ((i, ck) :: cs)).
  Proof.
    split.
    - intro H. apply parse_seq_cons in H as (ck & w1 & c1 & -> & P1 & H). apply parse_grp_nogrp in P1 as [P1 ->]; [|reflexivity].
      apply parse_seq_cons in H as (fr & w2 & c2 & -> & P2 & H). apply parse_opt_grp in P2 as [P2 ->]; [|reflexivity|apply reads_nonempty_fraction].
      apply parse_seq_cons in H as (zn & w3 & c3 & -> & P3 & H). apply parse_opt_grp in P3 as [P3 ->]; [|reflexivity|apply reads_nonempty_zone].
      apply parse_eps in H as [-> ->]. apply clock_reads in P1. apply (reads_fraction X) in P2 as [n P2]. apply (reads_zone X) in P3 as [tz P3].
      exists ck, fr, zn, n, tz. rewrite app_nil_r. repeat (split; [assumption || reflexivity|]). reflexivity.
    - intros (ck & fr & zn & n & tz & -> & H1 & H2 & H3 & ->). rewrite <- (app_nil_r zn) at 1.
      apply parse_seq_cons. eexists _, _, _. split; [reflexivity|]. split; [apply parse_grp_nogrp; [reflexivity|]; split; [apply clock_reads; exact H1|reflexivity]|].
      apply parse_seq_cons. eexists _, _, _. split; [reflexivity|].
      split; [apply parse_opt_grp; [reflexivity|apply reads_nonempty_fraction|]; split; [apply (reads_fraction X); eauto|reflexivity]|].
      apply parse_seq_cons. eexists _, _, _. split; [reflexivity|].
      split; [apply parse_opt_grp; [reflexivity|apply reads_nonempty_zone|]; split; [apply (reads_zone X); eauto|reflexivity]|].
      apply parse_eps. split; reflexivity.
  Qed.
  Lemma time_unique s t cols h m sec frac tz s' t' cols' h' m' sec' frac' tz' :
    written_time dig s cols h m sec frac tz -> written_time dig s' cols' h' m' sec' frac' tz' ->
    final_newline t -> final_newline t' -> s ++ t = s' ++ t' ->
    s = s' /\ t = t' /\ cols = cols' /\ h = h' /\ m = m' /\ sec = sec' /\ frac = frac' /\ tz = tz'.
  Proof.
    intros (ck & fr & zn & -> & Hc & Hf & Hz) (ck' & fr' & zn' & -> & Hc' & Hf' & Hz') Ht Ht' He. rewrite <- !app_assoc in He.
    destruct (clock_unique X _ _ _ _ _ _ _ _ _ _ _ _ Hc Hc' He) as (-> & -> & -> & -> & -> & He1).
    destruct (fraction_unique X _ _ _ _ _ _ Hf Hf' (zone_tail X Xok _ _ _ Hz Ht) (zone_tail X Xok _ _ _ Hz' Ht') He1) as (-> & -> & He2).
    destruct (zone_unique X _ _ _ _ _ _ Hz Hz' Ht Ht' He2) as (-> & -> & ->). auto 10.
  Qed.

  Lemma mk_time_spec h m sec us tz : 0 <= us ->
    ((clock_ok h m sec /\ us <= 999999) /\ mk_time h m sec us tz = Ok (PTime h m sec us tz)) \/
    (~ (clock_ok h m sec /\ us <= 999999) /\ mk_time h m sec us tz = Raise EValue).
  Proof.
    intro Hu. unfold mk_time, clock_ok.
    destruct ((0 <=? h) && (h <=? 23) && (0 <=? m) && (m <=? 59) && (0 <=? sec) && (sec <=? 59) && (0 <=? us) && (us <=? 999999)) eqn:E.
    - left. split; [lia|reflexivity].
    - right. split; [lia|reflexivity].
  Qed.
  Lemma frac_int fr n : written_fraction dig fr n -> 0 <= n /\ match fr with [] => 0 | _ => int_of X (tl fr) end = n.
  Proof.
    intros [[-> ->]|(w & -> & H)]; [split; [lia|reflexivity]|]. cbn [u app tl]. apply (numeral_iff X) in H as (_ & _ & ->).
    split; [apply (int_nonneg X Xok)|reflexivity].
  Qed.
  (** what the program computes from the pieces, the common part of both functions *)
  Lemma pieces_result {A} ck fr zn cols h m sec frac tz (k : Z -> Z -> Z -> option Z -> res A) :
    written_clock dig ck cols h m sec -> written_fraction dig fr frac -> written_zone dig zn tz ->
    (tz' <- zone_of X zn ;; h' <- part X (clock_parts ck) 0 ;; m' <- part X (clock_parts ck) 1 ;; s' <- part X (clock_parts ck) 2 ;; k h' m' s' tz') =
    if Nat.eqb cols 1 then (tz' <- zone_of X zn ;; Raise EIndex) else (tz' <- zone_of X zn ;; k h m sec tz').
  Proof.
    intros Hc Hf Hz. destruct (zone_of X zn) as [tz'|e|]; cbn [bind]; [|destruct (Nat.eqb cols 1); reflexivity..].
    destruct (clock_parts_spec X Xok _ _ _ _ _ Hc) as [H1 H2]. destruct (Nat.eqb_spec cols 1) as [E|E].
    - destruct (H2 E) as (a & b & ->). reflexivity.
    - destruct (H1 E) as (hs & ms & ss & -> & <- & <- & <-). reflexivity.
  Qed.

  Definition time_body : regex := seqs [Grp 1 (clock X); opt (Grp 2 (fraction X)); opt (Grp 3 (zone X))].
  Definition time_result (cols : nat) (h m sec frac : Z) (tz : option Z) (r : res ptime) : Prop :=
    (zone_ok tz /\ cols = 1%nat /\ r = Raise EIndex) \/
    (zone_ok tz /\ cols <> 1%nat /\ clock_ok h m sec /\ frac <= 999999 /\ r = Ok (PTime h m sec frac tz)) \/
    ((~ zone_ok tz \/ cols <> 1%nat /\ ~ (clock_ok h m sec /\ frac <= 999999)) /\ r = Raise EValue).
  (** the three possible situations *)
  Lemma time_cases s :
    (exists cols h m sec frac tz, written_time dig s cols h m sec frac tz /\ clock_range cols h m sec /\
       time_result cols h m sec frac tz (parse_iso_time X s)) \/
    ((exists ck fr zn frac tz, s = ck ++ fr ++ zn ++ [10%N] /\ clock_shape dig ck /\
        written_fraction dig fr frac /\ written_zone dig zn tz) /\ parse_iso_time X s = Raise EAttr) \/
    ((forall ck fr zn frac tz t, s = ck ++ fr ++ zn ++ t -> final_newline t -> clock_shape dig ck -> written_fraction dig fr frac -> written_zone dig zn tz -> False) /\
       parse_iso_time X s = Raise EValue).
  Proof.
    assert (Hp : pure time_body = true) by reflexivity.
    unfold parse_iso_time. change (time_regex X) with (Seq time_body Eol).
    destruct (re_match (Seq time_body Eol) s) as [cs0|] eqn:E.
    - destruct (re_fullmatch (Seq time_body Eol) s) as [cs|] eqn:F.
      + left. apply (fullmatch_caps _ _ _ Hp) in F. apply time_caps in F as (ck & fr & zn & frac & tz & -> & Hc & Hf & Hz & ->).
        destruct (shape_written ck Hc) as (cols & h & m & sec & Hw & Hr). exists cols, h, m, sec, frac, tz.
        split; [exists ck, fr, zn; auto|]. split; [exact Hr|].
        match goal with |- context [grp 1 ?c] => set (caps0 := c) end. cbv zeta.
        assert (E1 : grp 1 caps0 = ck) by (destruct zn, fr; reflexivity).
        assert (E3 : grp 3 caps0 = zn) by (destruct zn, fr; reflexivity).
        assert (Ef : match group 2 caps0 with Some w => int_of X (tl w) | None => 0 end = frac).
        { destruct (frac_int fr frac Hf) as [_ <-]. destruct zn, fr; reflexivity. }
        rewrite E1, E3.
        rewrite Ef. rewrite (pieces_result ck fr zn cols h m sec frac tz (fun h' m' s' tz' => mk_time h' m' s' frac tz') Hw Hf Hz).
        destruct (zone_of_spec X Xok zn tz Hz) as [Z1 Z2]. destruct (zone_ok_dec tz) as [Hk|Hk].
        * rewrite (Z1 Hk). cbn [bind]. destruct (Nat.eqb_spec cols 1) as [Hc1|Hc1]; [left; auto|].
          destruct (mk_time_spec h m sec frac tz (proj1 (frac_int fr frac Hf))) as [[[K1 K2] ->]|[K ->]].
          -- right; left. auto.
          -- right; right. split; [right; auto|reflexivity].
        * rewrite (Z2 Hk). cbn [bind]. destruct (Nat.eqb cols 1); right; right; auto.
      + right; left. split; [|reflexivity]. assert (E' : exists cs, re_match (Seq time_body Eol) s = Some cs) by eauto.
        apply (match_iff _ _ Hp) in E' as (w & t & cs & -> & [->| ->] & P).
        * exfalso. assert (F' : exists cs, re_fullmatch (Seq time_body Eol) (w ++ []) = Some cs).
          { apply (fullmatch_iff _ _ Hp). exists cs. rewrite app_nil_r. exact P. }
          destruct F' as [? F']. congruence.
        * apply time_caps in P as (ck & fr & zn & frac & tz & -> & Hc & Hf & Hz & _). exists ck, fr, zn, frac, tz.
          rewrite <- !app_assoc. auto.
    - right; right. split; [|reflexivity]. intros ck fr zn frac tz t -> Ht Hc Hf Hz.
      assert (E' : exists cs, re_match (Seq time_body Eol) (ck ++ fr ++ zn ++ t) = Some cs).
      { apply (match_iff _ _ Hp). exists (ck ++ fr ++ zn), t. eexists. split; [rewrite <- !app_assoc; reflexivity|]. split; [exact Ht|].
        apply time_caps. exists ck, fr, zn, frac, tz. auto. }
      destruct E' as [? E']. congruence.
  Qed.
  (** ** C61, times *)
  Theorem C61_time_accepts s t : parse_iso_time X s = Ok t <->
    exists cols h m sec frac tz, written_time dig s cols h m sec frac tz /\ cols <> 1%nat /\ clock_ok h m sec /\
      frac <= 999999 /\ zone_ok tz /\ t = PTime h m sec frac tz.
  Proof.
    split.
    - intro H. destruct (time_cases s) as [(cols & h & m & sec & frac & tz & Hw & Hr & R)|[[_ R]|[_ R]]]; try congruence.
      destruct R as [(_ & _ & R)|[(Z1 & C1 & K & B & R)|[_ R]]]; try congruence. exists cols, h, m, sec, frac, tz.
      repeat (split; [assumption|]). congruence.
    - intros (cols & h & m & sec & frac & tz & Hw & Hc & Hk & Hb & Hz & ->).
      destruct (time_cases s) as [(cols' & h' & m' & sec' & frac' & tz' & Hw' & Hr & R)|[[(ck & fr & zn & fc & tz' & E & Hs & Hf & Hzn) _]|[N _]]].
      + destruct (time_unique s [] _ _ _ _ _ _ s [] _ _ _ _ _ _ Hw Hw' (or_introl eq_refl) (or_introl eq_refl) eq_refl) as (_ & _ & <- & <- & <- & <- & <- & <-).
        destruct R as [(_ & C & _)|[(_ & _ & _ & _ & R)|[[C|[_ C]] _]]]; tauto.
      + exfalso. destruct (shape_written ck Hs) as (c1 & h1 & m1 & s1 & Hwc & _).
        assert (W : written_time dig (ck ++ fr ++ zn) c1 h1 m1 s1 fc tz') by (exists ck, fr, zn; auto).
        destruct (time_unique s [] _ _ _ _ _ _ (ck ++ fr ++ zn) [10%N] _ _ _ _ _ _ Hw W) as (_ & C & _); try discriminate.
        * left; reflexivity.
        * right; reflexivity.
        * rewrite app_nil_r, <- !app_assoc. exact E.
      + exfalso. destruct Hw as (ck & fr & zn & -> & Hcl & Hf & Hzn). apply (N ck fr zn frac tz []); auto.
        * rewrite app_nil_r. reflexivity.
        * left; reflexivity.
        * left. exists cols, h, m, sec. split; [exact Hcl|]. unfold clock_ok in Hk. lia.
  Qed.
  (** exactly one colon: an [IndexError] *)
  Theorem C61_time_index s : parse_iso_time X s = Raise EIndex <->
    exists h m sec frac tz, written_time dig s 1 h m sec frac tz /\ h < 30 /\ m < 60 /\ sec < 60 /\ zone_ok tz.
  Proof.
    split.
    - intro H. destruct (time_cases s) as [(cols & h & m & sec & frac & tz & Hw & Hr & R)|[[_ R]|[_ R]]]; try congruence.
      destruct R as [(Z1 & -> & R)|[(_ & _ & _ & _ & R)|[_ R]]]; try congruence. exists h, m, sec, frac, tz.
      split; [exact Hw|]. destruct Hr as [Hr|(_ & _ & _ & C)]; [tauto|congruence].
    - intros (h & m & sec & frac & tz & Hw & Bh & Bm & Bs & Hz).
      destruct (time_cases s) as [(cols' & h' & m' & sec' & frac' & tz' & Hw' & Hr & R)|[[(ck & fr & zn & fc & tz' & E & Hs & Hf & Hzn) _]|[N _]]].
      + destruct (time_unique s [] _ _ _ _ _ _ s [] _ _ _ _ _ _ Hw Hw' (or_introl eq_refl) (or_introl eq_refl) eq_refl) as (_ & _ & <- & <- & <- & <- & <- & <-).
        destruct R as [(_ & _ & R)|[(_ & C & _)|[[C|[C _]] _]]]; tauto.
      + exfalso. destruct (shape_written ck Hs) as (c1 & h1 & m1 & s1 & Hwc & _).
        assert (W : written_time dig (ck ++ fr ++ zn) c1 h1 m1 s1 fc tz') by (exists ck, fr, zn; auto).
        destruct (time_unique s [] _ _ _ _ _ _ (ck ++ fr ++ zn) [10%N] _ _ _ _ _ _ Hw W) as (_ & C & _); try discriminate.
        * left; reflexivity.
        * right; reflexivity.
        * rewrite app_nil_r, <- !app_assoc. exact E.
      + exfalso. destruct Hw as (ck & fr & zn & -> & Hcl & Hf & Hzn). apply (N ck fr zn frac tz []); auto.
        * rewrite app_nil_r. reflexivity.
        * left; reflexivity.
        * left. exists 1%nat, h, m, sec. auto.
  Qed.
  (** a line feed after a time: an [AttributeError] *)
  Theorem C61_time_attribute s : parse_iso_time X s = Raise EAttr <->
    exists ck fr zn frac tz, s = ck ++ fr ++ zn ++ [10%N] /\ clock_shape dig ck /\
      written_fraction dig fr frac /\ written_zone dig zn tz.
  Proof.
    split.
    - intro H. destruct (time_cases s) as [(cols & h & m & sec & frac & tz & Hw & Hr & R)|[[Hx _]|[_ R]]]; [|exact Hx|congruence].
      destruct R as [(_ & _ & R)|[(_ & _ & _ & _ & R)|[_ R]]]; congruence.
    - intros (ck & fr & zn & frac & tz & E & Hs & Hf & Hzn).
      destruct (time_cases s) as [(cols' & h' & m' & sec' & frac' & tz' & Hw' & Hr & R)|[[_ R]|[N _]]].
      + exfalso. destruct (shape_written ck Hs) as (c1 & h1 & m1 & s1 & Hwc & _).
        assert (W : written_time dig (ck ++ fr ++ zn) c1 h1 m1 s1 frac tz) by (exists ck, fr, zn; auto).
        destruct (time_unique s [] _ _ _ _ _ _ (ck ++ fr ++ zn) [10%N] _ _ _ _ _ _ Hw' W) as (_ & C & _); try discriminate.
        * left; reflexivity.
        * right; reflexivity.
        * rewrite app_nil_r, <- !app_assoc. exact E.
      + exact R.
      + exfalso. apply (N ck fr zn frac tz [10%N]); auto. right; reflexivity.
  Qed.
  Theorem C61_time_outcomes s :
    (exists t, parse_iso_time X s = Ok t) \/ parse_iso_time X s = Raise EValue \/
    parse_iso_time X s = Raise EIndex \/ parse_iso_time X s = Raise EAttr.
  Proof.
    destruct (time_cases s) as [(cols & h & m & sec & frac & tz & _ & _ & R)|[[_ R]|[_ R]]]; auto.
    destruct R as [(_ & _ & R)|[(_ & _ & _ & _ & R)|[_ R]]]; eauto.
  Qed.
  (** The claim itself, away from line feeds and single colons. *)
  Theorem C61_time_partial s : ~ In 10%N s -> (forall h m sec frac tz, ~ written_time dig s 1 h m sec frac tz) ->
    (exists t, parse_iso_time X s = Ok t) \/ parse_iso_time X s = Raise EValue.
  Proof.
    intros Hn H1. destruct (C61_time_outcomes s) as [H|[H|[H|H]]]; auto.
    - exfalso. apply C61_time_index in H as (h & m & sec & frac & tz & Hw & _). exact (H1 _ _ _ _ _ Hw).
    - exfalso. apply C61_time_attribute in H as (ck & fr & zn & frac & tz & -> & _). apply Hn. rewrite !in_app_iff. cbn. auto.
  Qed.

  (** ** C61, date-times *)
  Lemma reads_separator w : reads (opt (Cls (fun c => lit_i (chr "t") c || is_space c))) w <-> separator w.
  Proof.
    rewrite reads_opt, reads_cls. unfold separator. change (chr "t") with 116%N.
    assert (L : forall c, lit_i 116 c = true <-> c = 116%N \/ c = 84%N).
    { intro c. unfold lit_i. simpl. rewrite !orb_false_r, orb_true_iff, !N.eqb_eq. reflexivity. }
    assert (S : forall c, is_space c = true <-> In c ([9; 10; 11; 12; 13; 28; 29; 30; 31; 32; 133; 160; 5760; 8192; 8193; 8194; 8195; 8196; 8197;
                               8198; 8199; 8200; 8201; 8202; 8232; 8233; 8239; 8287; 12288])%N).
    { intro c. unfold is_space. rewrite !orb_true_iff, !between_iff, among_In. cbn [In]. lia. }
    split.
    - intros [(c & -> & H)| ->]; [|auto]. apply orb_true_iff in H as [H|H]; [apply L in H as [->| ->]; auto|].
      right; right; right. exists c. split; [reflexivity|apply S; exact H].
    - intros [->|[->|[->|(c & -> & H)]]]; [auto|left; exists 116%N; split; [reflexivity|reflexivity]|left; exists 84%N; split; reflexivity|].
      left. exists c. split; [reflexivity|]. apply orb_true_iff. right. apply S. exact H.
  Qed.
  Lemma separator_unique sp r sp' r' : separator sp -> separator sp' ->
    (forall c r0, r = c :: r0 -> ascii_digit c) -> (forall c r0, r' = c :: r0 -> ascii_digit c) -> r <> [] -> r' <> [] ->
    sp ++ r = sp' ++ r' -> sp = sp' /\ r = r'.
  Proof.
    intros H H' Hr Hr' N1 N2 He.
    assert (K : forall sp, separator sp -> sp = [] \/ exists c, sp = [c] /\ ~ ascii_digit c).
    { intros s [->|[->|[->|(c & -> & Hc)]]]; auto; right; [exists 116%N|exists 84%N|exists c]; (split; [reflexivity|]); unfold ascii_digit; [lia|lia|].
      cbn [In] in Hc. lia. }
    destruct (K _ H) as [->|(c & -> & Hc)], (K _ H') as [->|(c' & -> & Hc')]; simpl in He.
    - auto.
    - exfalso. apply Hc'. eapply Hr. exact He.
    - exfalso. apply Hc. eapply Hr'. symmetry. exact He.
    - injection He as -> ->. auto.
  Qed.
  Lemma time_head s cols h m sec frac tz : written_time dig s cols h m sec frac tz -> forall t, s ++ t <> [] /\ forall c r, s ++ t = c :: r -> ascii_digit c.
  Proof.
    intros (ck & fr & zn & -> & (hs & c1 & ms & c2 & ss & -> & F & _) & _) t.
    apply (field2 X Xok) in F as (a & b & d & -> & Ha & _). split; [discriminate|]. intros c r [= <- _]. exact Ha.
  Qed.
  Definition datetime_body : regex :=
    seqs (date_body X ++ [opt (Cls (fun c => lit_i (chr "t") c || is_space c)); Grp 4 (clock X); opt (Grp 5 (fraction X)); opt (Grp 6 (zone X))]).
  Lemma datetime_caps w cs' : parse datetime_body w [] cs' <->
    exists ys h1 ms h2 ds y mo d sp ck fr zn frac tz, w = ys ++ h1 ++ ms ++ h2 ++ ds ++ sp ++ ck ++ fr ++ zn /\
      date_pieces X ys h1 ms h2 ds y mo d /\ separator sp /\ clock_shape dig ck /\ written_fraction dig fr frac /\ written_zone dig zn tz /\
      cs' = put 6 zn (put 5 fr ((4%nat, ck) :: [(3%nat, ds); (2%nat, ms); (1%nat, ys)])).
  Proof.
    unfold datetime_body. rewrite (parse_date X Xok). split.
    - intros (ys & h1 & ms & h2 & ds & y & mo & d & w' & -> & Hp & H).
      apply parse_seq_cons in H as (sp & w1 & c1 & -> & P1 & H). apply nogrp_reads in P1 as [P1 ->]; [|reflexivity]. apply reads_separator in P1.
      apply time_caps in H as (ck & fr & zn & frac & tz & -> & Hc & Hf & Hz & ->).
      exists ys, h1, ms, h2, ds, y, mo, d, sp, ck, fr, zn, frac, tz. auto 10.
    - intros (ys & h1 & ms & h2 & ds & y & mo & d & sp & ck & fr & zn & frac & tz & -> & Hp & Hs & Hc & Hf & Hz & ->).
      exists ys, h1, ms, h2, ds, y, mo, d, (sp ++ ck ++ fr ++ zn). split; [reflexivity|]. split; [exact Hp|].
      apply parse_seq_cons. eexists _, _, _. split; [reflexivity|]. split; [apply nogrp_reads; [reflexivity|]; split; [apply reads_separator; exact Hs|reflexivity]|].
      apply time_caps. exists ck, fr, zn, frac, tz. auto.
  Qed.
  (** what the text says, a final line feed being ignored *)
  Definition datetime_of (s : pystr) (y mo d : Z) (cols : nat) (h m sec frac : Z) (tz : option Z) : Prop :=
    exists w t, s = w ++ t /\ final_newline t /\ written_datetime dig w y mo d cols h m sec frac tz.
  Definition datetime_result (y mo d : Z) (cols : nat) (h m sec : Z) (tz : option Z) (r : res (pdate * ptime)) : Prop :=
    (zone_ok tz /\ cols = 1%nat /\ r = Raise EIndex) \/
    (zone_ok tz /\ cols <> 1%nat /\ real_date y mo d /\ clock_ok h m sec /\ r = Ok (PDate y mo d, PTime h m sec 0 tz)) \/
    ((~ zone_ok tz \/ cols <> 1%nat /\ ~ (real_date y mo d /\ clock_ok h m sec)) /\ r = Raise EValue).
  Lemma datetime_cases s :
    (exists ys h1 ms h2 ds y mo d sp ti t cols h m sec frac tz, s = ys ++ h1 ++ ms ++ h2 ++ ds ++ sp ++ ti ++ t /\ final_newline t /\
       date_pieces X ys h1 ms h2 ds y mo d /\ separator sp /\ written_time dig ti cols h m sec frac tz /\ clock_range cols h m sec /\
       datetime_result y mo d cols h m sec tz (parse_iso_datetime X s)) \/
    ((forall ys h1 ms h2 ds y mo d sp ck fr zn frac tz t, s = ys ++ h1 ++ ms ++ h2 ++ ds ++ sp ++ ck ++ fr ++ zn ++ t -> final_newline t ->
        date_pieces X ys h1 ms h2 ds y mo d -> separator sp -> clock_shape dig ck -> written_fraction dig fr frac -> written_zone dig zn tz -> False) /\
       parse_iso_datetime X s = Raise EValue).
  Proof.
    assert (Hp : pure datetime_body = true) by reflexivity.
    unfold parse_iso_datetime. change (datetime_regex X) with (Seq datetime_body Eol).
    destruct (re_match (Seq datetime_body Eol) s) as [cs|] eqn:E.
    - left. apply (match_caps _ _ _ Hp) in E as (w & t & -> & Ht & P).
      apply datetime_caps in P as (ys & h1 & ms & h2 & ds & y & mo & d & sp & ck & fr & zn & frac & tz & -> & Hd & Hsp & Hc & Hf & Hz & ->).
      destruct (shape_written ck Hc) as (cols & h & m & sec & Hw & Hr).
      exists ys, h1, ms, h2, ds, y, mo, d, sp, (ck ++ fr ++ zn), t, cols, h, m, sec, frac, tz.
      split; [rewrite <- !app_assoc; reflexivity|]. split; [exact Ht|]. split; [exact Hd|]. split; [exact Hsp|].
      split; [exists ck, fr, zn; auto|]. split; [exact Hr|].
      match goal with |- context [grp 4 ?c] => set (caps0 := c) end. cbv zeta.
      assert (E1 : grp 1 caps0 = ys) by (destruct zn, fr; reflexivity).
      assert (E2 : grp 2 caps0 = ms) by (destruct zn, fr; reflexivity).
      assert (E3 : grp 3 caps0 = ds) by (destruct zn, fr; reflexivity).
      assert (E4 : grp 4 caps0 = ck) by (destruct zn, fr; reflexivity).
      assert (E6 : grp 6 caps0 = zn) by (destruct zn, fr; reflexivity).
      rewrite E1, E2, E3, E4, E6. destruct (pieces_int X _ _ _ _ _ _ _ _ Hd) as (-> & -> & ->).
      rewrite (pieces_result ck fr zn cols h m sec frac tz (fun h' m' s' tz' => d0 <- mk_date y mo d ;; t0 <- mk_time h' m' s' 0 tz' ;; Ok (d0, t0)) Hw Hf Hz).
      destruct (zone_of_spec X Xok zn tz Hz) as [Z1 Z2]. destruct (zone_ok_dec tz) as [Hk|Hk].
      + rewrite (Z1 Hk). cbn [bind]. destruct (Nat.eqb_spec cols 1) as [Hc1|Hc1]; [left; auto|].
        destruct (mk_date_spec y mo d) as [[R1 ->]|[R1 ->]]; cbn [bind].
        * destruct (mk_time_spec h m sec 0 tz ltac:(lia)) as [[[K1 K2] ->]|[K ->]]; cbn [bind].
          -- right; left. auto.
          -- right; right. split; [|reflexivity]. right. split; [exact Hc1|]. intros [_ C]. apply K. split; [exact C|lia].
        * right; right. split; [|reflexivity]. right. split; [exact Hc1|]. intros [C _]. contradiction.
      + rewrite (Z2 Hk). cbn [bind]. destruct (Nat.eqb cols 1); right; right; auto.
    - right. split; [|reflexivity]. intros ys h1 ms h2 ds y mo d sp ck fr zn frac tz t -> Ht Hd Hsp Hc Hf Hz.
      assert (E' : exists cs, re_match (Seq datetime_body Eol) (ys ++ h1 ++ ms ++ h2 ++ ds ++ sp ++ ck ++ fr ++ zn ++ t) = Some cs).
      { apply (match_iff _ _ Hp). exists (ys ++ h1 ++ ms ++ h2 ++ ds ++ sp ++ ck ++ fr ++ zn), t. eexists.
        split; [rewrite <- !app_assoc; reflexivity|]. split; [exact Ht|].
        apply datetime_caps. exists ys, h1, ms, h2, ds, y, mo, d, sp, ck, fr, zn, frac, tz. auto 10. }
      destruct E' as [? E']. congruence.
  Qed.
  Lemma datetime_unique ys h1 ms h2 ds y mo d sp ti t cols h m sec frac tz ys' h1' ms' h2' ds' y' mo' d' sp' ti' t' cols' h' m' sec' frac' tz' :
    date_pieces X ys h1 ms h2 ds y mo d -> separator sp -> written_time dig ti cols h m sec frac tz -> final_newline t ->
    date_pieces X ys' h1' ms' h2' ds' y' mo' d' -> separator sp' -> written_time dig ti' cols' h' m' sec' frac' tz' -> final_newline t' ->
    ys ++ h1 ++ ms ++ h2 ++ ds ++ sp ++ ti ++ t = ys' ++ h1' ++ ms' ++ h2' ++ ds' ++ sp' ++ ti' ++ t' ->
    y = y' /\ mo = mo' /\ d = d' /\ cols = cols' /\ h = h' /\ m = m' /\ sec = sec' /\ frac = frac' /\ tz = tz'.
  Proof.
    intros Hd Hs Hw Ht Hd' Hs' Hw' Ht' He.
    destruct (date_unique X _ _ _ _ _ _ _ _ _ _ _ _ _ _ _ _ _ _ Hd Hd' He) as (_ & _ & _ & -> & -> & -> & He1).
    destruct (time_head _ _ _ _ _ _ _ Hw t) as [N1 A1]. destruct (time_head _ _ _ _ _ _ _ Hw' t') as [N2 A2].
    destruct (separator_unique _ _ _ _ Hs Hs' A1 A2 N1 N2 He1) as [-> He2].
    destruct (time_unique _ _ _ _ _ _ _ _ _ _ _ _ _ _ _ _ Hw Hw' Ht Ht' He2) as (_ & _ & -> & -> & -> & -> & -> & ->). auto 12.
  Qed.
  Lemma date_pieces_of w y mo d : written_date dig w y mo d -> mo < 20 -> d < 40 ->
    exists ys h1 ms h2 ds, w = ys ++ h1 ++ ms ++ h2 ++ ds /\ date_pieces X ys h1 ms h2 ds y mo d.
  Proof.
    intros (ys & h1 & ms & h2 & ds & -> & Hy & Ly & H1 & Hm & H2 & Hd) Bm Bd.
    exists ys, h1, ms, h2, ds. split; [reflexivity|]. exact (conj Hy (conj Ly (conj H1 (conj (conj Hm Bm) (conj H2 (conj Hd Bd)))))).
  Qed.
  Lemma datetime_match s y mo d cols h m sec frac tz : datetime_of s y mo d cols h m sec frac tz ->
    mo < 20 -> d < 40 -> h < 30 -> m < 60 -> sec < 60 -> datetime_result y mo d cols h m sec tz (parse_iso_datetime X s).
  Proof.
    intros (w & t & -> & Ht & dt & sp & ti & -> & Hd & Hs & Hw) Bm Bd Bh Bmi Bs.
    apply date_pieces_of in Hd as (ys & h1 & ms & h2 & ds & -> & Hd); [|exact Bm|exact Bd].
    destruct (datetime_cases (((ys ++ h1 ++ ms ++ h2 ++ ds) ++ sp ++ ti) ++ t)) as
      [(ys' & h1' & ms' & h2' & ds' & y' & mo' & d' & sp' & ti' & t' & cols' & h' & m' & sec' & frac' & tz' & E & Ht' & Hd' & Hs' & Hw' & _ & R)|[N _]].
    - rewrite <- !app_assoc in E at 1.
      destruct (datetime_unique _ _ _ _ _ _ _ _ _ _ _ _ _ _ _ _ _ _ _ _ _ _ _ _ _ _ _ _ _ _ _ _ _ _ Hd Hs Hw Ht Hd' Hs' Hw' Ht' E)
        as (<- & <- & <- & <- & <- & <- & <- & <- & <-). exact R.
    - exfalso. destruct Hw as (ck & fr & zn & -> & Hc & Hf & Hz).
      apply (N ys h1 ms h2 ds y mo d sp ck fr zn frac tz t); auto; [rewrite <- !app_assoc; reflexivity|].
      left. exists cols, h, m, sec. auto.
  Qed.
  Lemma datetime_read s r : parse_iso_datetime X s = r -> r <> Raise EValue ->
    exists y mo d cols h m sec frac tz, datetime_of s y mo d cols h m sec frac tz /\ mo < 20 /\ d < 40 /\ clock_range cols h m sec /\
      datetime_result y mo d cols h m sec tz r.
  Proof.
    intros H Hr. destruct (datetime_cases s) as
      [(ys & h1 & ms & h2 & ds & y & mo & d & sp & ti & t & cols & h & m & sec & frac & tz & E & Ht & Hd & Hs & Hw & Hk & R)|[_ R]]; [|congruence].
    exists y, mo, d, cols, h, m, sec, frac, tz. rewrite H in R. split; [|].
    - exists ((ys ++ h1 ++ ms ++ h2 ++ ds) ++ sp ++ ti), t. split; [rewrite E, <- !app_assoc; reflexivity|]. split; [exact Ht|].
      exists (ys ++ h1 ++ ms ++ h2 ++ ds), sp, ti. split; [reflexivity|]. split; [apply pieces_written; exact Hd|]. split; [exact Hs|exact Hw].
    - destruct Hd as (_ & _ & _ & [_ Bm] & _ & _ & Bd). auto.
  Qed.
  (** The fraction of a date-time is read and dropped. *)
  Theorem C61_datetime_accepts s x : parse_iso_datetime X s = Ok x <->
    exists y mo d cols h m sec frac tz, datetime_of s y mo d cols h m sec frac tz /\ cols <> 1%nat /\
      real_date y mo d /\ clock_ok h m sec /\ zone_ok tz /\ x = (PDate y mo d, PTime h m sec 0 tz).
  Proof.
    split.
    - intro H. destruct (datetime_read s _ H ltac:(discriminate)) as (y & mo & d & cols & h & m & sec & frac & tz & Hw & _ & _ & _ & R).
      exists y, mo, d, cols, h, m, sec, frac, tz. split; [exact Hw|].
      destruct R as [(_ & _ & R)|[(Z1 & C1 & K1 & K2 & R)|[_ R]]]; try discriminate. repeat (split; [assumption|]). congruence.
    - intros (y & mo & d & cols & h & m & sec & frac & tz & Hw & Hc & Hd & Hk & Hz & ->).
      pose proof (real_date_bounds _ _ _ Hd) as [Bm Bd]. assert (B : h < 30 /\ m < 60 /\ sec < 60) by (unfold clock_ok in Hk; lia).
      destruct (datetime_match s _ _ _ _ _ _ _ _ _ Hw Bm Bd) as [(_ & C & _)|[(_ & _ & _ & _ & R)|[[C|[_ C]] _]]]; tauto.
  Qed.
  Theorem C61_datetime_index s : parse_iso_datetime X s = Raise EIndex <->
    exists y mo d h m sec frac tz, datetime_of s y mo d 1 h m sec frac tz /\
      mo < 20 /\ d < 40 /\ h < 30 /\ m < 60 /\ sec < 60 /\ zone_ok tz.
  Proof.
    split.
    - intro H. destruct (datetime_read s _ H ltac:(discriminate)) as (y & mo & d & cols & h & m & sec & frac & tz & Hw & Bm & Bd & B & R).
      destruct R as [(Z1 & -> & _)|[(_ & _ & _ & _ & R)|[_ R]]]; try discriminate.
      exists y, mo, d, h, m, sec, frac, tz. split; [exact Hw|]. destruct B as [B|(_ & _ & _ & C)]; [tauto|congruence].
    - intros (y & mo & d & h & m & sec & frac & tz & Hw & Bm & Bd & Bh & Bmi & Bs & Hz).
      destruct (datetime_match s _ _ _ _ _ _ _ _ _ Hw Bm Bd Bh Bmi Bs) as [(_ & _ & R)|[(_ & C & _)|[[C|[C _]] _]]]; tauto.
  Qed.
  Theorem C61_datetime_outcomes s :
    (exists x, parse_iso_datetime X s = Ok x) \/ parse_iso_datetime X s = Raise EValue \/ parse_iso_datetime X s = Raise EIndex.
  Proof.
    destruct (datetime_cases s) as
      [(ys & h1 & ms & h2 & ds & y & mo & d & sp & ti & t & cols & h & m & sec & frac & tz & E & Ht & Hd & Hs & Hw & Hk & R)|[_ R]]; [|auto].
    destruct R as [(_ & _ & R)|[(_ & _ & _ & _ & R)|[_ R]]]; eauto.
  Qed.
  Theorem C61_datetime_partial s : (forall y mo d h m sec frac tz, ~ datetime_of s y mo d 1 h m sec frac tz) ->
    (exists x, parse_iso_datetime X s = Ok x) \/ parse_iso_datetime X s = Raise EValue.
  Proof.
    intro H1. destruct (C61_datetime_outcomes s) as [H|[H|H]]; auto.
    exfalso. apply C61_datetime_index in H as (y & mo & d & h & m & sec & frac & tz & Hw & _). exact (H1 _ _ _ _ _ _ _ _ Hw).
  Qed.
End Iso.

(** What a user meets: other exceptions than [ValueError], a fraction of half a
    second read as 5 microseconds, a dropped fraction. *)
Theorem C61_only_value_error_refuted : exists X, digits_ok X /\
  parse_iso_time X (u "20:2010") = Raise EIndex /\ parse_iso_datetime X (u "2020-01-01T20:2010") = Raise EIndex /\
  parse_iso_time X (u "20:20:10" ++ [10%N]) = Raise EAttr.
Proof. exists iso_ex. split; [exact iso_ex_ok|]. vm_compute. auto. Qed.
Theorem C61_fraction_refuted : exists X, digits_ok X /\
  parse_iso_time X (u "20:20:10.5") = Ok (PTime 20 20 10 5 None) /\
  parse_iso_datetime X (u "2020-01-01T20:20:10.5Z") = Ok (PDate 2020 1 1, PTime 20 20 10 0 (Some 0)).
Proof. exists iso_ex. split; [exact iso_ex_ok|]. vm_compute. auto. Qed.
Example C61_times :
  parse_iso_time iso_ex (u "20:20:10.000250-05:30") = Ok (PTime 20 20 10 250 (Some (-330))) /\
  parse_iso_time iso_ex (u "202010z") = Ok (PTime 20 20 10 0 (Some 0)) /\
  parse_iso_time iso_ex (u "23:59:60") = Raise EValue /\
  parse_iso_datetime iso_ex (u "2020-02-30T10:00:00") = Raise EValue /\
  parse_iso_datetime iso_ex (u "2020-02-29t100000+24:00") = Raise EValue.
Proof. vm_compute. auto. Qed.
(** The hypothesis of the partial theorems is met by ordinary texts. *)
Example C61_two_colons : forall h m sec frac tz, ~ written_time (digit iso_ex) (u "20:20:10") 1 h m sec frac tz.
Proof.
  intros h m sec frac tz H.
  assert (E : exists cols h m sec frac tz, written_time (digit iso_ex) (u "20:20:10") cols h m sec frac tz /\ cols <> 1%nat /\
     clock_ok h m sec /\ frac <= 999999 /\ zone_ok tz /\ PTime 20 20 10 0 None = PTime h m sec frac tz)
    by (apply (C61_time_accepts iso_ex iso_ex_ok); vm_compute; reflexivity).
  destruct E as (cols & h' & m' & sec' & frac' & tz' & H' & Hc & _).
  destruct (time_unique iso_ex iso_ex_ok _ [] _ _ _ _ _ _ _ [] _ _ _ _ _ _ H H' (or_introl eq_refl) (or_introl eq_refl) eq_refl) as (_ & _ & C & _).
  congruence.
Qed.
