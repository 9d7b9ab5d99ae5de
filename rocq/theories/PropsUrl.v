(** The [uri] and [url] formats. *)
From Verif Require Import PyBase PyBaseFacts PyVal Regex RegexFacts Iso Formats FormatSpec PropsFormats.
Local Open Scope N_scope.
Local Notation length := List.length (only parsing).

(** ** Reading single pieces *)
Lemma run_seq a b x y : In y (run (Seq a b) x) <-> exists z, In z (run a x) /\ In y (run b z).
Proof. cbn [run]. apply in_flat_map. Qed.
Lemma run_alt a b x y : In y (run (Alt a b) x) <-> In y (run a x) \/ In y (run b x).
Proof. cbn [run]. apply in_app_iff. Qed.
Lemma run_nogrp r s cs y : nogrp r = true ->
  In y (run r (s, cs)) <-> exists w t, s = w ++ t /\ reads r w /\ y = (t, cs).
Proof.
  intro H. destruct y as [t cs']. rewrite run_parse by (apply nogrp_pure; exact H). split.
  - intros (w & E & P). apply (nogrp_reads _ _ _ _ H) in P as [P ->]. eauto.
  - intros (w & t' & E & P & [= -> ->]). exists w. split; [exact E|]. apply nogrp_reads; auto.
Qed.
Lemma run_not r s cs y : nogrp r = true ->
  In y (run (NotLook r) (s, cs)) <-> y = (s, cs) /\ ~ exists w t, s = w ++ t /\ reads r w.
Proof.
  intro H. pose proof (fun y => run_nogrp r s cs y H) as R. cbn [run].
  destruct (run r (s, cs)) as [|z l].
  - split.
    + intros [<-|[]]. split; [reflexivity|]. intros (w & t & E & P). destruct (proj2 (R (t, cs))). eauto.
    + intros [-> _]. left; reflexivity.
  - split; [intros []|]. intros [_ N]. destruct N. destruct (proj1 (R z) (or_introl eq_refl)) as (w & t & E & P & _). eauto.
Qed.
Lemma reads_lits s w : reads (lits s) w <-> w = u s.
Proof.
  unfold lits. revert w. induction (u s) as [|c l IH]; intro w; cbn [map seqs fold_right].
  - apply reads_eps.
  - rewrite reads_seq by reflexivity. split.
    + intros (w1 & w2 & -> & H1 & H2). apply reads_one in H1 as ->. apply IH in H2 as ->. reflexivity.
    + intros ->. exists [c], l. split; [reflexivity|]. split; [apply reads_one; reflexivity|apply IH; reflexivity].
Qed.
Lemma nogrp_lits s : nogrp (lits s) = true.
Proof. unfold lits. induction (u s) as [|c l IH]; [reflexivity|exact IH]. Qed.
Lemma nogrp_word s : nogrp (word_i s) = true.
Proof. unfold word_i. induction (u s) as [|c l IH]; [reflexivity|exact IH]. Qed.
Lemma space_iff c : is_space c = true <-> white_space c.
Proof.
  unfold is_space, white_space. rewrite !orb_true_iff, !between_iff, among_In. tauto.
Qed.
Lemma reads_non_space w : reads (Star non_space) w <-> no_space w.
Proof.
  unfold non_space. rewrite reads_star_cls, Forall_forall. unfold no_space. split; intros H c Hc; specialize (H c Hc).
  - intro W. apply space_iff in W. rewrite W in H. discriminate.
  - destruct (is_space c) eqn:E; [|reflexivity]. apply space_iff in E. contradiction.
Qed.
Lemma reads_non_spaces w : reads (plus non_space) w <-> w <> [] /\ no_space w.
Proof.
  unfold non_space. rewrite reads_plus_cls, <- reads_non_space. unfold non_space. rewrite reads_star_cls. reflexivity.
Qed.

(** ** C74: uri *)
Lemma reads_uri w : reads (erase uri_body) w <-> uri_text folded_letter (u "+,-.") w.
Proof.
  unfold uri_body, uri_text. cbn [erase seqs fold_right opt].
  match goal with |- context[Seq (Alt ?o Eps) _] => set (o0 := o) end.
  change (Alt o0 Eps) with (opt o0).
  assert (No : nogrp o0 = true) by reflexivity.
  assert (Ho : forall x, reads o0 x -> no_space x).
  { subst o0. intros x H. apply reads_seq in H as (a & r & -> & Ha & H); [|reflexivity]. apply reads_one in Ha as ->.
    apply reads_seq in H as (b & r2 & -> & Hb & H); [|reflexivity].
    apply reads_seq in H as (c & r3 & -> & Hc & H); [|reflexivity]. apply reads_one in Hc as ->.
    apply reads_seq in H as (d & r4 & -> & Hd & H); [|reflexivity]. apply reads_one in Hd as ->. apply reads_eps in H as ->.
    assert (Q : forall z, In z b -> z = 47).
    { apply (reads_opt (Cls (one 47))) in Hb as [Hb| ->]; [apply reads_one in Hb as ->; intros z [<-|[]]; reflexivity|intros z []]. }
    intros z Hz Wz. apply in_app_or in Hz as [[<-|[]]|Hz]; [unfold backslash, white_space in Wz; cbn [In] in Wz; lia|].
    apply in_app_or in Hz as [Hz|Hz]; [apply Q in Hz; subst z; unfold white_space in Wz; cbn [In] in Wz; lia|].
    apply in_app_or in Hz as [[<-|[]]|Hz]; [unfold backslash, white_space in Wz; cbn [In] in Wz; lia|].
    apply in_app_or in Hz as [[<-|[]]|[]]. unfold white_space in Wz; cbn [In] in Wz; lia. }
  clearbody o0.
  assert (Hin : forall x, (is_letter_i x || is_ascii_digit x || between 43 46 x) = true <-> word_char folded_letter x \/ In x (u "+,-.")).
  { intro x. rewrite !orb_true_iff, letter_i_iff, ascii_digit_iff, between_iff. unfold word_char.
    change (u "+,-.") with [43; 44; 45; 46]. cbn [In]. intuition lia. }
  rewrite reads_seq by reflexivity. split.
  - intros (w1 & r & -> & H1 & H). apply reads_cls in H1 as (c & -> & Hc).
    apply reads_seq in H as (w2 & r2 & -> & H2 & H); [|reflexivity]. apply reads_star_cls in H2. rewrite Forall_forall in H2.
    apply reads_seq in H as (w3 & r3 & -> & H3 & H); [|reflexivity]. apply reads_one in H3 as ->.
    apply reads_seq in H as (w4 & r4 & -> & H4 & H); [|cbn [opt nogrp]; rewrite No; reflexivity].
    apply reads_seq in H as (w5 & r5 & -> & H5 & H); [|reflexivity]. apply reads_eps in H as ->.
    apply (reads_non_space w5) in H5.
    exists c, w2, (w4 ++ w5). split; [apply letter_i_iff; exact Hc|]. split; [intros x Hx; apply Hin, H2, Hx|].
    split; [|rewrite app_nil_r; reflexivity].
    intros z Hz. apply in_app_or in Hz as [Hz|Hz]; [|exact (H5 z Hz)].
    apply reads_opt in H4 as [H4| ->]; [exact (Ho _ H4 z Hz)|destruct Hz].
  - intros (c & w2 & rest & Hc & H2 & H5 & ->). exists [c], (w2 ++ u ":" ++ rest).
    split; [reflexivity|]. split; [apply reads_cls; exists c; split; [reflexivity|apply letter_i_iff; exact Hc]|].
    apply reads_seq; [reflexivity|]. exists w2, (u ":" ++ rest). split; [reflexivity|].
    split; [apply reads_star_cls, Forall_forall; intros x Hx; apply Hin, H2, Hx|].
    apply reads_seq; [reflexivity|]. exists (u ":"), rest. split; [reflexivity|]. split; [apply reads_one; reflexivity|].
    apply reads_seq; [cbn [opt nogrp]; rewrite No; reflexivity|]. exists [], rest. split; [reflexivity|].
    split; [apply reads_opt; right; reflexivity|].
    apply reads_seq; [reflexivity|]. exists rest, []. split; [rewrite app_nil_r; reflexivity|].
    split; [apply (reads_non_space rest); exact H5|apply reads_eps; reflexivity].
Qed.
(** A final line feed cannot be part of the rest: it is white space.  It is
    accepted nevertheless, and so is a comma in the scheme. *)
Theorem C74_uri_exact X s : str_of X (VStr s) = s ->
  format_uri X (VStr s) = Ok true <->
  exists w t, s = w ++ t /\ final_newline t /\ uri_text folded_letter (u "+,-.") w.
Proof.
  intro Hs. unfold format_uri, uri_regex. rewrite Hs.
  assert (E : Ok (matches (Seq uri_body Eol) s) = Ok true <-> matches (Seq uri_body Eol) s = true) by (split; congruence).
  rewrite E, matches_reads by reflexivity.
  split; intros (h & t & H1 & H2 & H3); exists h, t; (split; [exact H1|split; [exact H2|apply reads_uri; exact H3]]).
Qed.
Theorem C74_uri_partial X s : str_of X (VStr s) = s -> ascii_text s -> ~ In 10 s ->
  (forall scheme rest, s = scheme ++ u ":" ++ rest -> ~ In 58 scheme -> ~ In 44 scheme) ->
  (format_uri X (VStr s) = Ok true <-> uri_text ascii_letter (u "+-.") s) /\
  (format_uri X (VStr s) = Ok false <-> ~ uri_text ascii_letter (u "+-.") s).
Proof.
  intros Hs Ha Hn Hc.
  assert (H : format_uri X (VStr s) = Ok true <-> uri_text ascii_letter (u "+-.") s).
  { rewrite C74_uri_exact by exact Hs. split.
    - intros (w & t & E & Ht & H). rewrite <- (no_newline s w t Hn E Ht) in H. destruct H as (c & w' & rest & H1 & H2 & H3 & E2).
      assert (Hw : forall x, In x (c :: w') -> x < 128).
      { intros x Hx. apply Ha. rewrite E2. destruct Hx as [->|Hx]; [left; reflexivity|right; apply in_or_app; left; exact Hx]. }
      exists c, w', rest. split; [apply (letters_ascii c (Hw c (or_introl eq_refl))); exact H1|].
      split; [|split; [exact H3|exact E2]]. intros x Hx.
      assert (L : x < 128) by (apply Hw; right; exact Hx).
      destruct (H2 x Hx) as [[L1|L1]|L1].
      + left; left. apply (letters_ascii x L), L1.
      + left; right; exact L1.
      + right. change (u "+,-.") with [43; 44; 45; 46] in L1. change (u "+-.") with [43; 45; 46]. cbn [In] in *.
        assert (x <> 44); [|intuition]. intros ->. apply (Hc (c :: w') rest E2); [|right; exact Hx].
        intros [D|D]; [subst c; destruct H1 as [H1|H1]; [unfold ascii_letter in H1; lia|cbn [In] in H1; intuition discriminate]|].
        apply H2 in D as [[D|D]|D]; [destruct D as [D|D]; [unfold ascii_letter in D; lia|cbn [In] in D; intuition discriminate]
                                    |unfold ascii_digit in D; lia|].
        change (u "+,-.") with [43; 44; 45; 46] in D. cbn [In] in D; intuition discriminate.
    - intros (c & w' & rest & H1 & H2 & H3 & E2). exists s, []. split; [rewrite app_nil_r; reflexivity|]. split; [left; reflexivity|].
      exists c, w', rest. split; [left; exact H1|]. split; [|split; [exact H3|exact E2]].
      intros x Hx. destruct (H2 x Hx) as [[L1|L1]|L1]; [left; left; left; exact L1|left; right; exact L1|right].
      change (u "+,-.") with [43; 44; 45; 46]. change (u "+-.") with [43; 45; 46] in L1. cbn [In] in *. intuition. }
  split; [exact H|]. rewrite <- H. unfold format_uri. rewrite Hs. destruct (matches _ s); split; congruence.
Qed.
Theorem C74_uri_refuted : exists X, (forall s, str_of X (VStr s) = s) /\
  (let s := u "a,b:c" in format_uri X (VStr s) = Ok true /\ ~ uri_text ascii_letter (u "+-.") s) /\
  (let s := u "a:b" ++ [10] in format_uri X (VStr s) = Ok true /\ ~ uri_text ascii_letter (u "+-.") s).
Proof.
  exists fmt_ex. split; [reflexivity|]. split; (split; [vm_compute; reflexivity|]).
  - intros (c & w & rest & H1 & H2 & _ & E). change (u "a,b:c") with [97; 44; 98; 58; 99] in E. injection E as <- E.
    destruct w as [|x w]; [discriminate|]. injection E as <- _. destruct (H2 44 (or_introl eq_refl)) as [[H|H]|H].
    + unfold ascii_letter in H; lia.
    + unfold ascii_digit in H; lia.
    + cbn in H. intuition discriminate.
  - intros (c & w & rest & H1 & H2 & H3 & E). change (u "a:b" ++ [10]) with [97; 58; 98; 10] in E. injection E as <- E.
    destruct w as [|x w].
    + injection E as E. apply (H3 10); [rewrite <- E; right; left; reflexivity|]. unfold white_space. lia.
    + injection E as <- _. destruct (H2 58 (or_introl eq_refl)) as [[H|H]|H].
      * unfold ascii_letter in H; lia.
      * unfold ascii_digit in H; lia.
      * cbn in H. intuition discriminate.
Qed.
Example C74_some : format_uri fmt_ex (VStr (u "urn:isbn:1-2")) = Ok true /\ format_uri fmt_ex (VStr (u "http://a b")) = Ok false /\
  format_uri fmt_ex (VStr (u "1a:x")) = Ok false /\ uri_text ascii_letter (u "+-.") (u "urn:isbn:1-2").
Proof.
  do 3 (split; [vm_compute; reflexivity|]). exists 117, (u "rn"), (u "isbn:1-2"). split; [unfold ascii_letter; lia|].
  split; [|split; [|reflexivity]].
  - intros x Hx. left; left. unfold ascii_letter. cbn in Hx. intuition lia.
  - intros x Hx W. cbn in Hx. unfold white_space in W. cbn [In] in W. intuition lia.
Qed.

(** ** C75: url *)
Lemma fold_number_ge w a : a <= fold_left (fun a c => 10 * a + (c - 48)) w a.
Proof. revert a; induction w as [|c w IH]; intro a; cbn [fold_left]; [lia|]. specialize (IH (10 * a + (c - 48))). lia. Qed.
(** texts of digits by length *)
Lemma number_cases w : number_text w ->
  (exists a, w = [a] /\ ascii_digit a) \/
  (exists a b, w = [a; b] /\ ascii_digit a /\ ascii_digit b) \/
  (exists a b c, w = [a; b; c] /\ ascii_digit a /\ ascii_digit b /\ ascii_digit c) \/
  (exists a b c d r, w = a :: b :: c :: d :: r /\ ascii_digit a /\ 1000 * (a - 48) <= number_of w).
Proof.
  intros [Hne H]. destruct w as [|a [|b [|c [|d r]]]]; [congruence| | | |].
  - left. exists a. split; [reflexivity|apply H; left; reflexivity].
  - right; left. exists a, b. split; [reflexivity|]. split; apply H; cbn; auto.
  - right; right; left. exists a, b, c. split; [reflexivity|]. repeat split; apply H; cbn; auto.
  - right; right; right. exists a, b, c, d, r. split; [reflexivity|]. split; [apply H; left; reflexivity|].
    unfold number_of. cbn [fold_left]. etransitivity; [|apply fold_number_ge].
    assert (48 <= a) by (apply (H a); left; reflexivity). lia.
Qed.
Lemma nlz1 a r : no_leading_zero (a :: r) <-> a <> 48.
Proof. unfold no_leading_zero. split; [intros H ->; exact (H r eq_refl)|intros H w [= -> _]; congruence]. Qed.
Lemma number_text_iff w : number_text w <-> w <> [] /\ Forall ascii_digit w.
Proof. unfold number_text. rewrite Forall_forall. reflexivity. Qed.

Section Url.
  Variable I : iso_env.
  (** the decimal digits among these characters are the ten ASCII ones *)
  Definition plain_digits (s : pystr) : Prop := forall c, In c s -> is_digit I c = is_ascii_digit c.
  Lemma plain_app a b : plain_digits (a ++ b) <-> plain_digits a /\ plain_digits b.
  Proof.
    unfold plain_digits. split; [intro H; split; intros c Hc; apply H, in_or_app; auto|].
    intros [H1 H2] c Hc. apply in_app_or in Hc as [Hc|Hc]; auto.
  Qed.
  Lemma plain_cons c s : plain_digits (c :: s) <-> is_digit I c = is_ascii_digit c /\ plain_digits s.
  Proof.
    unfold plain_digits. split; [intro H; split; [apply H; left; reflexivity|intros x Hx; apply H; right; exact Hx]|].
    intros [H1 H2] x [<-|Hx]; auto.
  Qed.
  Lemma dig_iff c s : plain_digits (c :: s) -> is_digit I c = true <-> ascii_digit c.
  Proof. intro H. apply plain_cons in H as [-> _]. apply ascii_digit_iff. Qed.

  Ltac rseq H := let a := fresh "w" in let b := fresh "r" in let K := fresh "K" in
    apply reads_seq in H as (a & b & -> & K & H); [|reflexivity];
    repeat (first [ apply reads_one in K as -> | apply reads_lits in K as -> ]).
  Ltac rcls H := let c := fresh "c" in let K := fresh "Kc" in apply reads_cls in H as (c & -> & K).

  Lemma reads_two p q w : reads (Seq (Cls p) (Cls q)) w <-> exists a b, w = [a; b] /\ p a = true /\ q b = true.
  Proof.
    rewrite reads_seq by reflexivity. split.
    - intros (w1 & w2 & -> & H1 & H2). rcls H1. rcls H2. eexists _, _. split; [reflexivity|auto].
    - intros (a & b & -> & H1 & H2). exists [a], [b]. split; [reflexivity|]. split; apply reads_cls; eauto.
  Qed.
  Lemma reads_lit_two s p q w : reads (Seq (lits s) (Seq (Cls p) (Cls q))) w <->
    exists a b, w = u s ++ [a; b] /\ p a = true /\ q b = true.
  Proof.
    rewrite reads_seq by apply nogrp_lits. split.
    - intros (w1 & w2 & -> & H1 & H2). apply reads_lits in H1 as ->. apply reads_two in H2 as (a & b & -> & H). eauto.
    - intros (a & b & -> & H). exists (u s), [a; b]. split; [reflexivity|]. split; [apply reads_lits; reflexivity|].
      apply reads_two. eauto.
  Qed.
  Lemma reads_lit_one s p w : reads (Seq (lits s) (Cls p)) w <-> exists a, w = u s ++ [a] /\ p a = true.
  Proof.
    rewrite reads_seq by apply nogrp_lits. split.
    - intros (w1 & w2 & -> & H1 & H2). apply reads_lits in H1 as ->. rcls H2. eauto.
    - intros (a & -> & H). exists (u s), [a]. split; [reflexivity|]. split; [apply reads_lits; reflexivity|].
      apply reads_cls. eauto.
  Qed.
  Lemma reads_one_opt p q w : reads (Seq (Cls p) (opt (Cls q))) w <->
    exists a, p a = true /\ (w = [a] \/ exists b, w = [a; b] /\ q b = true).
  Proof.
    rewrite reads_seq by reflexivity. split.
    - intros (w1 & w2 & -> & H1 & H2). rcls H1. exists c. split; [assumption|].
      apply reads_opt in H2 as [H2| ->]; [rcls H2; right; eexists; split; [reflexivity|assumption]|left; reflexivity].
    - intros (a & H1 & [->|(b & -> & H2)]).
      + exists [a], []. split; [reflexivity|]. split; [apply reads_cls; eauto|apply reads_opt; right; reflexivity].
      + exists [a], [b]. split; [reflexivity|]. split; [apply reads_cls; eauto|apply reads_opt; left; apply reads_cls; eauto].
  Qed.
  Ltac plain P := repeat (apply plain_cons in P as [? P]).
  Ltac arith :=
    repeat match goal with
    | H : is_digit I _ = is_ascii_digit _ |- _ => rewrite H in *; clear H
    | H : is_ascii_digit _ = true |- _ => apply ascii_digit_iff in H
    | H : between _ _ _ = true |- _ => apply between_iff in H
    end; unfold ascii_digit, number_of in *; cbn [fold_left] in *.

  Definition octet_of (lo mid hi : N) : regex :=
    Alt (Seq (rng 49 57) (opt (dig I)))
        (Alt (Seq (lits "1") (Seq (dig I) (dig I)))
             (Alt (Seq (lits "2") (Seq (rng 48 mid) (dig I))) (Seq (lits (String (Ascii.ascii_of_N 50) (String (Ascii.ascii_of_N lo) EmptyString))) (rng 48 hi)))).
  Lemma octet_iff mid hi w : 48 <= mid <= 52 -> 48 <= hi <= 53 -> plain_digits w ->
    reads (octet_of (mid + 1) mid hi) w <->
    number_text w /\ no_leading_zero w /\ 1 <= number_of w <= 200 + 10 * (mid + 1 - 48) + (hi - 48).
  Proof.
    intros Hm Hh P. unfold octet_of. rewrite !reads_alt.
    unfold dig, d1, rng. rewrite reads_one_opt, !reads_lit_two, reads_lit_one.
    change (u "1") with [49]. change (u "2") with [50].
    replace (u (String (Ascii.ascii_of_N 50) (String (Ascii.ascii_of_N (mid + 1)) ""))) with [50; mid + 1].
    2:{ assert (C : mid = 48 \/ mid = 49 \/ mid = 50 \/ mid = 51 \/ mid = 52) by lia.
        destruct C as [->|[->|[->|[->| ->]]]]; reflexivity. }
    cbn [app]. split.
    - intros [(a & Ha & [->|(b & -> & Hb)])|[(a & b & -> & Ha & Hb)|[(a & b & -> & Ha & Hb)|(a & -> & Ha)]]];
        plain P; arith; rewrite number_text_iff; (split; [split; [discriminate|repeat constructor; unfold ascii_digit; lia]|]);
        (split; [apply nlz1; lia|lia]).
    - intros (Hn & Hz & Hr). destruct (number_cases w Hn) as [(a & -> & Ha)|[(a & b & -> & Ha & Hb)|[(a & b & c & -> & Ha & Hb & Hc)|(a & b & c & d & r & -> & Ha & Hge)]]];
        apply nlz1 in Hz.
      + left. exists a. split; [apply between_iff; unfold ascii_digit in Ha; lia|left; reflexivity].
      + left. exists a. split; [apply between_iff; unfold ascii_digit in Ha; lia|right]. exists b. split; [reflexivity|].
        plain P. rewrite H0. apply ascii_digit_iff; exact Hb.
      + right. plain P. arith. assert (C : a = 49 \/ a = 50) by lia. destruct C as [->| ->].
        * left. exists b, c. split; [reflexivity|]. rewrite H0, H1. split; apply ascii_digit_iff; unfold ascii_digit; lia.
        * right. destruct (N.le_gt_cases b mid) as [L|L].
          -- left. exists b, c. split; [reflexivity|]. rewrite H1. split; [apply between_iff; lia|apply ascii_digit_iff; unfold ascii_digit; lia].
          -- right. exists c. assert (b = mid + 1) by lia. subst b. split; [reflexivity|]. apply between_iff. lia.
      + unfold ascii_digit in Ha. lia.
  Qed.
  Lemma first_iff w : plain_digits w -> reads (first_octet I) w <-> number_text w /\ no_leading_zero w /\ 1 <= number_of w <= 223.
  Proof. intro P. apply (octet_iff 49 51 w); [lia|lia|exact P]. Qed.
  Lemma last_iff w : plain_digits w -> reads (last_octet I) w <-> number_text w /\ no_leading_zero w /\ 1 <= number_of w <= 254.
  Proof. intro P. apply (octet_iff 52 52 w); [lia|lia|exact P]. Qed.
  Lemma inner_iff w : plain_digits w -> reads (inner_octet I) w <-> middle_number w.
  Proof.
    intros P. unfold inner_octet, middle_number. rewrite !reads_alt, reads_seq by reflexivity.
    unfold dig, d1, rng. rewrite reads_lit_two, reads_lit_one.
    change (u "2") with [50]. change (u "25") with [50; 53]. cbn [app].
    change (upto 1 (Cls (is_digit I))) with (opt (Seq (Cls (is_digit I)) Eps)).
    assert (R : forall w, reads (Seq (Cls (is_digit I)) (opt (Seq (Cls (is_digit I)) Eps))) w <->
      exists a, is_digit I a = true /\ (w = [a] \/ exists b, w = [a; b] /\ is_digit I b = true)).
    { clear. intro w. rewrite reads_seq by reflexivity. split.
      - intros (w1 & w2 & -> & H1 & H2). rcls H1. exists c. split; [assumption|].
        apply reads_opt in H2 as [H2| ->]; [|left; reflexivity]. apply reads_seq in H2 as (w3 & w4 & -> & H2 & H3); [|reflexivity].
        rcls H2. apply reads_eps in H3 as ->. right; eexists; split; [reflexivity|assumption].
      - intros (a & H1 & [->|(b & -> & H2)]).
        + exists [a], []. split; [reflexivity|]. split; [apply reads_cls; eauto|apply reads_opt; right; reflexivity].
        + exists [a], [b]. split; [reflexivity|]. split; [apply reads_cls; eauto|apply reads_opt; left].
          apply reads_seq; [reflexivity|]. exists [b], []. split; [reflexivity|]. split; [apply reads_cls; eauto|apply reads_eps; reflexivity]. }
    split.
    - intros [(w1 & w2 & -> & H1 & H2)|[(a & b & -> & Ha & Hb)|(a & -> & Ha)]].
      + apply R in H2 as (a & Ha & H2). apply reads_opt in H1 as [H1| ->].
        * apply reads_lits in H1 as ->. change (u "1") with [49] in *.
          destruct H2 as [->|(b & -> & Hb)]; cbn [app] in *; plain P; arith; rewrite number_text_iff;
            (split; [split; [discriminate|repeat constructor; unfold ascii_digit; lia]|]); (split; [lia|]).
          -- left; cbn; lia.
          -- right; apply nlz1; lia.
        * destruct H2 as [->|(b & -> & Hb)]; cbn [app] in *; plain P; arith; rewrite number_text_iff;
            (split; [split; [discriminate|repeat constructor; unfold ascii_digit; lia]|]); (split; [lia|]); left; cbn; lia.
      + plain P; arith; rewrite number_text_iff; (split; [split; [discriminate|repeat constructor; unfold ascii_digit; lia]|]);
          (split; [lia|right; apply nlz1; lia]).
      + plain P; arith; rewrite number_text_iff; (split; [split; [discriminate|repeat constructor; unfold ascii_digit; lia]|]);
          (split; [lia|right; apply nlz1; lia]).
    - intros (Hn & Hr & Hz). destruct (number_cases w Hn) as [(a & -> & Ha)|[(a & b & -> & Ha & Hb)|[(a & b & c & -> & Ha & Hb & Hc)|(a & b & c & d & r & -> & Ha & Hge)]]].
      + left. exists [], [a]. split; [reflexivity|]. split; [apply reads_opt; right; reflexivity|]. apply R. exists a.
        plain P. rewrite H. split; [apply ascii_digit_iff; exact Ha|left; reflexivity].
      + left. exists [], [a; b]. split; [reflexivity|]. split; [apply reads_opt; right; reflexivity|]. apply R. exists a.
        plain P. rewrite H. split; [apply ascii_digit_iff; exact Ha|right]. exists b. split; [reflexivity|]. rewrite H0. apply ascii_digit_iff; exact Hb.
      + destruct Hz as [Hz|Hz]; [cbn in Hz; lia|]. apply nlz1 in Hz. plain P. arith. assert (C : a = 49 \/ a = 50) by lia. destruct C as [->| ->].
        * left. exists [49], [b; c]. split; [reflexivity|]. split; [apply reads_opt; left; apply reads_lits; reflexivity|].
          apply R. exists b. rewrite H0. split; [apply ascii_digit_iff; unfold ascii_digit; lia|right]. exists c. split; [reflexivity|].
          rewrite H1. apply ascii_digit_iff; unfold ascii_digit; lia.
        * right. destruct (N.le_gt_cases b 52) as [L|L].
          -- left. exists b, c. split; [reflexivity|]. rewrite H1. split; [apply between_iff; lia|apply ascii_digit_iff; unfold ascii_digit; lia].
          -- right. exists c. assert (b = 53) by lia. subst b. split; [reflexivity|]. apply between_iff. lia.
      + destruct Hz as [Hz|Hz]; [cbn in Hz; lia|]. apply nlz1 in Hz. unfold ascii_digit in Ha. lia.
  Qed.

  (** *** labels and domains *)
  Lemma wide_letter_iff c : url_letter c = true <-> wide_letter c.
  Proof.
    unfold url_letter, wide_letter, ascii_letter, is_lower, is_upper. rewrite !orb_true_iff, !between_iff. tauto.
  Qed.
  Lemma wide_char_iff c : url_word c = true <-> wide_char c.
  Proof.
    unfold url_word, wide_char. rewrite !orb_true_iff, wide_letter_iff, ascii_digit_iff, one_iff. tauto.
  Qed.
  Definition word (x : pystr) : Prop := x <> [] /\ forall c, In c x -> wide_char c.
  Lemma reads_word w : reads (plus (Cls url_word)) w <-> word w.
  Proof.
    rewrite reads_plus_cls, Forall_forall. unfold word.
    split; intros [H1 H2]; (split; [exact H1|]); intros c Hc; apply wide_char_iff, H2, Hc.
  Qed.
  Lemma word_app a b : word a -> word b -> word (a ++ b).
  Proof.
    intros [H1 H2] [H3 H4]. split; [destruct a; [congruence|discriminate]|]. intros c Hc. apply in_app_or in Hc as [Hc|Hc]; auto.
  Qed.
  Lemma reads_url_label w : reads url_label w <-> hyphenated w.
  Proof.
    unfold url_label, hyphenated. rewrite reads_seq by reflexivity. split.
    - intros (w1 & w2 & -> & H1 & H2). apply reads_word in H2. apply reads_star in H1 as (ws & -> & Hf); [|reflexivity].
      revert w2 H2. induction Hf as [|x ws [Hx _] _ IH].
      + intros w2 H2. exists [w2]. split; [discriminate|]. split; [constructor; [exact H2|constructor]|reflexivity].
      + intros w2 H2. cbn [List.concat]. rewrite <- app_assoc.
        destruct (IH w2 H2) as (l & Hl & Fl & E). rewrite E.
        apply reads_seq in Hx as (a & b & -> & Ha & Hb); [|reflexivity]. apply reads_word in Ha.
        apply reads_opt in Hb as [Hb| ->].
        * apply reads_one in Hb as ->. exists (a :: l). split; [discriminate|]. split; [constructor; [exact Ha|exact Fl]|].
          destruct l as [|p l]; [congruence|]. change (join (u "-") (a :: p :: l)) with (a ++ u "-" ++ join (u "-") (p :: l)).
          rewrite <- app_assoc. reflexivity.
        * destruct Fl as [|p l Hp Fl]; [congruence|]. exists ((a ++ p) :: l). split; [discriminate|].
          split; [constructor; [apply word_app; assumption|exact Fl]|]. rewrite app_nil_r.
          destruct l as [|p0 l]; [reflexivity|]. change (join (u "-") (p :: p0 :: l)) with (p ++ u "-" ++ join (u "-") (p0 :: l)).
          change (join (u "-") ((a ++ p) :: p0 :: l)) with ((a ++ p) ++ u "-" ++ join (u "-") (p0 :: l)).
          rewrite <- app_assoc. reflexivity.
    - intros (l & Hl & Fl & ->). induction Fl as [|x l Hx Fl IH]; [congruence|].
      destruct l as [|y l].
      + exists [], x. split; [reflexivity|]. split; [constructor|apply reads_word; exact Hx].
      + destruct IH as (w1 & w2 & E & H1 & H2); [discriminate|].
        exists ((x ++ u "-") ++ w1), w2. split.
        * change (join (u "-") (x :: y :: l)) with (x ++ u "-" ++ join (u "-") (y :: l)). rewrite E, <- !app_assoc. reflexivity.
        * split; [|exact H2]. apply reads_star in H1 as (ws & -> & Hf); [|reflexivity].
          apply reads_star; [reflexivity|]. exists ((x ++ u "-") :: ws). split; [reflexivity|]. constructor; [|exact Hf].
          split; [|destruct x; discriminate]. apply reads_seq; [reflexivity|]. exists x, (u "-"). split; [reflexivity|].
          split; [apply reads_word; exact Hx|apply reads_opt; left; apply reads_one; reflexivity].
  Qed.
  Lemma reads_domain w : reads url_domain w <-> domain_name w.
  Proof.
    unfold url_domain, domain_name.
    assert (D : forall w, reads (Seq url_label (Star (Seq (Cls (one dot)) url_label))) w <-> dotted_list hyphenated w).
    { intro v. rewrite reads_dotted by reflexivity. apply dotted_ext, reads_url_label. }
    assert (T : forall w, reads (Seq (Cls url_letter) (plus (Cls url_letter))) w <->
                          (2 <= length w)%nat /\ forall c, In c w -> wide_letter c).
    { intro v. rewrite reads_seq by reflexivity. split.
      - intros (w1 & w2 & -> & H1 & H2). rcls H1. apply reads_plus_cls in H2 as [Hne H2]. rewrite Forall_forall in H2.
        split; [destruct w2; [congruence|cbn; lia]|]. intros x [<-|Hx]; apply wide_letter_iff; auto.
      - intros [L H]. destruct v as [|a [|b v]]; cbn in L; [lia|lia|]. exists [a], (b :: v). split; [reflexivity|].
        split; [apply reads_cls; exists a; split; [reflexivity|apply wide_letter_iff, H; left; reflexivity]|].
        apply reads_plus_cls. split; [discriminate|]. apply Forall_forall. intros x Hx. apply wide_letter_iff, H. right; exact Hx. }
    assert (J : forall (l : list pystr) t, l <> [] -> join (u ".") (l ++ [t]) = join (u ".") l ++ u "." ++ t).
    { clear. intros l t. induction l as [|x l IH]; [congruence|]. intros _. destruct l as [|y l]; [reflexivity|].
      change (join (u ".") ((x :: y :: l) ++ [t])) with (x ++ u "." ++ join (u ".") ((y :: l) ++ [t])).
      rewrite IH by discriminate. change (join (u ".") (x :: y :: l)) with (x ++ u "." ++ join (u ".") (y :: l)).
      rewrite <- !app_assoc. reflexivity. }
    rewrite reads_seq by reflexivity. split.
    - intros (w1 & r & -> & H1 & H). apply reads_seq in H as (w2 & r2 & -> & H2 & H); [|reflexivity].
      apply reads_seq in H as (w3 & top & -> & H3 & H4); [|reflexivity]. apply reads_one in H3 as ->. apply T in H4 as [H4 H5].
      assert (Q : dotted_list hyphenated (w1 ++ w2)) by (apply D, reads_seq; [reflexivity|]; eauto).
      destruct Q as (l & Hl & Fl & E). exists l, top. rewrite J by exact Hl. rewrite app_assoc, E. auto.
    - intros (l & top & Hl & Fl & L & Ht & ->). rewrite J by exact Hl.
      assert (Q : dotted_list hyphenated (join (u ".") l)) by (exists l; auto).
      apply D, reads_seq in Q as (w1 & w2 & -> & H1 & H2); [|reflexivity].
      exists w1, (w2 ++ u "." ++ top). split; [rewrite <- app_assoc; reflexivity|]. split; [exact H1|].
      apply reads_seq; [reflexivity|]. exists w2, (u "." ++ top). split; [reflexivity|]. split; [exact H2|].
      apply reads_seq; [reflexivity|]. exists (u "."), top. split; [reflexivity|]. split; [apply reads_one; reflexivity|].
      apply T. auto.
  Qed.

  (** *** scheme, user, port, path *)
  Lemma word_i_iff l w :
    (forall c, In c l -> In c (u "httpf")) ->
    reads (seqs (map (fun c => Cls (lit_i c)) l)) w <-> Forall2 either_case l w.
  Proof.
    intro H. revert w. induction l as [|c l IH]; intro w; cbn [map seqs fold_right].
    - rewrite reads_eps. split; [intros ->; constructor|]. intro F; inversion F; reflexivity.
    - assert (L : forall x, lit_i c x = true <-> either_case c x).
      { intro x. specialize (H c (or_introl eq_refl)). unfold lit_i, either_case. rewrite !orb_true_iff, !andb_true_iff, !N.eqb_eq.
        change (u "httpf") with [104; 116; 116; 112; 102] in H. cbn [In] in H.
        assert (c <> 105 /\ c <> 107 /\ c <> 115) by (intuition subst; discriminate). tauto. }
      rewrite reads_seq by reflexivity. split.
      + intros (w1 & w2 & -> & H1 & H2). rcls H1. constructor; [apply L; assumption|].
        apply IH; [intros x Hx; apply H; right; exact Hx|exact H2].
      + intro F. inversion F as [|c' x l' w' Hx F' E1 E2]; subst. exists [x], w'. split; [reflexivity|].
        split; [apply reads_cls; exists x; split; [reflexivity|apply L; exact Hx]|].
        apply IH; [intros y Hy; apply H; right; exact Hy|exact F'].
  Qed.
  Lemma reads_scheme w : reads url_scheme w <-> exists s, url_scheme_text True s /\ w = s ++ u "://".
  Proof.
    assert (S : forall v, reads (Alt (Seq (word_i "http") (opt (Cls (lit_i (chr "s"))))) (word_i "ftp")) v <-> url_scheme_text True v).
    { assert (Lh : forall c, In c (u "http") -> In c (u "httpf")) by (intros c; cbn; tauto).
      assert (Lf : forall c, In c (u "ftp") -> In c (u "httpf")) by (intros c; cbn; tauto).
      assert (L : forall x, lit_i (chr "s") x = true <-> either_case 115 x \/ True /\ x = 383).
      { intro x. change (chr "s") with 115. unfold lit_i, either_case. rewrite !orb_true_iff, !andb_true_iff, !N.eqb_eq. intuition discriminate. }
      intro v. rewrite reads_alt, reads_seq by reflexivity. unfold word_i, url_scheme_text.
      rewrite (word_i_iff (u "ftp") v Lf).
      split.
      - intros [(w1 & w2 & -> & H1 & H2)|H]; [|auto]. apply (word_i_iff (u "http") w1 Lh) in H1.
        apply reads_opt in H2 as [H2| ->]; [|left; rewrite app_nil_r; exact H1]. rcls H2. right; right.
        exists w1, c. split; [exact H1|]. split; [apply L; assumption|reflexivity].
      - intros [H|[H|(h & s & H1 & H2 & ->)]]; [left|auto|left].
        + exists v, []. split; [rewrite app_nil_r; reflexivity|]. split; [apply (word_i_iff (u "http") v Lh); exact H|].
          apply reads_opt; right; reflexivity.
        + exists h, [s]. split; [reflexivity|]. split; [apply (word_i_iff (u "http") h Lh); exact H1|].
          apply reads_opt; left. apply reads_cls. exists s. split; [reflexivity|apply L; exact H2]. }
    unfold url_scheme. rewrite reads_seq by reflexivity. split.
    - intros (w1 & w2 & -> & H1 & H2). apply reads_lits in H2 as ->. apply S in H1. eauto.
    - intros (s & H & ->). exists s, (u "://"). split; [reflexivity|]. split; [apply S; exact H|apply reads_lits; reflexivity].
  Qed.
  Definition user_text (w : pystr) : Prop := exists x, x <> [] /\ no_space x /\ w = x ++ u "@".
  Lemma reads_user w : reads url_user w <-> maybe_text user_text w.
  Proof.
    unfold url_user, maybe_text, user_text. rewrite reads_opt. rewrite reads_seq by reflexivity. split.
    - intros [(w1 & r & -> & H1 & H)| ->]; [right|auto]. apply reads_non_spaces in H1 as [H1 H2].
      apply reads_seq in H as (w2 & w3 & -> & H3 & H4); [|reflexivity]. apply reads_one in H4 as ->.
      exists (w1 ++ w2). split; [destruct w1; [congruence|discriminate]|]. split; [|rewrite app_assoc; reflexivity].
      apply reads_opt in H3 as [H3| ->]; [|rewrite app_nil_r; exact H2].
      apply reads_seq in H3 as (w4 & w5 & -> & H4 & H5); [|reflexivity]. apply reads_one in H4 as ->. apply reads_non_space in H5.
      intros c Hc. apply in_app_or in Hc as [Hc|Hc]; [auto|]. apply in_app_or in Hc as [[<-|[]]|Hc]; [|auto].
      intro W. unfold white_space in W. cbn in W. lia.
    - intros [->|(x & H1 & H2 & ->)]; [auto|left]. exists x, (u "@"). split; [reflexivity|].
      split; [apply reads_non_spaces; auto|]. apply reads_seq; [reflexivity|]. exists [], (u "@"). split; [reflexivity|].
      split; [apply reads_opt; right; reflexivity|apply reads_one; reflexivity].
  Qed.
  Definition port_text (w : pystr) : Prop := exists x, number_text x /\ (2 <= length x <= 5)%nat /\ w = u ":" ++ x.
  Definition path_text (w : pystr) : Prop := exists x, no_space x /\ w = u "/" ++ x.
  Lemma reads_port w : plain_digits w -> reads (url_port I) w <-> maybe_text port_text w.
  Proof.
    intro P. unfold url_port, maybe_text, port_text. rewrite reads_opt, reads_seq by reflexivity. split.
    - intros [(w1 & r & -> & H1 & H)| ->]; [right|auto]. apply reads_one in H1 as ->. exists r. split; [|split; [|reflexivity]];
        (apply reads_seq in H as (a & b & -> & Ha & Hb); [|reflexivity]); apply reads_times_cls in Ha as [La Ha];
        apply reads_upto_cls in Hb as [Lb Hb]; [|rewrite app_length; lia].
      apply plain_app in P as [_ P]. split; [destruct a; discriminate|]. rewrite Forall_forall in *.
      intros c Hc. apply ascii_digit_iff. rewrite <- (P c Hc). apply in_app_or in Hc as [Hc|Hc]; auto.
    - intros [->|(x & [Hne Hx] & L & ->)]; [auto|left]. exists (u ":"), x. split; [reflexivity|]. split; [apply reads_one; reflexivity|].
      apply plain_app in P as [_ P].
      assert (D : Forall (fun c => is_digit I c = true) x).
      { apply Forall_forall. intros c Hc. rewrite (P c Hc). apply ascii_digit_iff, Hx, Hc. }
      destruct x as [|a [|b x]]; cbn in L; [lia|lia|]. apply reads_seq; [reflexivity|]. exists [a; b], x. split; [reflexivity|].
      inversion D as [|? ? Da D']; subst. inversion D' as [|? ? Db D'']; subst.
      split; [apply reads_times_cls; split; [reflexivity|repeat constructor; assumption]|].
      apply reads_upto_cls. split; [lia|exact D''].
  Qed.
  Lemma reads_path w : reads url_path w <-> maybe_text path_text w.
  Proof.
    unfold url_path, maybe_text, path_text. rewrite reads_opt, reads_seq by reflexivity. split.
    - intros [(w1 & r & -> & H1 & H)| ->]; [right|auto]. apply reads_one in H1 as ->. apply reads_non_space in H. eauto.
    - intros [->|(x & H & ->)]; [auto|left]. exists (u "/"), x. split; [reflexivity|].
      split; [apply reads_one; reflexivity|apply reads_non_space; exact H].
  Qed.

  (** *** addresses and the lookaheads *)
  Definition address_text (s a b c d : pystr) : Prop :=
    address s a b c d /\ (number_text a /\ no_leading_zero a /\ 1 <= number_of a <= 223) /\
    middle_number b /\ middle_number c /\ (number_text d /\ no_leading_zero d /\ 1 <= number_of d <= 254).
  Lemma reads_address w : plain_digits w -> reads (url_address I) w <-> exists a b c d, address_text w a b c d.
  Proof.
    intro P. unfold url_address, address_text, address. rewrite reads_seq by reflexivity. split.
    - intros (a & r & -> & Ha & H). apply reads_seq in H as (bc & r2 & -> & Hbc & H); [|reflexivity].
      cbn [times] in Hbc. apply reads_seq in Hbc as (db & c' & -> & Hdb & Hbc); [|reflexivity].
      apply reads_seq in Hbc as (dc & e & -> & Hdc & He); [|reflexivity]. apply reads_eps in He as ->.
      apply reads_seq in Hdb as (x & b & -> & Hx & Hb); [|reflexivity]. apply reads_one in Hx as ->.
      apply reads_seq in Hdc as (x & c & -> & Hx & Hc); [|reflexivity]. apply reads_one in Hx as ->.
      apply reads_seq in H as (x & d & -> & Hx & Hd); [|reflexivity]. apply reads_one in Hx as ->.
      rewrite app_nil_r in *. rewrite !plain_app in P. destruct P as (Pa & ((_ & Pb) & _ & Pc) & _ & Pd).
      exists a, b, c, d. split; [rewrite <- !app_assoc; reflexivity|].
      split; [apply first_iff; assumption|]. split; [apply inner_iff; assumption|]. split; [apply inner_iff; assumption|apply last_iff; assumption].
    - intros (a & b & c & d & -> & Ha & Hb & Hc & Hd). rewrite !plain_app in P. destruct P as (Pa & _ & Pb & _ & Pc & _ & Pd).
      exists a, (((u "." ++ b) ++ (u "." ++ c) ++ []) ++ (u "." ++ d)). split; [rewrite app_nil_r, <- !app_assoc; reflexivity|].
      split; [apply first_iff; assumption|]. apply reads_seq; [reflexivity|]. eexists _, _. split; [reflexivity|]. split.
      + cbn [times]. apply reads_seq; [reflexivity|]. eexists _, _. split; [reflexivity|]. split.
        * apply reads_seq; [reflexivity|]. eexists _, _. split; [reflexivity|]. split; [apply reads_one; reflexivity|apply inner_iff; assumption].
        * apply reads_seq; [reflexivity|]. eexists _, _. split; [reflexivity|]. split; [|apply reads_eps; reflexivity].
          apply reads_seq; [reflexivity|]. eexists _, _. split; [reflexivity|]. split; [apply reads_one; reflexivity|apply inner_iff; assumption].
      + apply reads_seq; [reflexivity|]. eexists _, _. split; [reflexivity|]. split; [apply reads_one; reflexivity|apply last_iff; assumption].
  Qed.
  (** one to three digits *)
  Definition short_number (w : pystr) : Prop := number_text w /\ (length w <= 3)%nat.
  Lemma reads_dotted_one w : plain_digits w -> reads (Seq (Cls (one dot)) (Seq (dig I) (upto 2 (dig I)))) w <->
    exists x, short_number x /\ w = u "." ++ x.
  Proof.
    intro P. rewrite reads_seq by reflexivity. split.
    - intros (w1 & x & -> & H1 & H). apply reads_one in H1 as ->. exists x. split; [|reflexivity].
      apply plain_app in P as [_ P].
      apply reads_seq in H as (a & b & -> & Ha & Hb); [|reflexivity]. apply reads_cls in Ha as (c & -> & Hc).
      apply reads_upto_cls in Hb as [L Hb]. rewrite Forall_forall in Hb. split; [|cbn; lia]. split; [discriminate|].
      intros z Hz. apply ascii_digit_iff. rewrite <- (P z Hz). destruct Hz as [<-|Hz]; auto.
    - intros (x & [[Hne Hx] L] & ->). exists (u "."), x. split; [reflexivity|]. split; [apply reads_one; reflexivity|].
      apply plain_app in P as [_ P].
      assert (D : forall c, In c x -> is_digit I c = true) by (intros c Hc; rewrite (P c Hc); apply ascii_digit_iff, Hx, Hc).
      destruct x as [|a x]; [congruence|]. apply reads_seq; [reflexivity|]. exists [a], x. split; [reflexivity|].
      split; [apply reads_cls; exists a; split; [reflexivity|apply D; left; reflexivity]|].
      apply reads_upto_cls. split; [cbn in L; lia|]. apply Forall_forall. intros c Hc. apply D; right; exact Hc.
  Qed.
  Lemma reads_dotted_digits n w : plain_digits w -> reads (dotted_digits I n) w <->
    exists l, length l = n /\ Forall short_number l /\ w = List.concat (map (fun x => u "." ++ x) l).
  Proof.
    unfold dotted_digits. revert w. induction n as [|n IH]; intros w P; cbn [times].
    - rewrite reads_eps. split; [intros ->; exists []; auto|]. intros (l & L & _ & ->). destruct l; [reflexivity|discriminate].
    - rewrite reads_seq by reflexivity. split.
      + intros (w1 & w2 & -> & H1 & H2). apply plain_app in P as [P1 P2].
        apply (reads_dotted_one _ P1) in H1 as (x & Hx & ->). apply (IH _ P2) in H2 as (l & L & F & ->).
        exists (x :: l). split; [cbn; lia|]. split; [constructor; assumption|reflexivity].
      + intros (l & L & F & ->). destruct F as [|x l Hx F]; [discriminate|]. cbn [map List.concat] in P.
        apply plain_app in P as [P1 P2]. exists (u "." ++ x), (List.concat (map (fun x => u "." ++ x) l)). split; [reflexivity|].
        split; [apply reads_dotted_one; [exact P1|eauto]|]. apply IH; [exact P2|]. exists l. cbn in L. auto.
  Qed.
  Lemma split_dot x y r r' : ~ In 46 x -> ~ In 46 y -> x ++ u "." ++ r = y ++ u "." ++ r' -> x = y /\ r = r'.
  Proof.
    change (u ".") with [46]. revert y; induction x as [|c x IH]; intros [|d y] Hx Hy E; cbn [app] in E.
    - injection E as ->. auto.
    - injection E as <- _. destruct Hy; left; reflexivity.
    - injection E as -> _. destruct Hx; left; reflexivity.
    - injection E as -> E. destruct (IH y) as [-> ->]; [intro; apply Hx; right; assumption|intro; apply Hy; right; assumption|exact E|auto].
  Qed.
  Lemma number_no_dot w : number_text w -> ~ In 46 w.
  Proof. intros [_ H] Hi. apply H in Hi. unfold ascii_digit in Hi. lia. Qed.
  Lemma short_of w : number_text w -> number_of w <= 255 -> ((length w <= 2)%nat \/ no_leading_zero w) -> short_number w.
  Proof.
    intros Hn Hr Hz. split; [exact Hn|].
    destruct (number_cases w Hn) as [(a & -> & _)|[(a & b & -> & _)|[(a & b & c & -> & _)|(a & b & c & d & r & -> & Ha & Hge)]]]; cbn; try lia.
    destruct Hz as [Hz|Hz]; [cbn in Hz; lia|]. apply nlz1 in Hz. unfold ascii_digit in Ha. lia.
  Qed.
  (** a number with few digits is known by its value *)
  Lemma text_of_number w : number_text w -> ((length w <= 2)%nat \/ no_leading_zero w) ->
    (forall p q, 1 <= p <= 9 -> q <= 9 -> number_of w = 10 * p + q -> w = [48 + p; 48 + q]) /\
    (forall p q r, 1 <= p <= 9 -> q <= 9 -> r <= 9 -> number_of w = 100 * p + 10 * q + r -> w = [48 + p; 48 + q; 48 + r]).
  Proof.
    intros Hn Hz.
    destruct (number_cases w Hn) as [(a & -> & Ha)|[(a & b & -> & Ha & Hb)|[(a & b & c & -> & Ha & Hb & Hc)|(a & b & c & d & r & -> & Ha & Hge)]]];
      unfold ascii_digit in *.
    - unfold number_of; cbn [fold_left]. split; intros; lia.
    - unfold number_of; cbn [fold_left]. split; intros; [|lia]. f_equal; [|f_equal]; lia.
    - unfold number_of; cbn [fold_left].
      destruct Hz as [Hz|Hz]; [cbn in Hz; lia|]. apply nlz1 in Hz. split; intros; [lia|]. f_equal; [|f_equal; [|f_equal]]; lia.
    - destruct Hz as [Hz|Hz]; [cbn in Hz; lia|]. apply nlz1 in Hz. split; intros; lia.
  Qed.
  Definition looks (p : regex) (s : pystr) : Prop := exists w t, s = w ++ t /\ reads p w.
  Lemma looks_seq a n s : nogrp a = true -> plain_digits s ->
    looks (Seq a (dotted_digits I n)) s <->
    exists w l t, s = w ++ List.concat (map (fun x => u "." ++ x) l) ++ t /\ reads a w /\ length l = n /\ Forall short_number l.
  Proof.
    intros Na P. unfold looks. split.
    - intros (w & t & -> & H). apply reads_seq in H as (w1 & w2 & -> & H1 & H2); [|exact Na].
      apply reads_dotted_digits in H2 as (l & L & F & ->); [|rewrite !plain_app in P; tauto].
      exists w1, l, t. rewrite <- app_assoc. auto.
    - intros (w & l & t & -> & H & L & F). exists (w ++ List.concat (map (fun x => u "." ++ x) l)), t.
      rewrite <- app_assoc. split; [reflexivity|]. apply reads_seq; [exact Na|]. eexists _, _. split; [reflexivity|]. split; [exact H|].
      apply reads_dotted_digits; [rewrite !plain_app in P; tauto|]. eauto.
  Qed.
  Lemma middle_short w : middle_number w -> short_number w.
  Proof. intros (H1 & H2 & H3). apply short_of; assumption. Qed.

  Section Look.
    Variables (a b c d rest : pystr).
    Hypothesis P : plain_digits (a ++ u "." ++ b ++ u "." ++ c ++ u "." ++ d ++ rest).
    Hypothesis Ha : number_text a /\ no_leading_zero a /\ 1 <= number_of a <= 223.
    Hypothesis Hb : middle_number b.
    Hypothesis Hc : middle_number c.
    Hypothesis Hd : number_text d /\ no_leading_zero d /\ 1 <= number_of d <= 254.
    Let text := a ++ u "." ++ b ++ u "." ++ c ++ u "." ++ d ++ rest.
    Lemma short_d : short_number d.
    Proof using Hd. clear P Ha Hb Hc. destruct Hd as (H1 & H2 & H3). apply short_of; auto; lia. Qed.
    (** lookaheads on the first number *)
    Lemma look_one x : ~ In 46 (u x) -> looks (Seq (lits x) (dotted_digits I 3)) text <-> a = u x.
    Proof.
      intro Hx. rewrite looks_seq by (try apply nogrp_lits; exact P). split.
      - intros (w & l & t & E & H1 & L & F). apply reads_lits in H1 as ->.
        destruct l as [|y l]; [discriminate|]. cbn [map List.concat] in E. rewrite <- !app_assoc in E.
        apply split_dot in E as [-> _]; [reflexivity|apply number_no_dot, Ha|exact Hx].
      - intros ->. exists (u x), [b; c; d], rest. split; [unfold text; cbn [map List.concat]; rewrite app_nil_r, <- !app_assoc; reflexivity|].
        split; [apply reads_lits; reflexivity|]. split; [reflexivity|].
        repeat (apply Forall_cons; [first [apply short_d|apply middle_short; assumption]|]); apply Forall_nil.
    Qed.
    (** lookaheads on the first two numbers *)
    Lemma look_two x r (R : pystr -> Prop) : ~ In 46 (u x) -> nogrp r = true ->
      (forall w, plain_digits w -> reads r w <-> R w) -> (forall w, R w -> ~ In 46 w) ->
      (looks (Seq (Seq (lits (x ++ ".")) r) (dotted_digits I 2)) text) <-> (a = u x /\ R b).
    Proof.
      intros Hx Nr HR Hdot.
      assert (N : nogrp (Seq (lits (x ++ ".")) r) = true) by (cbn [nogrp]; rewrite nogrp_lits, Nr; reflexivity).
      assert (Eu : u (x ++ ".") = u x ++ u ".").
      { unfold u. generalize x. clear. intro x. induction x as [|ch x IH]; [reflexivity|]. cbn. f_equal. exact IH. }
      rewrite looks_seq by assumption. split.
      - intros (w & l & t & E & H1 & L & F). apply reads_seq in H1 as (w1 & w2 & -> & H1 & H2); [|apply nogrp_lits].
        apply reads_lits in H1 as ->. rewrite Eu in E.
        destruct l as [|y l]; [discriminate|]. cbn [map List.concat] in E. rewrite <- !app_assoc in E.
        pose proof P as P'. fold text in P'. rewrite E in P'. rewrite !plain_app in P'.
        assert (R2 : R w2) by (apply HR; tauto).
        apply split_dot in E as [-> E]; [|apply number_no_dot, Ha|exact Hx].
        apply split_dot in E as [-> _]; [auto|apply number_no_dot, Hb|apply Hdot, R2].
      - intros [-> Rb]. exists (u (x ++ ".") ++ b), [c; d], rest.
        split; [unfold text; rewrite Eu; cbn [map List.concat]; rewrite app_nil_r, <- !app_assoc; reflexivity|].
        split; [|split; [reflexivity|repeat (apply Forall_cons; [first [apply short_d|apply middle_short; assumption]|]); apply Forall_nil]].
        apply reads_seq; [apply nogrp_lits|]. exists (u (x ++ ".")), b. split; [reflexivity|]. split; [apply reads_lits; reflexivity|].
        apply HR; [|exact Rb]. rewrite !plain_app in P. tauto.
    Qed.

    Lemma value_two (w : pystr) p q : w = [48 + p; 48 + q] -> p <= 9 -> q <= 9 -> number_of w = 10 * p + q.
    Proof using. clear. intros -> Hp Hq. unfold number_of. cbn [fold_left]. lia. Qed.
    Lemma private_iff : Exists (fun p => looks p text) (private_nets I) <-> private_net (number_of a) (number_of b).
    Proof.
      assert (Na : (length a <= 2)%nat \/ no_leading_zero a) by (right; apply Ha).
      assert (A2 : forall p q, 1 <= p <= 9 -> q <= 9 -> number_of a = 10 * p + q <-> a = [48 + p; 48 + q]).
      { intros p q Hp Hq. split; [apply (text_of_number a (proj1 Ha) Na); assumption|].
        intros ->. unfold number_of. cbn [fold_left]. lia. }
      assert (A3 : forall p q r, 1 <= p <= 9 -> q <= 9 -> r <= 9 -> number_of a = 100 * p + 10 * q + r <-> a = [48 + p; 48 + q; 48 + r]).
      { intros p q r Hp Hq Hr. split; [apply (text_of_number a (proj1 Ha) Na); assumption|].
        intros ->. unfold number_of. cbn [fold_left]. lia. }
      destruct Hb as (Nb & Rb & Zb).
      assert (B3 : forall p q r, 1 <= p <= 9 -> q <= 9 -> r <= 9 -> number_of b = 100 * p + 10 * q + r <-> b = [48 + p; 48 + q; 48 + r]).
      { intros p q r Hp Hq Hr. split; [apply (text_of_number b Nb Zb); assumption|].
        intros ->. unfold number_of. cbn [fold_left]. lia. }
      unfold private_nets, private_net. rewrite !Exists_cons, Exists_nil.
      rewrite (look_one "10"), (look_one "127") by (cbn; intuition discriminate).
      assert (L : forall x y, ~ In 46 (u x) -> ~ In 46 (u y) -> looks (Seq (lits (x ++ "." ++ y)) (dotted_digits I 2)) text <-> a = u x /\ b = u y).
      { intros x y Hx Hy.
        rewrite <- (look_two x (lits y) (fun w => w = u y) Hx (nogrp_lits y) (fun w _ => reads_lits y w)) by (intros w ->; exact Hy).
        assert (Q : forall w, reads (lits (x ++ "." ++ y)) w <-> reads (Seq (lits (x ++ ".")) (lits y)) w).
        { intro w. rewrite reads_seq by apply nogrp_lits. rewrite reads_lits.
          assert (Eu : forall x y, u (x ++ y) = u x ++ u y).
          { unfold u. clear. intros x y. induction x as [|ch x IH]; [reflexivity|]. cbn. f_equal. exact IH. }
          rewrite !Eu. split.
          - intros ->. exists (u (x ++ ".")), (u y). rewrite !reads_lits, Eu, <- app_assoc. auto.
          - intros (w1 & w2 & -> & H1 & H2). apply reads_lits in H1, H2. subst. rewrite Eu, <- app_assoc. reflexivity. }
        rewrite !looks_seq by (try exact P; cbn [nogrp]; rewrite ?nogrp_lits; reflexivity).
        split; intros (w & l & t & E & H & LF); exists w, l, t; (split; [exact E|]); (split; [apply Q; exact H|exact LF]). }
      rewrite (L "169"%string "254"%string), (L "192"%string "168"%string) by (cbn; intuition discriminate).
      rewrite (look_two "172" _ (fun w => exists x y, w = [48 + x; 48 + y] /\ ((x = 1 /\ 6 <= y <= 9) \/ (x = 2 /\ y <= 9) \/ (x = 3 /\ y <= 1)))).
      - change (u "10") with [49; 48]. change (u "127") with [49; 50; 55]. change (u "169") with [49; 54; 57]. change (u "254") with [50; 53; 52].
        change (u "192") with [49; 57; 50]. change (u "168") with [49; 54; 56]. change (u "172") with [49; 55; 50].
        rewrite <- (A2 1 0), <- (A3 1 2 7), <- (A3 1 6 9), <- (B3 2 5 4), <- (A3 1 9 2), <- (B3 1 6 8), <- (A3 1 7 2) by lia.
        change (10 * 1 + 0) with 10. change (100 * 1 + 10 * 2 + 7) with 127. change (100 * 1 + 10 * 6 + 9) with 169.
        change (100 * 2 + 10 * 5 + 4) with 254. change (100 * 1 + 10 * 9 + 2) with 192. change (100 * 1 + 10 * 6 + 8) with 168.
        change (100 * 1 + 10 * 7 + 2) with 172.
        assert (T : (exists x y, b = [48 + x; 48 + y] /\ ((x = 1 /\ 6 <= y <= 9) \/ (x = 2 /\ y <= 9) \/ (x = 3 /\ y <= 1))) <-> 16 <= number_of b <= 31).
        { split.
          - intros (x & y & E & D). rewrite (value_two b x y E) by lia. lia.
          - intro R. assert (D : exists x y, number_of b = 10 * x + y /\ ((x = 1 /\ 6 <= y <= 9) \/ (x = 2 /\ y <= 9) \/ (x = 3 /\ y <= 1))).
            { destruct (N.le_gt_cases (number_of b) 19); [exists 1, (number_of b - 10); lia|].
              destruct (N.le_gt_cases (number_of b) 29); [exists 2, (number_of b - 20); lia|]. exists 3, (number_of b - 30); lia. }
            destruct D as (x & y & E & D). exists x, y. split; [|exact D]. apply (text_of_number b Nb Zb); [lia|lia|exact E]. }
        rewrite T. tauto.
      - cbn; intuition discriminate.
      - reflexivity.
      - intros w Pw. rewrite !reads_alt. unfold rng, dig, d1. rewrite !reads_lit_one. change (u "1") with [49]. change (u "2") with [50]. change (u "3") with [51].
        cbn [app]. split.
        + intros [(x & -> & H)|[(x & -> & H)|(x & -> & H)]].
          * apply between_iff in H. exists 1, (x - 48). split; [f_equal; f_equal; lia|lia].
          * apply plain_cons in Pw as [_ Pw]. apply (dig_iff _ _ Pw) in H. unfold ascii_digit in H.
            exists 2, (x - 48). split; [f_equal; f_equal; lia|lia].
          * apply between_iff in H. exists 3, (x - 48). split; [f_equal; f_equal; lia|lia].
        + intros (x & y & -> & [[-> D]|[[-> D]|[-> D]]]); [left|right; left|right; right]; exists (48 + y); (split; [reflexivity|]).
          * apply between_iff. lia.
          * apply plain_cons in Pw as [_ Pw]. apply (dig_iff _ _ Pw). unfold ascii_digit. lia.
          * apply between_iff. lia.
      - intros w (x & y & -> & D) [H|[H|[]]]; lia.
    Qed.
  End Look.

  Lemma run_guarded ps k s cs y : Forall (fun p => nogrp p = true) ps ->
    In y (run (fold_right (fun p r => Seq (NotLook p) r) k ps) (s, cs)) <->
    ~ Exists (fun p => looks p s) ps /\ In y (run k (s, cs)).
  Proof.
    intro F. induction F as [|p ps Np F IH]; cbn [fold_right].
    - rewrite Exists_nil. tauto.
    - rewrite run_seq, Exists_cons. split.
      + intros (z & H1 & H2). apply run_not in H1 as [-> N]; [|exact Np]. apply IH in H2. unfold looks at 1. tauto.
      + intros [N H]. exists (s, cs). split; [apply run_not; [exact Np|]; split; [reflexivity|]; unfold looks at 1 in N; tauto|]. apply IH. tauto.
  Qed.
  Lemma url_match s : plain_digits s ->
    matches (url_regex I) s = true <-> exists w t, s = w ++ t /\ final_newline t /\ url True w.
  Proof.
    intro P. unfold matches, re_match.
    assert (R : forall y, In y (run (url_regex I) (s, [])) <->
      exists scheme user host port path, s = scheme ++ u "://" ++ user ++ host ++ port ++ path ++ fst y /\ snd y = [] /\
        final_newline (fst y) /\ url_scheme_text True scheme /\ maybe_text user_text user /\
        (public_address host \/ domain_name host) /\ maybe_text port_text port /\ maybe_text path_text path).
    { intro y. unfold url_regex. rewrite run_seq. split.
      - intros (z & H1 & H). apply run_nogrp in H1 as (w0 & t0 & E0 & H1 & ->); [|reflexivity].
        apply reads_seq in H1 as (w1 & user & -> & H1 & H2); [|reflexivity]. apply reads_scheme in H1 as (scheme & H1 & ->). apply reads_user in H2.
        apply run_seq in H as (z & Hh & H). apply run_seq in H as (z2 & Hp & H).
        assert (Hz : exists host, t0 = host ++ fst z /\ z = (fst z, []) /\ (public_address host \/ domain_name host)).
        { unfold url_host in Hh. apply run_alt in Hh as [Hh|Hh].
          - apply run_guarded in Hh as [N Hh]; [|unfold private_nets; repeat constructor].
            apply run_nogrp in Hh as (host & t1 & -> & H3 & ->); [|reflexivity].
            assert (Ph : plain_digits (host ++ t1)) by (rewrite E0, plain_app in P; tauto).
            apply reads_address in H3 as (a & b & c & d & E & Ha & Hb & Hc & Hd); [|rewrite plain_app in Ph; tauto].
            exists host. split; [reflexivity|]. split; [reflexivity|]. left. exists a, b, c, d.
            rewrite E in N, Ph. rewrite <- !app_assoc in N, Ph. rewrite (private_iff a b c d t1 Ph Ha Hb Hc Hd) in N. tauto.
          - apply run_nogrp in Hh as (host & t1 & -> & H3 & ->); [|reflexivity]. apply reads_domain in H3. eauto. }
        destruct Hz as (host & -> & Ez & Hhost). rewrite Ez in Hp.
        apply run_nogrp in Hp as (w2 & t2 & E2 & Hp & ->); [|reflexivity].
        apply reads_seq in Hp as (port & path & -> & H3 & H4); [|reflexivity]. apply reads_path in H4.
        apply run_eol in H as [-> He]. rewrite E2 in E0.
        apply reads_port in H3; [|rewrite E0, !plain_app in P; tauto].
        exists scheme, user, host, port, path. cbn [fst snd]. split; [rewrite E0, <- !app_assoc; reflexivity|]. auto 10.
      - intros (scheme & user & host & port & path & E & Es & He & H1 & H2 & H3 & H4 & H5). destruct y as [t cs]. cbn [fst snd] in *. subst cs.
        exists (host ++ port ++ path ++ t, []). split.
        + apply run_nogrp; [reflexivity|]. exists ((scheme ++ u "://") ++ user), (host ++ port ++ path ++ t).
          split; [rewrite E, <- !app_assoc; reflexivity|]. split; [|reflexivity]. apply reads_seq; [reflexivity|].
          eexists _, _. split; [reflexivity|]. split; [apply reads_scheme; eauto|apply reads_user; exact H2].
        + apply run_seq. exists (port ++ path ++ t, []). split.
          * unfold url_host. apply run_alt. destruct H3 as [(a & b & c & d & Ea & Hv)|H3].
            -- left. assert (Ph : plain_digits (host ++ port ++ path ++ t)) by (rewrite E, !plain_app in P; rewrite !plain_app; tauto).
               assert (Q : address_text host a b c d) by (unfold address_text; tauto).
               apply run_guarded; [unfold private_nets; repeat constructor|]. split.
               ++ destruct Q as (_ & Ha & Hb & Hc & Hd). rewrite Ea in Ph |- *. rewrite <- !app_assoc in Ph |- *.
                  rewrite (private_iff a b c d _ Ph Ha Hb Hc Hd). tauto.
               ++ apply run_nogrp; [reflexivity|]. exists host, (port ++ path ++ t). split; [reflexivity|]. split; [|reflexivity].
                  apply reads_address; [rewrite plain_app in Ph; tauto|]. eauto.
            -- right. apply run_nogrp; [reflexivity|]. exists host, (port ++ path ++ t). split; [reflexivity|]. split; [|reflexivity].
               apply reads_domain; exact H3.
          * apply run_seq. exists (t, []). split; [|apply run_eol; auto].
            apply run_nogrp; [reflexivity|]. exists (port ++ path), t. split; [rewrite <- app_assoc; reflexivity|]. split; [|reflexivity].
            apply reads_seq; [reflexivity|]. exists port, path. split; [reflexivity|].
            split; [apply reads_port; [rewrite E, !plain_app in P; tauto|exact H4]|apply reads_path; exact H5]. }
    assert (G : (exists y, In y (run (url_regex I) (s, []))) <-> exists w t, s = w ++ t /\ final_newline t /\ url True w).
    { split.
      - intros (y & Hy). apply R in Hy as (scheme & user & host & port & path & E & _ & He & H).
        exists (scheme ++ u "://" ++ user ++ host ++ port ++ path), (fst y). split; [rewrite <- !app_assoc; exact E|]. split; [exact He|].
        exists scheme, user, host, port, path. auto.
      - intros (w & t & E & He & (scheme & user & host & port & path & Ew & H)). exists (t, []). apply R.
        exists scheme, user, host, port, path. cbn [fst snd]. split; [rewrite E, Ew, <- !app_assoc; reflexivity|]. auto. }
    rewrite <- G. destruct (run (url_regex I) (s, [])) as [|y l].
    - split; [discriminate|]. intros [y []].
    - split; [intros _; exists y; left; reflexivity|reflexivity].
  Qed.
End Url.

(** Exactly which texts the url format accepts, when the decimal digits in the
    text are the ten ASCII ones. *)
Theorem C75_url_exact X s : str_of X (VStr s) = s ->
  (forall c, In c s -> digit (iso X) c <> None -> ascii_digit c) -> digits_ok (iso X) ->
  format_url X (VStr s) = Ok true <-> exists w t, s = w ++ t /\ final_newline t /\ url True w.
Proof.
  intros Hs Hd (D1 & _ & _). unfold format_url. rewrite Hs. rewrite <- (url_match (iso X)); [split; congruence|].
  intros c Hc. specialize (Hd c Hc). unfold is_digit. specialize (D1 c). destruct (is_ascii_digit c) eqn:E.
  - rewrite D1; reflexivity.
  - destruct (digit (iso X) c); [|reflexivity]. exfalso. assert (A : ascii_digit c) by (apply Hd; discriminate).
    apply ascii_digit_iff in A. congruence.
Qed.
Lemma ascii_digits X s : digits_ok X -> ascii_text s -> forall c, In c s -> digit X c <> None -> ascii_digit c.
Proof.
  intros (_ & D2 & _) Ha c Hc Hd. destruct (is_ascii_digit c) eqn:E; [apply ascii_digit_iff; exact E|].
  destruct Hd. apply D2; [apply Ha, Hc|exact E].
Qed.
Lemma url_ascii s : ascii_text s -> url True s <-> url False s.
Proof.
  intro Ha. split; intros (scheme & user & host & port & path & E & H1 & H); exists scheme, user, host, port, path;
    (split; [exact E|]); (split; [|exact H]); destruct H1 as [H1|[H1|(h & z & H1 & [H2|[H2 H3]] & E2)]];
    try (left; exact H1); try (right; left; exact H1).
  - right; right. exists h, z. auto.
  - exfalso. subst z. assert (383 < 128); [|lia]. apply Ha. rewrite E, E2. apply in_or_app; left. apply in_or_app; right; left; reflexivity.
  - right; right. exists h, z. auto.
  - destruct H2.
Qed.
Theorem C75_url_partial X s : str_of X (VStr s) = s -> digits_ok (iso X) -> ascii_text s -> ~ In 10 s ->
  (format_url X (VStr s) = Ok true <-> url False s) /\ (format_url X (VStr s) = Ok false <-> ~ url False s).
Proof.
  intros Hs Hd Ha Hn.
  assert (H : format_url X (VStr s) = Ok true <-> url False s).
  { rewrite C75_url_exact by (try assumption; apply ascii_digits; assumption). rewrite <- url_ascii by exact Ha. split.
    - intros (w & t & E & Ht & H). rewrite (no_newline s w t Hn E Ht). exact H.
    - intro H. exists s, []. rewrite app_nil_r. split; [reflexivity|]. split; [left; reflexivity|exact H]. }
  split; [exact H|]. rewrite <- H. unfold format_url. rewrite Hs. destruct (matches _ s); split; congruence.
Qed.

(** ** C76: private addresses *)
(** The host is 10.0.0.1; the format takes it for a user name. *)
Theorem C76_private_refuted : exists X s h tail, (forall s, str_of X (VStr s) = s) /\ digits_ok (iso X) /\
  format_url X (VStr s) = Ok true /\ url_host_is s h tail /\ private_address h.
Proof.
  exists fmt_ex, (u "http://10.0.0.1/@example.com"), (u "10.0.0.1"), (u "/@example.com").
  split; [reflexivity|]. split.
  { split; [|split].
    - intros c H. cbn. rewrite H. reflexivity.
    - intros c _ H. cbn. rewrite H. reflexivity.
    - intros c v H. cbn in H. destruct (is_ascii_digit c) eqn:E; [|discriminate]. injection H as <-.
      apply ascii_digit_iff in E. unfold ascii_digit in E. lia. }
  split; [vm_compute; reflexivity|]. split.
  - exists (u "http"), [], []. split; [reflexivity|].
    split; [intros c Hc; unfold ascii_letter; cbn in Hc; intuition lia|].
    split; [intros c Hc F; cbn in Hc, F; intuition lia|].
    split; [left; reflexivity|]. split; [intros c Hc; cbn in Hc; intuition lia|]. split; [intros c Hc; cbn in Hc; intuition lia|].
    split; [left; reflexivity|]. right. exists 47, (u "@example.com"). split; [reflexivity|cbn; auto].
  - exists (u "10"), (u "0"), (u "0"), (u "1"). split; [reflexivity|]. split; [|left; reflexivity].
    repeat (apply Forall_cons; [split; [discriminate|intros c Hc; cbn in Hc; unfold ascii_digit; intuition lia]|]); apply Forall_nil.
Qed.
Lemma span_until (P : N -> Prop) x y c d r r' : (forall z, In z x -> ~ P z) -> (forall z, In z y -> ~ P z) -> P c -> P d ->
  x ++ c :: r = y ++ d :: r' -> x = y /\ c = d /\ r = r'.
Proof.
  revert y; induction x as [|a x IH]; intros [|b y] Hx Hy Hc Hd E; cbn [app] in E.
  - injection E as -> ->. auto.
  - injection E as <- _. destruct (Hy c); [left; reflexivity|exact Hc].
  - injection E as -> _. destruct (Hx d); [left; reflexivity|exact Hd].
  - injection E as -> E. destruct (IH y) as (-> & -> & ->); auto; intros z Hz; [apply Hx|apply Hy]; right; exact Hz.
Qed.
Lemma span_end (P : N -> Prop) x y c r : (forall z, In z x -> ~ P z) -> P c -> x <> y ++ c :: r.
Proof. intros H Hc ->. apply (H c); [apply in_or_app; right; left; reflexivity|exact Hc]. Qed.
Lemma private_chars h : private_address h -> h <> [] /\ forall c, In c h -> c = 46 \/ ascii_digit c.
Proof.
  intros (a & b & c & d & -> & F & _). inversion F as [|? ? [Ha Ha'] F1]; subst. inversion F1 as [|? ? [_ Hb] F2]; subst.
  inversion F2 as [|? ? [_ Hc] F3]; subst. inversion F3 as [|? ? [_ Hd] _]; subst.
  split; [destruct a; [congruence|discriminate]|]. intros z Hz.
  repeat (apply in_app_or in Hz as [Hz|Hz]); try (right; auto; fail); left; destruct Hz as [<-|[]]; reflexivity.
Qed.
Lemma host_chars h : public_address h \/ domain_name h -> forall c, In c h -> ~ In c [10; 35; 47; 58; 63; 64].
Proof.
  intros [(a & b & c & d & -> & Ha & _ & _ & Hb & Hc & Hd & _)|(l & top & Hl & F & _ & Ht & ->)] z Hz N.
  - assert (D : z = 46 \/ ascii_digit z).
    { destruct Ha as [_ Ha]. destruct Hb as [[_ Hb] _]. destruct Hc as [[_ Hc] _]. destruct Hd as [_ Hd].
      repeat (apply in_app_or in Hz as [Hz|Hz]); try (right; auto; fail); left; destruct Hz as [<-|[]]; reflexivity. }
    unfold ascii_digit in D. cbn in N. intuition lia.
  - assert (D : z = 46 \/ z = 45 \/ wide_char z).
    { assert (J : forall sep (l : list pystr) x, In x (join sep l) -> In x sep \/ exists w, In w l /\ In x w).
      { clear. intros sep l x. induction l as [|w l IH]; [intros []|]. destruct l as [|w' l].
        - intro H. right. exists w. split; [left; reflexivity|exact H].
        - change (join sep (w :: w' :: l)) with (w ++ sep ++ join sep (w' :: l)). intro H. apply in_app_or in H as [H|H]; [right; exists w; split; [left; reflexivity|exact H]|].
          apply in_app_or in H as [H|H]; [left; exact H|]. destruct (IH H) as [K|(v & K & K2)]; [left; exact K|right; exists v; split; [right; exact K|exact K2]]. }
      destruct (J _ _ _ Hz) as [K|(w & Hw & K)]; [left; destruct K as [<-|[]]; reflexivity|right].
      apply in_app_or in Hw as [Hw|[<-|[]]]; [|right; left; apply Ht, K].
      rewrite Forall_forall in F. destruct (F w Hw) as (l' & _ & F' & ->).
      destruct (J _ _ _ K) as [K2|(v & Hv & K2)]; [left; destruct K2 as [<-|[]]; reflexivity|right].
      rewrite Forall_forall in F'. apply (F' v Hv), K2. }
    unfold wide_char, wide_letter, ascii_letter, ascii_digit in D. cbn in N. intuition lia.
Qed.

Lemma before_at (x r a z : pystr) : x ++ r = a ++ 64 :: z -> ~ In 64 r -> exists y, x = a ++ 64 :: y.
Proof.
  revert a; induction x as [|c x IH]; intros a E N; cbn [app] in E.
  - destruct N. rewrite E. apply in_or_app; right; left; reflexivity.
  - destruct a as [|d a]; cbn [app] in E; injection E as -> E; [exists x; reflexivity|].
    destruct (IH a E N) as [y ->]. exists y. reflexivity.
Qed.
Lemma last_at (x r x' r' : pystr) : ~ In 64 r -> ~ In 64 r' -> x ++ 64 :: r = x' ++ 64 :: r' -> x = x' /\ r = r'.
Proof.
  intros Na Nb E. apply (f_equal (@rev N)) in E. rewrite !rev_app_distr in E. cbn [rev] in E. rewrite <- !app_assoc in E. cbn [app] in E.
  apply (span_until (fun z => z = 64)) in E as (E1 & _ & E2).
  - apply (f_equal (@rev N)) in E1, E2. rewrite !rev_involutive in E1, E2. auto.
  - intros z Hz ->. apply Na, in_rev, Hz.
  - intros z Hz ->. apply Nb, in_rev, Hz.
  - reflexivity.
  - reflexivity.
Qed.
Lemma case_letter c x : 97 <= c <= 122 -> either_case c x -> x <> 58.
Proof. unfold either_case. lia. Qed.
Lemma scheme_chars L w : url_scheme_text L w -> ~ In 58 w.
Proof.
  assert (K : forall l v, Forall (fun c => 97 <= c <= 122) l -> Forall2 either_case l v -> ~ In 58 v).
  { intros l v F F2. induction F2 as [|c x l v H F2 IH]; [intros []|]. inversion F as [|? ? Hc F']; subst.
    intros [->|Hi]; [exact (case_letter _ _ Hc H eq_refl)|exact (IH F' Hi)]. }
  assert (Kh : Forall (fun c => 97 <= c <= 122) (u "http")) by (apply Forall_forall; intros c Hc; cbn in Hc; intuition lia).
  assert (Kf : Forall (fun c => 97 <= c <= 122) (u "ftp")) by (apply Forall_forall; intros c Hc; cbn in Hc; intuition lia).
  intros [H|[H|(h & z & H & Hz & ->)]]; [exact (K _ _ Kh H)|exact (K _ _ Kf H)|]. intro Hi. apply in_app_or in Hi as [Hi|[->|[]]]; [exact (K _ _ Kh H Hi)|].
  unfold either_case in Hz. lia.
Qed.
Lemma public_private h : public_address h -> private_address h -> False.
Proof.
  intros (a & b & c & d & -> & Ha & _ & _ & Hb & _ & _ & _ & _ & N) (a' & b' & c' & d' & E & F & Q).
  inversion F as [|? ? Ha' F1]; subst. inversion F1 as [|? ? Hb' F2]; subst.
  unfold address in E. apply split_dot in E as [-> E]; [|apply number_no_dot; assumption|apply number_no_dot; assumption].
  apply split_dot in E as [-> _]; [|apply number_no_dot, Hb|apply number_no_dot; assumption]. exact (N Q).
Qed.
Lemma domain_private h : domain_name h -> private_address h -> False.
Proof.
  intros (l & top & Hl & _ & L & Ht & ->) Q. apply private_chars in Q as [_ Q].
  destruct top as [|z top]; [cbn in L; lia|]. assert (Hz : In z (z :: top)) by (left; reflexivity).
  assert (Hi : In z (join (u ".") (l ++ [z :: top]))) by (apply (join_In _ (z :: top)); [apply in_or_app; right; left; reflexivity|exact Hz]).
  apply Q in Hi. apply Ht in Hz. unfold wide_letter, ascii_letter, ascii_digit in *. lia.
Qed.
(** When no at sign follows the host, an accepted URL does not point at a
    private address. *)
Theorem C76_private_partial X s h tail : str_of X (VStr s) = s -> digits_ok (iso X) ->
  (forall c, In c s -> digit (iso X) c <> None -> ascii_digit c) ->
  format_url X (VStr s) = Ok true -> url_host_is s h tail -> ~ In 64 tail -> ~ private_address h.
Proof.
  intros Hs Hd Hp Hok (scheme' & user' & port' & E & Hsch & Hauth & Huser' & Hat & Hcol & Hport' & Htail) Nt Q.
  apply C75_url_exact in Hok as (w & t & Es & Ht & (scheme & user & host & port & path & Ew & H1 & H2 & H3 & H4 & H5)); [|assumption..].
  rewrite Es, Ew in E. rewrite <- !app_assoc in E. change (u "://") with (58 :: [47; 47]) in E. cbn [app] in E.
  apply (span_until (fun z => z = 58)) in E as (_ & _ & E);
    [|intros z Hz ->; exact (scheme_chars _ _ H1 Hz)|intros z Hz ->; apply Hsch in Hz; unfold ascii_letter in Hz; lia|reflexivity|reflexivity].
  injection E as E.
  assert (Nr : ~ In 64 (h ++ port' ++ tail)).
  { intro Hi. rewrite app_assoc in Hi. apply in_app_or in Hi as [Hi|Hi]; [exact (Hat _ Hi eq_refl)|exact (Nt Hi)]. }
  assert (Np : ~ In 64 path).
  { intro Hi. destruct H5 as [->|(p & Hno & ->)]; [destruct Hi|]. destruct Hi as [Hi|Hi]; [discriminate|].
    change (In 64 p) in Hi. apply in_split in Hi as (p1 & p2 & ->).
    replace (user ++ host ++ port ++ (u "/" ++ p1 ++ 64 :: p2) ++ t) with ((user ++ host ++ port ++ u "/" ++ p1) ++ 64 :: (p2 ++ t)) in E
      by (rewrite <- !app_assoc; reflexivity).
    symmetry in E. apply before_at in E as [y Ey]; [|exact Nr].
    apply (Hauth 47); [|left; reflexivity]. apply in_or_app; left. rewrite Ey.
    apply in_or_app; left. do 3 (apply in_or_app; right). left; reflexivity. }
  assert (Hn : ~ In 64 (host ++ port ++ path ++ t)).
  { intro Hi. apply in_app_or in Hi as [Hi|Hi]; [apply (host_chars _ H3 _ Hi); cbn; auto 10|].
    apply in_app_or in Hi as [Hi|Hi].
    - destruct H4 as [->|(p & [_ Hnum] & _ & ->)]; [destruct Hi|]. destruct Hi as [Hi|Hi]; [discriminate|]. apply Hnum in Hi. unfold ascii_digit in Hi. lia.
    - apply in_app_or in Hi as [Hi|Hi]; [exact (Np Hi)|]. destruct Ht as [->| ->]; [destruct Hi|]. destruct Hi as [Hi|[]]; discriminate. }
  assert (E2 : host ++ port ++ path ++ t = h ++ port' ++ tail).
  { destruct H2 as [->|(x & _ & _ & ->)]; destruct Huser' as [->|(x' & ->)].
    - exact E.
    - destruct Hn. cbn [app] in E. rewrite E. apply in_or_app; left. apply in_or_app; right; left; reflexivity.
    - destruct Nr. cbn [app] in E. rewrite <- E. apply in_or_app; left. apply in_or_app; right; left; reflexivity.
    - rewrite <- !app_assoc in E. apply (last_at x _ x' _ Hn Nr) in E. apply E. }
  destruct (private_chars _ Q) as [_ Qc].
  pose (P := fun z => In z [10; 35; 47; 58; 63]).
  assert (B1 : forall z, In z host -> ~ P z) by (intros z Hz F; apply (host_chars _ H3 _ Hz); unfold P in F; cbn in *; tauto).
  assert (B2 : forall z, In z h -> ~ P z) by (intros z Hz F; apply Qc in Hz; unfold ascii_digit in Hz; unfold P in F; cbn in F; intuition lia).
  assert (R1 : port ++ path ++ t = [] \/ exists c r, port ++ path ++ t = c :: r /\ P c).
  { destruct H4 as [->|(p & _ & _ & ->)]; [|right; eexists _, _; split; [reflexivity|]; unfold P; cbn; auto].
    destruct H5 as [->|(p & _ & ->)]; [|right; eexists _, _; split; [reflexivity|]; unfold P; cbn; auto].
    destruct Ht as [->| ->]; [left; reflexivity|right; eexists _, _; split; [reflexivity|]; unfold P; cbn; auto]. }
  assert (R2 : port' ++ tail = [] \/ exists c r, port' ++ tail = c :: r /\ P c).
  { destruct Hport' as [->|(p & ->)]; [|right; eexists _, _; split; [reflexivity|]; unfold P; cbn; auto].
    destruct Htail as [->|(c & p & -> & Hc)]; [left; reflexivity|right; eexists _, _; split; [reflexivity|]]. unfold P. cbn in *. intuition. }
  assert (Eh : host = h).
  { destruct R1 as [R1|(c & r & R1 & Pc)]; destruct R2 as [R2|(d & r' & R2 & Pd)]; rewrite R1, R2 in E2.
    - rewrite !app_nil_r in E2. exact E2.
    - rewrite app_nil_r in E2. destruct (span_end P host h d r' B1 Pd E2).
    - rewrite app_nil_r in E2. symmetry in E2. destruct (span_end P h host c r B2 Pc E2).
    - apply (span_until P) in E2; tauto. }
  subst h. destruct H3 as [H3|H3]; [exact (public_private _ H3 Q)|exact (domain_private _ H3 Q)].
Qed.

(** The hypotheses are met: a URL with a user, an address, a port and a path. *)
Example C75_some : digits_ok (iso fmt_ex) /\
  format_url fmt_ex (VStr (u "HTTPS://me:x@8.8.4.4:8080/a/b?c")) = Ok true /\
  format_url fmt_ex (VStr (u "ftp://a-b.example.org")) = Ok true /\
  format_url fmt_ex (VStr (u "http://172.20.0.1/")) = Ok false /\
  format_url fmt_ex (VStr (u "http://a--b.example.org")) = Ok false /\
  format_url fmt_ex (VStr (u "http://localhost")) = Ok false /\
  format_url fmt_ex (VStr (u "http://a.org:1")) = Ok false.
Proof.
  split.
  { split; [|split].
    - intros c H. cbn. rewrite H. reflexivity.
    - intros c _ H. cbn. rewrite H. reflexivity.
    - intros c v H. cbn in H. destruct (is_ascii_digit c) eqn:E; [|discriminate]. injection H as <-.
      apply ascii_digit_iff in E. unfold ascii_digit in E. lia. }
  vm_compute. auto 10.
Qed.
Example C75_url_of : url False (u "HTTP://8.8.4.4/a") .
Proof.
  exists (u "HTTP"), [], (u "8.8.4.4"), [], (u "/a"). split; [reflexivity|]. split.
  { left. change (Forall2 either_case [104; 116; 116; 112] [72; 84; 84; 80]). repeat (apply Forall2_cons; [unfold either_case; lia|]). apply Forall2_nil. }
  split; [left; reflexivity|]. split.
  { assert (N : forall c, In c [56] \/ In c [52] -> ascii_digit c) by (intros c Hc; unfold ascii_digit; cbn in Hc; intuition lia).
    left. exists (u "8"), (u "8"), (u "4"), (u "4"). split; [reflexivity|].
    assert (M8 : number_text (u "8")) by (split; [discriminate|intros c Hc; apply N; left; exact Hc]).
    assert (M4 : number_text (u "4")) by (split; [discriminate|intros c Hc; apply N; right; exact Hc]).
    split; [exact M8|]. split; [intros w' [=]|]. split; [vm_compute; split; discriminate|].
    split; [split; [exact M8|]; split; [vm_compute; discriminate|left; cbn; lia]|].
    split; [split; [exact M4|]; split; [vm_compute; discriminate|left; cbn; lia]|].
    split; [exact M4|]. split; [intros w' [=]|]. split; [vm_compute; split; discriminate|].
    change (number_of (u "8")) with 8. unfold private_net. lia. }
  split; [left; reflexivity|]. right. exists (u "a"). split; [|reflexivity].
  intros c Hc W. cbn in Hc. unfold white_space in W. cbn in W. intuition lia.
Qed.
Example C76_some : url_host_is (u "http://me@10.0.0.1:80/x") (u "10.0.0.1") (u "/x") /\ ~ In 64 (u "/x") /\
  format_url fmt_ex (VStr (u "http://me@10.0.0.1:80/x")) = Ok false.
Proof.
  split; [|split; [cbn; intuition discriminate|vm_compute; reflexivity]].
  exists (u "http"), (u "me@"), (u ":80"). split; [reflexivity|].
  split; [intros c Hc; unfold ascii_letter; cbn in Hc; intuition lia|].
  split; [intros c Hc F; cbn in Hc, F; intuition lia|].
  split; [right; exists (u "me"); reflexivity|]. split; [intros c Hc; cbn in Hc; intuition lia|]. split; [intros c Hc; cbn in Hc; intuition lia|].
  split; [right; exists (u "80"); reflexivity|]. right. exists 47, (u "x"). split; [reflexivity|cbn; auto].
Qed.
(** In general: whatever the host, private or not, the slash and the at sign after it
    make any accepted URL with that host in front accepted. *)
Theorem C76_any_host X scheme rest h : (forall s, str_of X (VStr s) = s) -> digits_ok (iso X) ->
  (forall c, In c (scheme ++ h ++ rest) -> digit (iso X) c <> None -> ascii_digit c) -> (forall c, In c scheme -> ascii_letter c) ->
  h <> [] -> (forall c, In c h -> ~ white_space c /\ ~ In c (u "/?#@:")) -> format_url X (VStr (scheme ++ u "://" ++ rest)) = Ok true ->
  format_url X (VStr (scheme ++ u "://" ++ h ++ u "/@" ++ rest)) = Ok true /\ url_host_is (scheme ++ u "://" ++ h ++ u "/@" ++ rest) h (u "/@" ++ rest).
Proof.
  intros Hs Hd Hp Hsc Nh Hh Hok. split.
  - assert (D : forall s, (forall c, In c s -> In c (scheme ++ h ++ rest) \/ In c (u "://@")) -> forall c, In c s -> digit (iso X) c <> None -> ascii_digit c).
    { intros s Hin c Hc Hdc. destruct (Hin c Hc) as [K|K]; [exact (Hp c K Hdc)|]. exfalso. apply Hdc. destruct Hd as (_ & D2 & _). apply D2; cbn in K; unfold ascii_digit; intuition (subst; lia || discriminate || auto). }
    apply C75_url_exact in Hok as (w & t & Es & Ht & (scheme' & user & host & port & path & Ew & H1 & H2 & H3 & H4 & H5)); [|apply Hs| |exact Hd].
    2: { apply D. intros c Hc. apply in_app_or in Hc as [Hc|Hc]; [left; apply in_or_app; auto|]. apply in_app_or in Hc as [Hc|Hc]; [right; cbn in *; intuition|left; apply in_or_app; right; apply in_or_app; auto]. }
    rewrite Ew, <- !app_assoc in Es. change (u "://") with (58 :: [47; 47]) in Es. cbn [app] in Es.
    apply (span_until (fun z => z = 58)) in Es as (E1 & _ & E2); [|intros z Hz ->; apply Hsc in Hz; unfold ascii_letter in Hz; lia|intros z Hz ->; exact (scheme_chars _ _ H1 Hz)|reflexivity|reflexivity].
    injection E2 as E2. subst scheme' rest. apply C75_url_exact; [apply Hs| |exact Hd|].
    + apply D. intros c Hc. rewrite !in_app_iff in *. cbn [u In] in *. cbn in Hc |- *. intuition.
    + exists (scheme ++ u "://" ++ (h ++ u "/@" ++ user) ++ host ++ port ++ path), t. split; [rewrite <- !app_assoc; reflexivity|]. split; [exact Ht|].
      exists scheme, (h ++ u "/@" ++ user), host, port, path. split; [reflexivity|]. split; [exact H1|]. split; [|auto]. right.
      assert (Nsp : forall x, no_space x -> no_space (h ++ u "/" ++ x)).
      { intros x Hx c Hc. apply in_app_or in Hc as [Hc|Hc]; [apply Hh, Hc|]. destruct Hc as [<-|Hc]; [unfold white_space; cbn; lia|apply Hx, Hc]. }
      destruct H2 as [->|(x & Nx & Sx & ->)].
      * exists (h ++ u "/"). split; [destruct h; discriminate|]. split; [apply (Nsp []); intros c []|rewrite app_nil_r, <- app_assoc; reflexivity].
      * exists (h ++ u "/" ++ u "@" ++ x). split; [destruct h; discriminate|]. split; [apply Nsp; intros c [<-|Hc]; [unfold white_space; cbn; lia|apply Sx, Hc]|rewrite <- !app_assoc; reflexivity].
  - exists scheme, [], []. split; [reflexivity|]. split; [exact Hsc|]. cbn [app]. rewrite app_nil_r.
    split; [intros c Hc K; apply (Hh c Hc); cbn in *; intuition|]. split; [left; reflexivity|]. split; [intros c Hc ->; apply (Hh _ Hc); cbn; intuition|]. split; [intros c Hc ->; apply (Hh _ Hc); cbn; intuition|]. split; [left; reflexivity|].
    right. exists 47, (u "@" ++ rest). split; [reflexivity|cbn; auto].
Qed.
Example C76_any_host_some : format_url fmt_ex (VStr (u "https" ++ u "://" ++ u "a.org/x")) = Ok true /\
  format_url fmt_ex (VStr (u "https" ++ u "://" ++ u "192.168.0.1" ++ u "/@" ++ u "a.org/x")) = Ok true /\ private_address (u "192.168.0.1").
Proof.
  split; [vm_compute; reflexivity|]. split; [vm_compute; reflexivity|]. exists (u "192"), (u "168"), (u "0"), (u "1"). split; [reflexivity|].
  split; [repeat (apply Forall_cons; [split; [discriminate|intros c Hc; cbn in Hc; unfold ascii_digit; intuition lia]|]); apply Forall_nil|]. change (number_of (u "192")) with 192. change (number_of (u "168")) with 168. unfold private_net. lia.
Qed.
Theorem C75_url_refuted : exists X s, (forall s, str_of X (VStr s) = s) /\ digits_ok (iso X) /\
  format_url X (VStr s) = Ok true /\ ~ url True s.
Proof.
  exists fmt_ex, (u "http://a.org" ++ [10]). split; [reflexivity|]. split; [apply C75_some|]. split; [vm_compute; reflexivity|].
  intros (scheme & user & host & port & path & E & H1 & H2 & H3 & H4 & H5).
  assert (W : forall x, no_space x -> ~ In 10 x) by (intros x Hx Hi; apply (Hx 10 Hi); unfold white_space; lia).
  assert (L : forall (pre x : pystr), u "http://a.org" ++ [10] = pre ++ x -> x = [] \/ In 10 x).
  { intros pre x Ex. destruct x as [|c x] using rev_ind; [left; reflexivity|right].
    rewrite app_assoc in Ex. apply app_inj_tail in Ex as [_ <-]. apply in_or_app; right; left; reflexivity. }
  assert (Hpath : path = []).
  { rewrite !app_assoc in E. destruct (L _ _ E) as [K|K]; [exact K|]. destruct H5 as [->|(p & Hp & ->)]; [reflexivity|].
    destruct K as [K|K]; [discriminate|]. destruct (W _ Hp K). }
  subst path. rewrite app_nil_r in E.
  assert (Hport : port = []).
  { rewrite !app_assoc in E. destruct (L _ _ E) as [K|K]; [exact K|]. destruct H4 as [->|(p & [_ Hp] & _ & ->)]; [reflexivity|].
    destruct K as [K|K]; [discriminate|]. apply Hp in K. unfold ascii_digit in K. lia. }
  subst port. rewrite app_nil_r in E. rewrite !app_assoc in E. destruct (L _ _ E) as [K|K].
  - subst host. destruct H3 as [(a & b & c & d & Ea & _)|(l & top & _ & _ & Ht & _ & Ea)].
    + unfold address in Ea. destruct a; discriminate.
    + destruct top as [|z top]; [cbn in Ht; lia|]. assert (Hi : In z (join (u ".") (l ++ [z :: top]))) by
        (apply (join_In _ (z :: top)); [apply in_or_app; right; left; reflexivity|left; reflexivity]). rewrite <- Ea in Hi. destruct Hi.
  - apply (host_chars _ H3 _ K). left; reflexivity.
Qed.
Print Assumptions C74_uri_exact.
Print Assumptions C74_uri_partial.
Print Assumptions C75_url_exact.
Print Assumptions C75_url_partial.
Print Assumptions C76_private_partial.
Print Assumptions C76_private_refuted.
