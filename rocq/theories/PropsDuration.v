(** C62: durations. *)
From Verif Require Import PyBase PyBaseFacts LeafFacts Claims Regex RegexFacts FormatSpec IsoSpec Iso IsoFacts ClockFacts PropsPointer PropsFormats PropsIso PropsClock.
Local Open Scope Z_scope.
Local Notation length := List.length (only parsing).

(** ** The matcher on patterns that are not pure *)
Lemma re_match_in r s : (exists cs, re_match r s = Some cs) <-> exists y, In y (run r (s, [])).
Proof.
  unfold re_match. destruct (run r (s, [])) as [|y l]; split.
  - intros [cs H]. discriminate.
  - intros [y []].
  - intros _. exists y. left; reflexivity.
  - intros _. eauto.
Qed.
Lemma re_fullmatch_some r s cs : re_fullmatch r s = Some cs -> In ([], cs) (run r (s, [])).
Proof.
  unfold re_fullmatch. destruct (find _ _) as [y|] eqn:E; [|discriminate]. intros [= <-].
  apply find_some in E as [H1 H2]. destruct y as [[|] cs]; [exact H1|discriminate].
Qed.
Lemma re_fullmatch_in r s : (exists cs, re_fullmatch r s = Some cs) <-> exists cs, In ([], cs) (run r (s, [])).
Proof.
  split; [intros [cs H]; exists cs; apply re_fullmatch_some; exact H|]. intros [cs H]. unfold re_fullmatch.
  destruct (find _ _) as [y|] eqn:E; [eauto|]. exfalso.
  pose proof (find_none _ _ E _ H). discriminate.
Qed.
Lemma run_look a s cs y : nogrp a = true ->
  In y (run (Look a) (s, cs)) <-> y = (s, cs) /\ exists w t, s = w ++ t /\ reads a w.
Proof.
  intro Hn. cbn [run fst].
  assert (K : forall z, In z (run a (s, cs)) <-> exists w, s = w ++ fst z /\ reads a w /\ snd z = cs).
  { intros [t cs']. rewrite run_parse by (apply nogrp_pure; exact Hn). cbn [fst snd]. split.
    - intros (w & H & P). apply nogrp_reads in P as [P ->]; [|exact Hn]. eauto.
    - intros (w & H & P & ->). exists w. split; [exact H|]. apply nogrp_reads; auto. }
  destruct (run a (s, cs)) as [|z l] eqn:E; split.
  - intros [].
  - intros (_ & w & t & H & P). destruct (K (t, cs)) as [_ K2]. apply K2. exists w. auto.
  - intros [<-|[]]. destruct (K z) as [K1 _]. destruct (K1 (or_introl eq_refl)) as (w & H & P & ->). split; [reflexivity|]. eauto.
  - intros (-> & _). left. destruct (K z) as [K1 _]. destruct (K1 (or_introl eq_refl)) as (w & H & P & ->). reflexivity.
Qed.
Lemma run_seq_in a b x y : In y (run (Seq a b) x) <-> exists z, In z (run a x) /\ In y (run b z).
Proof. cbn [run]. apply in_flat_map. Qed.

Lemma run_body_eol_at a s cs0 y : pure a = true ->
  In y (run (Seq a Eol) (s, cs0)) <-> exists w, s = w ++ fst y /\ parse a w cs0 (snd y) /\ ends (fst y).
Proof.
  intro Hp. destruct y as [t cs]. rewrite run_seq_in. cbn [fst snd]. split.
  - intros ([t1 cs1] & H1 & H2). apply run_eol in H2 as [[= <- <-] He].
    apply run_parse in H1 as (w & -> & P); [|exact Hp]. eauto.
  - intros (w & -> & P & He). exists (t, cs). split; [apply run_complete; exact P|]. apply run_eol. auto.
Qed.

Section Iso.
  Variable X : iso_env.
  Hypothesis Xok : digits_ok X.
  Local Notation dig := (digit X).
  Local Notation isd := (is_digit X).

  (** ** Units *)
  (** [o]: the number's text, when the unit is there *)
  Definition unit (p : N -> bool) (num : pystr -> Prop) (x : pystr) (o : option pystr) : Prop :=
    (x = [] /\ o = None) \/ exists n c, x = n ++ [c] /\ num n /\ p c = true /\ o = Some n.
  Definition whole (n : pystr) : Prop := n <> [] /\ Forall (fun c => isd c = true) n.
  Definition point (n : pystr) : Prop := exists w f k, n = w ++ f /\ whole w /\ written_fraction dig f k.
  Definition keep (i : nat) (o : option pystr) (cs : caps) : caps := match o with None => cs | Some n => (i, n) :: cs end.

  Lemma parse_unit i r l num w cs cs' : nogrp r = true -> (forall n, reads r n <-> num n) ->
    parse (unit_group i r l) w cs cs' <-> exists o, unit (lit_i (chr l)) num w o /\ cs' = keep i o cs.
  Proof.
    intros Hn Hr. unfold unit_group, unit. rewrite parse_opt. split.
    - intros [H|[-> ->]]; [|exists None; auto].
      apply parse_seq in H as (n & e & c1 & -> & P1 & P2). apply parse_grp_nogrp in P1 as [P1 ->]; [|exact Hn].
      apply parse_cls in P2 as [(c & -> & Hc) ->]. exists (Some n). split; [|reflexivity]. right. exists n, c. rewrite <- Hr. auto.
    - intros (o & [[-> ->]|(n & c & -> & Hnum & Hc & ->)] & ->); [right; auto|left].
      apply parse_seq. exists n, [c], ((i, n) :: cs). split; [reflexivity|].
      split; [apply parse_grp_nogrp; [exact Hn|]; split; [apply Hr; exact Hnum|reflexivity]|]. apply parse_cls. split; [eauto|reflexivity].
  Qed.
  Lemma reads_whole n : reads (number X) n <-> whole n.
  Proof. unfold number, d1, whole. apply reads_plus_cls. Qed.
  Lemma reads_point n : reads (Seq (number X) (opt (fraction X))) n <-> point n.
  Proof.
    rewrite reads_seq by reflexivity. unfold point. split.
    - intros (w & f & -> & H1 & H2). apply reads_whole in H1. apply (reads_fraction X) in H2 as [k H2]. eauto 6.
    - intros (w & f & k & -> & H1 & H2). exists w, f. split; [reflexivity|]. split; [apply reads_whole; exact H1|apply (reads_fraction X); eauto].
  Qed.
  Lemma reads_cls1 p w : reads (Cls p) w <-> exists c, w = [c] /\ p c = true.
  Proof. apply reads_cls. Qed.

  Definition units (r : pystr) (ow od oh om os : option pystr) : Prop :=
    exists wk dy tp, r = wk ++ dy ++ tp /\ unit (lit_i (chr "w")) whole wk ow /\ unit (lit_i (chr "d")) whole dy od /\
      ((tp = [] /\ oh = None /\ om = None /\ os = None) \/
       exists t hr mi se, tp = t :: hr ++ mi ++ se /\ lit_i (chr "t") t = true /\ unit (lit_i (chr "h")) whole hr oh /\
         unit (lit_i (chr "m")) whole mi om /\ unit (lit_i (chr "s")) point se os).
  Lemma parse_units r cs cs' : parse (duration_units X) r cs cs' <->
    exists ow od oh om os, units r ow od oh om os /\ cs' = keep 6 os (keep 5 om (keep 4 oh (keep 3 od (keep 2 ow cs)))).
  Proof.
    unfold duration_units, units. split.
    - intro H. apply parse_seq_cons in H as (wk & w1 & c1 & -> & P1 & H). apply (parse_unit _ _ _ whole) in P1 as (ow & U1 & ->); [|reflexivity|apply reads_whole].
      apply parse_seq_cons in H as (dy & w2 & c2 & -> & P2 & H). apply (parse_unit _ _ _ whole) in P2 as (od & U2 & ->); [|reflexivity|apply reads_whole].
      apply parse_seq_cons in H as (tp & w3 & c3 & -> & P3 & H). apply parse_eps in H as [-> ->]. rewrite app_nil_r.
      apply parse_opt in P3 as [H|[-> ->]].
      + apply parse_seq_cons in H as (t & w4 & c4 & -> & P4 & H). apply parse_cls in P4 as [(c & -> & Hc) ->].
        apply parse_seq_cons in H as (hr & w5 & c5 & -> & P5 & H). apply (parse_unit _ _ _ whole) in P5 as (oh & U5 & ->); [|reflexivity|apply reads_whole].
        apply parse_seq_cons in H as (mi & w6 & c6 & -> & P6 & H). apply (parse_unit _ _ _ whole) in P6 as (om & U6 & ->); [|reflexivity|apply reads_whole].
        apply parse_seq_cons in H as (se & w7 & c7 & -> & P7 & H). apply (parse_unit _ _ _ point) in P7 as (os & U7 & ->); [|reflexivity|apply reads_point].
        apply parse_eps in H as [-> ->]. rewrite app_nil_r.
        exists ow, od, oh, om, os. split; [|reflexivity]. exists wk, dy, ([c] ++ hr ++ mi ++ se). split; [reflexivity|]. split; [exact U1|]. split; [exact U2|].
        right. exists c, hr, mi, se. auto.
      + exists ow, od, None, None, None. split; [|reflexivity]. exists wk, dy, []. auto 10.
    - intros (ow & od & oh & om & os & (wk & dy & tp & -> & U1 & U2 & Ht) & ->).
      rewrite <- (app_nil_r tp).
      apply parse_seq_cons. eexists _, _, _. split; [reflexivity|]. split; [apply (parse_unit _ _ _ whole); [reflexivity|apply reads_whole|]; eauto|].
      apply parse_seq_cons. eexists _, _, _. split; [reflexivity|]. split; [apply (parse_unit _ _ _ whole); [reflexivity|apply reads_whole|]; eauto|].
      apply parse_seq_cons. eexists _, _, _. split; [reflexivity|]. split; [|apply parse_eps; split; reflexivity].
      apply parse_opt. destruct Ht as [(-> & -> & -> & ->)|(t & hr & mi & se & -> & Hc & U5 & U6 & U7)]; [right; auto|left].
      change (t :: hr ++ mi ++ se) with ([t] ++ hr ++ mi ++ se). rewrite <- (app_nil_r se).
      apply parse_seq_cons. eexists _, _, _. split; [reflexivity|]. split; [apply parse_cls; split; [eauto|reflexivity]|].
      apply parse_seq_cons. eexists _, _, _. split; [reflexivity|]. split; [apply (parse_unit _ _ _ whole); [reflexivity|apply reads_whole|]; eauto|].
      apply parse_seq_cons. eexists _, _, _. split; [reflexivity|]. split; [apply (parse_unit _ _ _ whole); [reflexivity|apply reads_whole|]; eauto|].
      apply parse_seq_cons. eexists _, _, _. split; [reflexivity|]. split; [apply (parse_unit _ _ _ point); [reflexivity|apply reads_point|]; eauto|].
      apply parse_eps; split; reflexivity.
  Qed.

  (** ** The whole pattern *)
  Definition ahead (r : pystr) : Prop := exists t c q, r = t ++ c :: q /\ (t = [] \/ t = u "t" \/ t = u "T") /\ isd c = true.
  Lemma lit_two c x : lit_i c x = true -> c <> 105%N -> c <> 107%N -> c <> 115%N -> x = c \/ x = (c - 32)%N.
  Proof.
    unfold lit_i. intros H H1 H2 H3. rewrite !orb_true_iff, !andb_true_iff, !N.eqb_eq in H. tauto.
  Qed.
  Lemma lit_t x : lit_i (chr "t") x = true <-> x = 116%N \/ x = 84%N.
  Proof.
    split; [intro H; apply lit_two in H; [exact H|discriminate..]|]. intros [->| ->]; reflexivity.
  Qed.
  Lemma reads_ahead r : (exists w t, r = w ++ t /\ reads (Alt (d1 X) (Seq (Cls (lit_i (chr "t"))) (d1 X))) w) <-> ahead r.
  Proof.
    unfold ahead. split.
    - intros (w & t & -> & H). apply reads_alt in H as [H|H].
      + apply reads_cls in H as (c & -> & Hc). exists [], c, t. auto.
      + apply reads_seq in H as (w1 & w2 & -> & H1 & H2); [|reflexivity]. apply reads_cls in H1 as (x & -> & Hx).
        apply reads_cls in H2 as (c & -> & Hc). apply lit_t in Hx. exists [x], c, t. split; [reflexivity|]. split; [|exact Hc].
        destruct Hx as [->| ->]; auto.
    - intros (t & c & q & -> & Ht & Hc). destruct Ht as [->|Ht].
      + exists [c], q. split; [reflexivity|]. apply reads_alt. left. apply reads_cls. eauto.
      + exists (t ++ [c]), q. split; [rewrite <- app_assoc; reflexivity|]. apply reads_alt. right. apply reads_seq; [reflexivity|].
        exists t, [c]. split; [reflexivity|]. split; [|apply reads_cls; eauto]. apply reads_cls.
        destruct Ht as [->| ->]; [exists 116%N|exists 84%N]; split; reflexivity.
  Qed.
  Lemma run_duration s z cs : In (z, cs) (run (duration_regex X) (s, [])) <->
    exists sg p r w, s = sg ++ p ++ r /\ maybe "-" sg /\ (p = u "p" \/ p = u "P") /\ ahead r /\ r = w ++ z /\ final_newline z /\
      exists ow od oh om os, units w ow od oh om os /\ cs = keep 6 os (keep 5 om (keep 4 oh (keep 3 od (keep 2 ow [(1%nat, sg)])))).
  Proof.
    assert (Pp : forall x, lit_i (chr "p") x = true <-> x = 112%N \/ x = 80%N).
    { intro x. split; [intro H; apply lit_two in H; [exact H|discriminate..]|]. intros [->| ->]; reflexivity. }
    unfold duration_regex. cbn [seqs fold_right]. rewrite run_seq_in. split.
    - intros ((s1 & c1) & H1 & H). apply run_parse in H1 as (sg & -> & P1); [|reflexivity].
      apply parse_grp_nogrp in P1 as [P1 ->]; [|reflexivity]. apply (reads_maybe _ "-") in P1; [|reflexivity].
      apply run_seq_in in H as ((s2 & c2) & H2 & H). apply run_parse in H2 as (p & -> & P2); [|reflexivity].
      apply parse_cls in P2 as [(x & -> & Hx) ->]. apply Pp in Hx.
      apply run_seq_in in H as (y3 & H3 & H). apply run_look in H3 as [-> H3]; [|reflexivity]. apply reads_ahead in H3.
      apply run_seq_in in H as (y4 & H4 & H). destruct H as [H|[]]. subst y4.
      apply run_body_eol_at in H4 as (w & E & P4 & Ht); [|reflexivity]. cbn [fst snd] in *.
      apply parse_units in P4 as (ow & od & oh & om & os & U & ->).
      exists sg, [x], s2, w. split; [reflexivity|]. split; [exact P1|]. split; [destruct Hx as [->| ->]; auto|].
      split; [exact H3|]. split; [exact E|]. split; [exact Ht|]. exists ow, od, oh, om, os. auto.
    - intros (sg & p & r & w & -> & Hsg & Hp & Ha & -> & Hz & ow & od & oh & om & os & U & ->).
      exists (p ++ w ++ z, [(1%nat, sg)]). split.
      + apply run_parse; [reflexivity|]. exists sg. split; [reflexivity|]. apply parse_grp_nogrp; [reflexivity|]. split; [|reflexivity].
        apply (reads_maybe _ "-"); [reflexivity|exact Hsg].
      + apply run_seq_in. exists (w ++ z, [(1%nat, sg)]). split.
        * apply run_parse; [reflexivity|]. exists p. split; [reflexivity|]. apply parse_cls. split; [|reflexivity].
          destruct Hp as [->| ->]; [exists 112%N|exists 80%N]; split; reflexivity.
        * apply run_seq_in. exists (w ++ z, [(1%nat, sg)]). split; [apply run_look; [reflexivity|]; split; [reflexivity|apply reads_ahead; exact Ha]|].
          apply run_seq_in. eexists. split; [|left; reflexivity]. apply run_body_eol_at; [reflexivity|].
          exists w. cbn [fst snd]. split; [reflexivity|]. split; [apply parse_units; exists ow, od, oh, om, os; split; [exact U|reflexivity]|exact Hz].
  Qed.

  (** ** One reading only *)
  Definition starts (p : N -> bool) (r : pystr) : Prop := exists n c q, r = n ++ c :: q /\ whole n /\ p c = true.
  Definition lit (l : string) : N -> bool := lit_i (chr l).
  Definition nondigit (p : N -> bool) : Prop := forall c, p c = true -> isd c = false.
  Lemma isd_head c q (p : N -> bool) : isd c = false -> forall x r0, c :: q = x :: r0 -> isd x = false.
  Proof. intros H x r0 [= <- _]. exact H. Qed.
  Lemma starts_nil p : ~ starts p [].
  Proof. intros (n & c & q & E & _). destruct n; discriminate. Qed.
  Lemma starts_nondigit p c q : isd c = false -> ~ starts p (c :: q).
  Proof. intros H (n & x & r & E & [Hn Hf] & _). destruct Hf as [|y n Hy Hf]; [congruence|]. injection E as -> _. congruence. Qed.
  Lemma starts_unit p q x o r : nondigit p -> nondigit q -> (forall c, p c = true -> q c = true -> False) ->
    unit q whole x o -> ~ starts p r -> ~ starts p (x ++ r).
  Proof.
    intros Np Nq Hd [[-> _]|(n & c & -> & [_ Hn] & Hc & _)] Hr; [exact Hr|]. rewrite <- app_assoc. intros (n' & c' & r' & E & [_ Hn'] & Hc').
    simpl app in E. apply (span_unique isd) in E as [_ E]; [|exact Hn|exact Hn'|apply isd_head; [exact p|apply Nq; exact Hc]|apply isd_head; [exact p|apply Np; exact Hc']].
    injection E as -> _. exact (Hd _ Hc' Hc).
  Qed.
  Lemma unit_unique p x o r x' o' r' : nondigit p -> unit p whole x o -> unit p whole x' o' -> ~ starts p r -> ~ starts p r' ->
    x ++ r = x' ++ r' -> x = x' /\ o = o' /\ r = r'.
  Proof.
    intros Np [[-> ->]|(n & c & -> & [Hne Hn] & Hc & ->)] [[-> ->]|(n' & c' & -> & [Hne' Hn'] & Hc' & ->)] Hr Hr' E.
    - auto.
    - exfalso. apply Hr. exists n', c', r'. rewrite <- app_assoc in E. split; [exact E|]. split; [split; assumption|exact Hc'].
    - exfalso. apply Hr'. exists n, c, r. rewrite <- app_assoc in E. split; [symmetry; exact E|]. split; [split; assumption|exact Hc].
    - rewrite <- !app_assoc in E. simpl app in E.
      apply (span_unique isd) in E as [-> E]; [|exact Hn|exact Hn'|apply isd_head; [exact p|apply Np; exact Hc]|apply isd_head; [exact p|apply Np; exact Hc']].
      injection E as -> ->. auto.
  Qed.
  Lemma starts_point p x o r : nondigit p -> nondigit (lit "s") -> (forall c, p c = true -> lit "s" c = true -> False) -> p 46%N = false ->
    unit (lit "s") point x o -> ~ starts p r -> ~ starts p (x ++ r).
  Proof.
    intros Np Nq Hd Hdot [[-> _]|(n & c & -> & (w & f & k & -> & [_ Hw] & Hf) & Hc & _)] Hr; [exact Hr|].
    rewrite <- !app_assoc. intros (n' & c' & r' & E & [_ Hn'] & Hc').
    assert (D : isd 46%N = false) by (apply (not_isd X Xok); [|unfold ascii_digit]; lia).
    apply (span_unique isd) in E as [_ E]; [|exact Hw|exact Hn'| |apply isd_head; [exact p|apply Np; exact Hc']].
    - destruct Hf as [[-> _]|(v & -> & _)]; [injection E as -> _; exact (Hd _ Hc' Hc)|]. injection E as <- _. change (p 46%N = true) in Hc'. congruence.
    - destruct Hf as [[-> _]|(v & -> & _)]; [apply isd_head; [exact p|apply Nq; exact Hc]|].
      intros y r0 Hy. injection Hy as <- _. exact D.
  Qed.
  Lemma lit_range l x : (chr l < 128)%N -> (97 <= chr l)%N -> lit l x = true -> isd x = true -> (128 <= x)%N.
  Proof.
    intros H1 H2 H Hd. destruct (N.lt_ge_cases x 128) as [C|C]; [|exact C]. exfalso.
    apply (isd_ascii X Xok) in Hd; [|exact C]. unfold ascii_digit in Hd. unfold lit, lit_i in H.
    rewrite !orb_true_iff, !andb_true_iff, !N.eqb_eq, among_In in H. cbn [In] in H. lia.
  Qed.
  (** the further letter U+017F for [s] is not a digit *)
  Hypothesis long_s : dig 383 = None.
  Lemma lit_nondigit l : In l ["w"; "d"; "t"; "h"; "m"; "s"]%string -> nondigit (lit l).
  Proof.
    intros Hl c Hc. destruct (isd c) eqn:E; [|reflexivity]. exfalso.
    assert (B : (128 <= c)%N).
    { apply (lit_range l c); try assumption; cbn [In] in Hl; repeat destruct Hl as [<-|Hl]; try destruct Hl; (vm_compute; (reflexivity || discriminate)). }
    cbn [In] in Hl. destruct Hl as [<-|[<-|[<-|[<-|[<-|[<-|[]]]]]]];
      try (apply lit_two in Hc; [|discriminate..]; destruct Hc as [->| ->]; apply B; reflexivity).
    unfold lit, lit_i in Hc. change (chr "s") with 115%N in Hc. cbn [N.eqb Pos.eqb andb] in Hc.
    rewrite !orb_true_iff, !N.eqb_eq in Hc. change (115 - 32)%N with 83%N in Hc.
    assert (c = 383%N) as -> by (destruct Hc as [[[[C|C]|C]|C]|C]; lia || discriminate). unfold is_digit in E. rewrite long_s in E. discriminate.
  Qed.

  Lemma lit_values l c : In l ["w"; "d"; "t"; "h"; "m"; "s"]%string -> lit l c = true ->
    c = chr l \/ c = (chr l - 32)%N \/ (c = 383%N /\ l = "s"%string).
  Proof.
    intros Hl Hc. cbn [In] in Hl. destruct Hl as [<-|[<-|[<-|[<-|[<-|[<-|[]]]]]]];
      try (apply lit_two in Hc; [|discriminate..]; tauto).
    unfold lit, lit_i in Hc. change (chr "s") with 115%N in *. cbn [N.eqb Pos.eqb andb] in Hc.
    rewrite !orb_true_iff, !N.eqb_eq in Hc. destruct Hc as [[[[C|C]|C]|C]|C]; try discriminate; auto.
  Qed.
  Lemma lit_disjoint l l' : In l ["w"; "d"; "t"; "h"; "m"; "s"]%string -> In l' ["w"; "d"; "t"; "h"; "m"; "s"]%string -> l <> l' ->
    forall c, lit l c = true -> lit l' c = true -> False.
  Proof.
    intros Hl Hl' Hne c Hc Hc'. pose proof (lit_values l c Hl Hc) as V. pose proof (lit_values l' c Hl' Hc') as V'. clear Hc Hc'.
    cbn [In] in Hl, Hl'.
    destruct Hl as [<-|[<-|[<-|[<-|[<-|[<-|[]]]]]]]; destruct Hl' as [<-|[<-|[<-|[<-|[<-|[<-|[]]]]]]];
      try (exfalso; apply Hne; reflexivity); destruct V as [->|[->|[-> V]]]; destruct V' as [V'|[V'|[V' V2]]];
      try discriminate; vm_compute in V'; discriminate.
  Qed.
  Ltac lits := cbn [In]; tauto.
  Lemma final_starts p z : final_newline z -> ~ starts p z.
  Proof.
    intros [->| ->]; [apply starts_nil|apply starts_nondigit]. apply (not_isd X Xok); [|unfold ascii_digit]; lia.
  Qed.
  Lemma tail_final_starts z : final_newline z -> tail X z.
  Proof.
    intros [->| ->]; [left; reflexivity|right]. exists 10%N, []. split; [reflexivity|]. split; [|discriminate].
    apply (not_isd X Xok); [|unfold ascii_digit]; lia.
  Qed.
  Lemma point_unique x o z x' o' z' : unit (lit "s") point x o -> unit (lit "s") point x' o' -> final_newline z -> final_newline z' ->
    x ++ z = x' ++ z' -> x = x' /\ o = o' /\ z = z'.
  Proof.
    assert (Ns : nondigit (lit "s")) by (apply lit_nondigit; lits).
    assert (Dot : isd 46%N = false) by (apply (not_isd X Xok); [|unfold ascii_digit]; lia).
    assert (Hs : forall c, lit "s" c = true -> c <> 46%N) by (intros c Hc ->; vm_compute in Hc; discriminate).
    assert (Hnd : forall f k c q, written_fraction dig f k -> lit "s" c = true -> forall y r0, f ++ c :: q = y :: r0 -> isd y = false).
    { intros f k c q [[-> _]|(v & -> & _)] Hc y r0 E; injection E as <- _; [apply Ns; exact Hc|exact Dot]. }
    assert (K : forall w f k c q zz, whole w -> written_fraction dig f k -> lit "s" c = true -> final_newline zz -> zz <> w ++ f ++ c :: q).
    { intros w f k c q zz [Hw1 Hw2] _ _ Hz E. destruct Hw2 as [|y w Hy Hw2]; [congruence|]. destruct Hz as [->| ->]; [discriminate|].
      injection E as <- _. apply (isd_ascii X Xok) in Hy; [unfold ascii_digit in Hy|]; lia. }
    intros [[-> ->]|(n & c & -> & (w & f & k & -> & Hw & Hf) & Hc & ->)] [[-> ->]|(n' & c' & -> & (w' & f' & k' & -> & Hw' & Hf') & Hc' & ->)] Hz Hz' E.
    - auto.
    - exfalso. rewrite <- !app_assoc in E. simpl app in E. exact (K _ _ _ _ _ _ Hw' Hf' Hc' Hz E).
    - exfalso. rewrite <- !app_assoc in E. simpl app in E. exact (K _ _ _ _ _ _ Hw Hf Hc Hz' (eq_sym E)).
    - rewrite <- !app_assoc in E. cbn [app] in E.
      apply (span_unique isd) in E as [-> E]; [|apply Hw|apply Hw'|exact (Hnd _ _ _ _ Hf Hc)|exact (Hnd _ _ _ _ Hf' Hc')].
      destruct (fraction_unique X f k (c :: z) f' k' (c' :: z') Hf Hf') as (-> & _ & E2).
      + right. exists c, z. split; [reflexivity|]. split; [apply Ns; exact Hc|apply Hs; exact Hc].
      + right. exists c', z'. split; [reflexivity|]. split; [apply Ns; exact Hc'|apply Hs; exact Hc'].
      + exact E.
      + injection E2 as -> ->. auto.
  Qed.
  Lemma units_unique r ow od oh om os z r' ow' od' oh' om' os' z' :
    units r ow od oh om os -> units r' ow' od' oh' om' os' -> final_newline z -> final_newline z' -> r ++ z = r' ++ z' ->
    ow = ow' /\ od = od' /\ oh = oh' /\ om = om' /\ os = os' /\ z = z'.
  Proof.
    intros (wk & dy & tp & -> & U1 & U2 & Ht) (wk' & dy' & tp' & -> & U1' & U2' & Ht') Hz Hz' E.
    change (lit_i (chr "w")) with (lit "w") in *. change (lit_i (chr "d")) with (lit "d") in *. change (lit_i (chr "t")) with (lit "t") in *.
    change (lit_i (chr "h")) with (lit "h") in *. change (lit_i (chr "m")) with (lit "m") in *. change (lit_i (chr "s")) with (lit "s") in *.
    assert (ND : forall l, In l ["w"; "d"; "t"; "h"; "m"; "s"]%string -> nondigit (lit l)) by apply lit_nondigit.
    assert (T : forall p q tq zz, final_newline zz ->
      ((tq = [] /\ True) \/ exists t hr, tq = t :: hr /\ lit "t" t = true) -> q = tq ++ zz -> ~ starts p q).
    { intros p q tq zz Hzz [[-> _]|(t & hr & -> & Hc)] ->; [apply final_starts; exact Hzz|].
      apply starts_nondigit. apply (ND "t"%string); [lits|exact Hc]. }
    assert (S : forall p, ~ starts p (tp ++ z)).
    { intro p. apply (T p (tp ++ z) tp z Hz); [|reflexivity]. destruct Ht as [(-> & _)|(t & hr & mi & se & -> & Hc & _)]; [left; auto|right; eauto]. }
    assert (S' : forall p, ~ starts p (tp' ++ z')).
    { intro p. apply (T p (tp' ++ z') tp' z' Hz'); [|reflexivity]. destruct Ht' as [(-> & _)|(t & hr & mi & se & -> & Hc & _)]; [left; auto|right; eauto]. }
    rewrite <- !app_assoc in E.
    apply (unit_unique (lit "w") _ ow _ _ ow') in E as (_ & -> & E); [|apply ND; lits|exact U1|exact U1'
      |apply (starts_unit _ (lit "d") _ od); [apply ND; lits|apply ND; lits|apply lit_disjoint; [lits|lits|discriminate]|exact U2|apply S]
      |apply (starts_unit _ (lit "d") _ od'); [apply ND; lits|apply ND; lits|apply lit_disjoint; [lits|lits|discriminate]|exact U2'|apply S']].
    apply (unit_unique (lit "d") _ od _ _ od') in E as (_ & -> & E); [|apply ND; lits|exact U2|exact U2'|apply S|apply S'].
    split; [reflexivity|]. split; [reflexivity|].
    assert (TZ : forall t q zz, lit "t" t = true -> final_newline zz -> t :: q <> zz).
    { intros t q zz Hc [->| ->] E0; [discriminate|]. injection E0 as -> _. vm_compute in Hc. discriminate. }
    destruct Ht as [(-> & -> & -> & ->)|(t & hr & mi & se & -> & Hc & U5 & U6 & U7)],
             Ht' as [(-> & -> & -> & ->)|(t' & hr' & mi' & se' & -> & Hc' & U5' & U6' & U7')].
    - auto.
    - exfalso. exact (TZ _ _ _ Hc' Hz (eq_sym E)).
    - exfalso. exact (TZ _ _ _ Hc Hz' E).
    - injection E as -> E. rewrite <- !app_assoc in E.
      assert (Q : forall p, nondigit p -> (forall c, p c = true -> lit "s" c = true -> False) -> p 46%N = false -> ~ starts p (se ++ z)).
      { intros p Np Dp Pp. apply (starts_point _ _ os); [exact Np|apply ND; lits|exact Dp|exact Pp|exact U7|apply final_starts; exact Hz]. }
      assert (Q' : forall p, nondigit p -> (forall c, p c = true -> lit "s" c = true -> False) -> p 46%N = false -> ~ starts p (se' ++ z')).
      { intros p Np Dp Pp. apply (starts_point _ _ os'); [exact Np|apply ND; lits|exact Dp|exact Pp|exact U7'|apply final_starts; exact Hz']. }
      apply (unit_unique (lit "h") _ oh _ _ oh') in E as (_ & -> & E); [|apply ND; lits|exact U5|exact U5'
        |apply (starts_unit _ (lit "m") _ om); [apply ND; lits|apply ND; lits|apply lit_disjoint; [lits|lits|discriminate]|exact U6|apply Q; [apply ND; lits|apply lit_disjoint; [lits|lits|discriminate]|reflexivity]]
        |apply (starts_unit _ (lit "m") _ om'); [apply ND; lits|apply ND; lits|apply lit_disjoint; [lits|lits|discriminate]|exact U6'|apply Q'; [apply ND; lits|apply lit_disjoint; [lits|lits|discriminate]|reflexivity]]].
      apply (unit_unique (lit "m") _ om _ _ om') in E as (_ & -> & E); [|apply ND; lits|exact U6|exact U6'
        |apply Q; [apply ND; lits|apply lit_disjoint; [lits|lits|discriminate]|reflexivity]
        |apply Q'; [apply ND; lits|apply lit_disjoint; [lits|lits|discriminate]|reflexivity]].
      destruct (point_unique _ _ _ _ _ _ U7 U7' Hz Hz' E) as (_ & -> & ->). auto.
  Qed.

  (** ** The value *)
  Definition num_of (o : option pystr) : Z := match o with Some w => int_of X w | None => 0 end.
  Definition secs_of (o : option pystr) : Z := match o with Some w => float_us X w | None => 0 end.
  Definition total (sign : Z) (ow od oh om os : option pystr) : Z :=
    sign * ((((num_of ow * 7 + num_of od) * 24 + num_of oh) * 60 + num_of om) * 60 * 1000000 + secs_of os).
  Lemma counted_unit l L s n : (forall c, lit l c = true <-> In c L) ->
    counted dig L s n <-> exists o, unit (lit l) whole s o /\ num_of o = n.
  Proof.
    intro HL. unfold counted, unit. split.
    - intros [[-> ->]|(w & c & -> & Hn & Hc)]; [exists None; auto|]. apply (numeral_iff X) in Hn as (H1 & H2 & ->).
      exists (Some w). split; [|reflexivity]. right. exists w, c. rewrite HL. repeat split; auto.
    - intros (o & [[-> ->]|(w & c & -> & [H1 H2] & Hc & ->)] & <-); [auto|]. right. exists w, c. split; [reflexivity|].
      split; [apply (numeral_iff X); auto|apply HL; exact Hc].
  Qed.
  Lemma counted_point s us : counted_seconds dig (float_us X) s us <-> exists o, unit (lit "s") point s o /\ secs_of o = us.
  Proof.
    assert (HL : forall c, lit "s" c = true <-> In c (u "sS" ++ [383%N])).
    { intro c. split.
      - intro H. apply lit_values in H; [|lits]. destruct H as [->|[->|[-> _]]]; cbn; auto.
      - cbn [In app u]. intros H. cbn in H. destruct H as [<-|[<-|[<-|[]]]]; reflexivity. }
    unfold counted_seconds, unit, point. split.
    - intros [[-> ->]|(w & f & c & n & k & -> & Hn & Hf & Hc & ->)]; [exists None; auto|]. apply (numeral_iff X) in Hn as (H1 & H2 & ->).
      exists (Some (w ++ f)). split; [|reflexivity]. right. exists (w ++ f), c. rewrite HL, <- app_assoc. split; [reflexivity|].
      split; [exists w, f, k; split; [reflexivity|split; [split; assumption|exact Hf]]|auto].
    - intros (o & [[-> ->]|(n & c & -> & (w & f & k & -> & [H1 H2] & Hf) & Hc & ->)] & <-); [auto|]. right.
      exists w, f, c, (int_of X w), k. rewrite <- app_assoc. split; [reflexivity|]. split; [apply (numeral_iff X); auto|].
      split; [exact Hf|]. split; [apply HL; exact Hc|reflexivity].
  Qed.
  Lemma lit_letters l a b : In l ["w"; "d"; "t"; "h"; "m"]%string -> [chr l; (chr l - 32)%N] = [a; b] -> forall c, lit l c = true <-> In c [a; b].
  Proof.
    intros Hl E c. rewrite <- E. cbn [In]. split.
    - intro H. apply lit_values in H; [|cbn [In] in *; tauto]. destruct H as [->|[->|[_ ->]]]; auto.
      exfalso. cbn [In] in Hl. intuition discriminate.
    - intro H. cbn [In] in Hl. destruct Hl as [<-|[<-|[<-|[<-|[<-|[]]]]]]; destruct H as [<-|[<-|[]]]; reflexivity.
  Qed.
  Lemma written_units s sign w d h m us : written_duration dig (float_us X) s sign w d h m us <->
    exists sg p r ow od oh om os, s = sg ++ p ++ r /\ ((sg = [] /\ sign = 1) \/ (sg = u "-" /\ sign = -1)) /\ (p = u "p" \/ p = u "P") /\
      units r ow od oh om os /\ ahead r /\ num_of ow = w /\ num_of od = d /\ num_of oh = h /\ num_of om = m /\ secs_of os = us.
  Proof.
    assert (A : forall r, ahead r <-> exists t c q, r = t ++ c :: q /\ (t = [] \/ t = u "t" \/ t = u "T") /\ dig c <> None).
    { intro r. unfold ahead. split; intros (t & c & q & E & Ht & Hc); exists t, c, q; (split; [exact E|split; [exact Ht|]]).
      - unfold is_digit in Hc. destruct (dig c); congruence.
      - unfold is_digit. destruct (dig c); congruence. }
    assert (LT : forall t, lit "t" t = true <-> [t] = u "t" \/ [t] = u "T").
    { intro t. unfold lit. rewrite lit_t. split; (intros [H|H]; [left|right]); try (rewrite H; reflexivity); injection H as ->; reflexivity. }
    pose proof (lit_letters "w" 119 87 ltac:(cbn [In]; tauto) eq_refl) as Lw. pose proof (lit_letters "d" 100 68 ltac:(cbn [In]; tauto) eq_refl) as Ld.
    pose proof (lit_letters "h" 104 72 ltac:(cbn [In]; tauto) eq_refl) as Lh. pose proof (lit_letters "m" 109 77 ltac:(cbn [In]; tauto) eq_refl) as Lm.
    unfold written_duration. split.
    - intros (sg & p & wk & dy & tp & -> & Hsg & Hp & Hw & Hd & Ht & Ha). apply A in Ha.
      apply (counted_unit "w" [119%N; 87%N] _ _ Lw) in Hw as (ow & Uw & Ew). apply (counted_unit "d" [100%N; 68%N] _ _ Ld) in Hd as (od & Ud & Ed).
      destruct Ht as [(-> & -> & -> & ->)|(t & hr & mi & se & -> & Ht & Hh & Hm & Hs)].
      + exists sg, p, (wk ++ dy ++ []), ow, od, None, None, None. split; [reflexivity|]. split; [exact Hsg|]. split; [exact Hp|].
        split; [exists wk, dy, []; split; [reflexivity|]; split; [exact Uw|]; split; [exact Ud|left; auto]|]. auto 10.
      + apply (counted_unit "h" [104%N; 72%N] _ _ Lh) in Hh as (oh & Uh & Eh). apply (counted_unit "m" [109%N; 77%N] _ _ Lm) in Hm as (om & Um & Em).
        apply counted_point in Hs as (os & Us & Es).
        exists sg, p, (wk ++ dy ++ t ++ hr ++ mi ++ se), ow, od, oh, om, os. split; [reflexivity|]. split; [exact Hsg|]. split; [exact Hp|].
        split; [|auto 10]. exists wk, dy, (t ++ hr ++ mi ++ se). split; [reflexivity|]. split; [exact Uw|]. split; [exact Ud|].
        right. destruct Ht as [->| ->]; [exists 116%N|exists 84%N]; exists hr, mi, se; auto.
    - intros (sg & p & r & ow & od & oh & om & os & -> & Hsg & Hp & (wk & dy & tp & -> & Uw & Ud & Ht) & Ha & Ew & Ed & Eh & Em & Es).
      exists sg, p, wk, dy, tp. split; [reflexivity|]. split; [exact Hsg|]. split; [exact Hp|].
      split; [apply (counted_unit "w" [119%N; 87%N] _ _ Lw); eauto|]. split; [apply (counted_unit "d" [100%N; 68%N] _ _ Ld); eauto|].
      split; [|apply A; exact Ha]. destruct Ht as [(-> & -> & -> & ->)|(t & hr & mi & se & -> & Hc & Uh & Um & Us)]; [left; auto|right].
      exists [t], hr, mi, se. split; [reflexivity|]. split; [apply LT; exact Hc|]. split; [apply (counted_unit "h" [104%N; 72%N] _ _ Lh); eauto|].
      split; [apply (counted_unit "m" [109%N; 77%N] _ _ Lm); eauto|apply counted_point; eauto].
  Qed.

  Definition microseconds (sign w d h m us : Z) : Z := sign * ((((w * 7 + d) * 24 + h) * 60 + m) * 60 * 1000000 + us).
  Theorem C62_reads s sign w d h m us : written_duration dig (float_us X) s sign w d h m us ->
    parse_iso_duration X s = mk_delta (microseconds sign w d h m us).
  Proof.
    intro H. apply written_units in H as (sg & p & r & ow & od & oh & om & os & E & Hsg & Hp & U & Ha & <- & <- & <- & <- & <-).
    assert (Hm : maybe "-" sg) by (destruct Hsg as [[-> _]|[-> _]]; [left|right]; reflexivity).
    assert (Hin : In ([], keep 6 os (keep 5 om (keep 4 oh (keep 3 od (keep 2 ow [(1%nat, sg)]))))) (run (duration_regex X) (s, []))).
    { apply run_duration. exists sg, p, r, r. split; [exact E|]. split; [exact Hm|]. split; [exact Hp|]. split; [exact Ha|].
      split; [rewrite app_nil_r; reflexivity|]. split; [left; reflexivity|]. exists ow, od, oh, om, os. auto. }
    unfold parse_iso_duration. destruct (re_match (duration_regex X) s) as [cs0|] eqn:E0.
    2:{ exfalso. assert (K : exists cs, re_match (duration_regex X) s = Some cs) by (apply re_match_in; eauto). destruct K; congruence. }
    destruct (re_fullmatch (duration_regex X) s) as [cs|] eqn:E1.
    2:{ exfalso. assert (K : exists cs, re_fullmatch (duration_regex X) s = Some cs) by (apply re_fullmatch_in; eauto). destruct K; congruence. }
    apply re_fullmatch_some in E1. apply run_duration in E1 as (sg' & p' & r' & w' & E' & Hm' & Hp' & _ & -> & _ & ow' & od' & oh' & om' & os' & U' & ->).
    rewrite app_nil_r in E'. rewrite E in E'.
    assert (Esg : sg = sg' /\ p ++ r = p' ++ w').
    { apply (maybe_unique "-" 45); [reflexivity|exact Hm|exact Hm'| | |exact E'].
      - intros x r0 Ex ->. destruct Hp as [->| ->]; discriminate.
      - intros x r0 Ex ->. destruct Hp' as [->| ->]; discriminate. }
    destruct Esg as [<- Epr]. assert (Er : r = w').
    { destruct Hp as [->| ->], Hp' as [->| ->]; try discriminate; injection Epr as ->; reflexivity. }
    subst w'. destruct (units_unique r _ _ _ _ _ [] r _ _ _ _ _ [] U U' (or_introl eq_refl) (or_introl eq_refl) eq_refl) as (<- & <- & <- & <- & <- & _).
    match goal with |- context [grp 1 ?c] => set (caps0 := c) end. cbv zeta.
    assert (G1 : grp 1 caps0 = sg) by (destruct ow, od, oh, om, os; reflexivity).
    assert (G2 : num_group X 2 caps0 = num_of ow) by (destruct ow, od, oh, om, os; reflexivity).
    assert (G3 : num_group X 3 caps0 = num_of od) by (destruct ow, od, oh, om, os; reflexivity).
    assert (G4 : num_group X 4 caps0 = num_of oh) by (destruct ow, od, oh, om, os; reflexivity).
    assert (G5 : num_group X 5 caps0 = num_of om) by (destruct ow, od, oh, om, os; reflexivity).
    assert (G6 : match group 6 caps0 with Some w => float_us X w | None => 0 end = secs_of os) by (destruct ow, od, oh, om, os; reflexivity).
    rewrite G1, G2, G3, G4, G5, G6. unfold microseconds. f_equal. destruct Hsg as [[-> ->]|[-> ->]]; reflexivity.
  Qed.
  (** any other text: [ValueError], except that a line feed after a duration is an [AttributeError] *)
  Theorem C62_otherwise s :
    (exists sign w d h m us, written_duration dig (float_us X) s sign w d h m us) \/
    (parse_iso_duration X s = Raise EValue /\
     forall t sign w d h m us, final_newline t -> ~ (exists v, s = v ++ t /\ written_duration dig (float_us X) v sign w d h m us)) \/
    (parse_iso_duration X s = Raise EAttr /\ exists v sign w d h m us, s = v ++ [10%N] /\ written_duration dig (float_us X) v sign w d h m us).
  Proof.
    unfold parse_iso_duration. destruct (re_match (duration_regex X) s) as [cs0|] eqn:E0.
    - assert (K : exists y, In y (run (duration_regex X) (s, []))) by (apply re_match_in; eauto).
      destruct K as ((z & cs) & K). apply run_duration in K as (sg & p & r & v & -> & Hm & Hp & Ha & -> & Hz & ow & od & oh & om & os & U & _).
      assert (Hsg : exists sign, (sg = [] /\ sign = 1) \/ (sg = u "-" /\ sign = -1)) by (destruct Hm as [->| ->]; [exists 1|exists (-1)]; auto).
      destruct Hsg as [sign Hsg]. destruct Hz as [->| ->].
      + left. rewrite app_nil_r in *. exists sign, (num_of ow), (num_of od), (num_of oh), (num_of om), (secs_of os). apply written_units.
        exists sg, p, v, ow, od, oh, om, os. auto 12.
      + right; right. split.
        2:{ exists (sg ++ p ++ v), sign, (num_of ow), (num_of od), (num_of oh), (num_of om), (secs_of os). rewrite <- !app_assoc. split; [reflexivity|].
            apply written_units. exists sg, p, v, ow, od, oh, om, os. split; [reflexivity|]. split; [exact Hsg|]. split; [exact Hp|].
            split; [exact U|]. split; [|auto 10]. destruct Ha as (t & c & q & Ea & Ht & Hc).
            destruct q as [|y q _] using rev_ind.
            - exfalso. apply app_inj_tail in Ea as [_ <-]. apply (isd_ascii X Xok) in Hc; [unfold ascii_digit in Hc|]; lia.
            - change (t ++ c :: q ++ [y]) with (t ++ (c :: q) ++ [y]) in Ea. rewrite app_assoc in Ea. apply app_inj_tail in Ea as [-> _].
              exists t, c, q. auto. }
        destruct (re_fullmatch (duration_regex X) (sg ++ p ++ v ++ [10%N])) as [cs1|] eqn:E1; [|reflexivity]. exfalso.
        apply re_fullmatch_some in E1. apply run_duration in E1 as (sg' & p' & r' & w' & E' & Hm' & Hp' & _ & -> & _ & ow' & od' & oh' & om' & os' & U' & _).
        rewrite app_nil_r in E'.
        assert (Esg : sg = sg' /\ p ++ v ++ [10%N] = p' ++ w').
        { apply (maybe_unique "-" 45); [reflexivity|exact Hm|exact Hm'| | |exact E'].
          - intros x r0 Ex ->. destruct Hp as [->| ->]; discriminate.
          - intros x r0 Ex ->. destruct Hp' as [->| ->]; discriminate. }
        destruct Esg as [<- Epr]. assert (Er : v ++ [10%N] = w' ++ []).
        { rewrite app_nil_r. destruct Hp as [->| ->], Hp' as [->| ->]; try discriminate; injection Epr as ->; reflexivity. }
        destruct (units_unique _ _ _ _ _ _ [10%N] _ _ _ _ _ _ [] U U' (or_intror eq_refl) (or_introl eq_refl) Er) as (_ & _ & _ & _ & _ & C). discriminate.
    - right; left. split; [reflexivity|]. intros t sign w d h m us Ht (v & -> & Hw).
      apply written_units in Hw as (sg & p & r & ow & od & oh & om & os & -> & Hsg & Hp & U & Ha & _).
      assert (Hm : maybe "-" sg) by (destruct Hsg as [[-> _]|[-> _]]; [left|right]; reflexivity).
      assert (K : exists cs, re_match (duration_regex X) ((sg ++ p ++ r) ++ t) = Some cs).
      { apply re_match_in. eexists (t, _). apply run_duration. exists sg, p, (r ++ t), r. rewrite <- !app_assoc. split; [reflexivity|].
        split; [exact Hm|]. split; [exact Hp|]. split.
        - destruct Ha as (t0 & c & q & -> & Ht0 & Hc). exists t0, c, (q ++ t). rewrite <- app_assoc. auto.
        - split; [reflexivity|]. split; [exact Ht|]. exists ow, od, oh, om, os. auto. }
      destruct K. congruence.
  Qed.

  (** ** Writing a duration and reading it back *)
  Lemma fold_uint d : forall acc, fold_left (fun a c => 10 * a + match digit X c with Some v => v | None => 0 end) (uint_chars d) (Z.of_nat acc) = Z.of_nat (Nat.of_uint_acc d acc).
  Proof.
    assert (D : forall n c acc, is_ascii_digit c = true -> Z.of_N c - 48 = Z.of_nat n -> 
      10 * Z.of_nat acc + match digit X c with Some v => v | None => 0 end = Z.of_nat (n + Nat.tail_mul 10 acc)).
    { intros n c acc Hc Hn. destruct Xok as [X1 _]. rewrite (X1 c Hc), Hn, Nat2Z.inj_add, Nat.tail_mul_spec, Nat2Z.inj_mul.
      change (Z.of_nat 10) with 10. lia. }
    induction d as [|d IH|d IH|d IH|d IH|d IH|d IH|d IH|d IH|d IH|d IH]; intro acc; [reflexivity|..];
      cbn [uint_chars fold_left Nat.of_uint_acc].
    all: match goal with |- fold_left _ _ (_ + match digit X ?c with _ => _ end) = _ =>
           let n := eval vm_compute in (N.to_nat (c - 48)) in rewrite (D n c acc eq_refl eq_refl); rewrite IH; f_equal end.
  Qed.
  Lemma int_of_nat_str n : int_of X (nat_str n) = Z.of_nat n.
  Proof.
    unfold int_of, nat_str. change 0 with (Z.of_nat 0). rewrite fold_uint. f_equal. exact (DecimalNat.Unsigned.of_to n).
  Qed.
  Lemma nat_str_nonempty n : nat_str n <> [].
  Proof.
    unfold nat_str. intro H. pose proof (DecimalNat.Unsigned.of_to n) as E.
    destruct (Nat.to_uint n) as [| | | | | | | | | |] eqn:E1; try discriminate. simpl in E. subst n. discriminate.
  Qed.
  Lemma int_str_numeral z : 0 <= z -> numeral dig (int_str z) z.
  Proof.
    intro Hz. apply (numeral_iff X). split; [apply nat_str_nonempty|]. split.
    - eapply Forall_impl; [|apply nat_str_digits]. intros c Hc. cbv beta in Hc. apply (ascii_isd X Xok). unfold ascii_digit. lia.
    - unfold int_str. rewrite int_of_nat_str. lia.
  Qed.
  Lemma unit_text_counted L l c z : u l = [c] -> In c L -> 0 <= z -> counted dig L (unit_text z l) z.
  Proof.
    intros E Hc Hz. unfold unit_text. destruct (Z.eqb_spec z 0) as [->|Hn]; [left; auto|]. right. exists (int_str z), c. rewrite E.
    split; [reflexivity|]. split; [apply int_str_numeral; exact Hz|exact Hc].
  Qed.
  Lemma unit_text_nil z l : unit_text z l = [] -> z = 0.
  Proof.
    unfold unit_text. destruct (Z.eqb_spec z 0); [auto|]. intro H. apply app_eq_nil in H as [H _]. exfalso. exact (nat_str_nonempty _ H).
  Qed.
  Lemma unit_text_digit z l r : z <> 0 -> exists c q, unit_text z l ++ r = c :: q /\ dig c <> None.
  Proof.
    intro Hz. unfold unit_text. destruct (Z.eqb_spec z 0) as [->|Hn]; [congruence|]. unfold int_str.
    pose proof (nat_str_digits (Z.to_nat z)) as Hd. pose proof (nat_str_nonempty (Z.to_nat z)) as Hne.
    destruct (nat_str (Z.to_nat z)) as [|c q]; [congruence|]. exists c, ((q ++ u l) ++ r). split; [reflexivity|].
    inversion Hd as [|? ? Hc _]; subst. assert (K : isd c = true) by (apply (ascii_isd X Xok); unfold ascii_digit; lia).
    unfold is_digit in K. destruct (dig c); congruence.
  Qed.
  Lemma first_digit zs ls z l r : length zs = length ls -> (exists y, In y (zs ++ [z]) /\ y <> 0) ->
    exists c q, List.concat (map (fun p => unit_text (fst p) (snd p)) (combine zs ls)) ++ unit_text z l ++ r = c :: q /\ dig c <> None.
  Proof.
    revert ls. induction zs as [|y zs IH]; intros [|l0 ls] Hl (y0 & Hy & Hn); try discriminate.
    - cbn. destruct Hy as [<-|[]]. apply unit_text_digit. exact Hn.
    - cbn [combine map fst snd List.concat]. destruct (Z.eq_dec y 0) as [->|Hy0].
      + assert (E : unit_text 0 l0 = []) by reflexivity. rewrite E. apply IH; [cbn in Hl; lia|]. exists y0. split; [|exact Hn]. cbn in Hy. destruct Hy as [<-|Hy]; [congruence|exact Hy].
      + rewrite <- app_assoc. apply unit_text_digit. exact Hy0.
  Qed.
  Theorem C62_writes secs : secs <> 0 -> (forall n, 0 <= n < 60 -> float_us X (int_str n) = n * 1000000) ->
    exists sign w d h m s, written_duration dig (float_us X) (iso_duration_text secs) sign w d h m (s * 1000000) /\
      0 <= w /\ 0 <= d < 7 /\ 0 <= h < 24 /\ 0 <= m < 60 /\ 0 <= s < 60 /\
      secs = sign * ((((w * 7 + d) * 24 + h) * 60 + m) * 60 + s).
  Proof.
    intros Hs Hf. unfold iso_duration_text. set (a := Z.abs secs).
    assert (Ha : 0 < a) by lia.
    set (mi := a / 60). set (s := a mod 60). set (ho := mi / 60). set (m := mi mod 60). set (da := ho / 24). set (h := ho mod 24).
    set (w := da / 7). set (d := da mod 7).
    assert (B1 : 0 <= s < 60) by (apply Z.mod_pos_bound; lia). assert (B2 : 0 <= m < 60) by (apply Z.mod_pos_bound; lia).
    assert (B3 : 0 <= h < 24) by (apply Z.mod_pos_bound; lia). assert (B4 : 0 <= d < 7) by (apply Z.mod_pos_bound; lia).
    assert (Q1 : a = 60 * mi + s) by (apply Z.div_mod; lia). assert (Q2 : mi = 60 * ho + m) by (apply Z.div_mod; lia).
    assert (Q3 : ho = 24 * da + h) by (apply Z.div_mod; lia). assert (Q4 : da = 7 * w + d) by (apply Z.div_mod; lia).
    assert (B5 : 0 <= w) by lia.
    set (sign := if secs <? 0 then -1 else 1).
    exists sign, w, d, h, m, s. split.
    2:{ repeat (split; [assumption|]). unfold sign. destruct (Z.ltb_spec secs 0); lia. }
    assert (NZ : w <> 0 \/ d <> 0 \/ h <> 0 \/ m <> 0 \/ s <> 0) by lia.
    clearbody s m h d w. clear Q1 Q2 Q3 Q4.
    set (time := unit_text h "H" ++ unit_text m "M" ++ unit_text s "S").
    exists (if secs <? 0 then u "-" else []), (u "P"), (unit_text w "W"), (unit_text d "D"), (match time with [] => [] | _ => u "T" ++ time end).
    split; [reflexivity|]. split; [unfold sign; destruct (secs <? 0); auto|]. split; [right; reflexivity|].
    split; [apply (unit_text_counted _ _ 87%N); [reflexivity|cbn; tauto|lia]|]. split; [apply (unit_text_counted _ _ 68%N); [reflexivity|cbn; tauto|lia]|].
    assert (TZ : time = [] -> h = 0 /\ m = 0 /\ s = 0).
    { intro E. apply app_eq_nil in E as [E1 E]. apply app_eq_nil in E as [E2 E3]. apply unit_text_nil in E1, E2, E3. auto. }
    assert (TN : h <> 0 \/ m <> 0 \/ s <> 0 -> exists c q, time = c :: q /\ dig c <> None).
    { intro N. pose proof (first_digit [h; m] ["H"; "M"]%string s "S" [] eq_refl) as K. cbn [combine map fst snd List.concat] in K.
      rewrite !app_nil_r, <- !app_assoc in K. apply K. destruct N as [N|[N|N]]; [exists h|exists m|exists s]; (split; [cbn; tauto|exact N]). }
    split.
    - destruct (time) as [|c q] eqn:Et; [left; destruct (TZ eq_refl) as (-> & -> & ->); auto|right]. rewrite <- Et.
      exists (u "T"), (unit_text h "H"), (unit_text m "M"), (unit_text s "S"). split; [reflexivity|]. split; [right; reflexivity|].
      split; [apply (unit_text_counted _ _ 72%N); [reflexivity|cbn; tauto|lia]|]. split; [apply (unit_text_counted _ _ 77%N); [reflexivity|cbn; tauto|lia]|].
      unfold counted_seconds, unit_text. destruct (Z.eqb_spec s 0) as [->|Hn]; [left; auto|right].
      exists (int_str s), [], 83%N, s, 0. split; [reflexivity|]. split; [apply int_str_numeral; lia|]. split; [left; auto|].
      split; [cbn; tauto|]. rewrite app_nil_r. symmetry. apply Hf. exact B1.
    - destruct (Z.eq_dec w 0) as [W|W]; [destruct (Z.eq_dec d 0) as [D|D]|].
      + destruct TN as (c & q & Et & Hc); [lia|]. rewrite W, D, Et. exists (u "T"), c, q. split; [reflexivity|]. auto.
      + rewrite W. destruct (unit_text_digit d "D" (match time with [] => [] | _ => u "T" ++ time end) D) as (c & q & E & Hc).
        exists [], c, q. split; [exact E|]. auto.
      + destruct (unit_text_digit w "W" (unit_text d "D" ++ match time with [] => [] | _ => u "T" ++ time end) W) as (c & q & E & Hc).
        exists [], c, q. split; [exact E|]. auto.
  Qed.
  (** Full claim: for every [timedelta], zero included.  It fails at zero
      ([C62_roundtrip_refuted]); fractions of a second go through binary floats and are not modelled. *)
  Theorem C62_roundtrip_partial secs : delta_range secs -> secs <> 0 ->
    (forall n, 0 <= n < 60 -> float_us X (int_str n) = n * 1000000) ->
    parse_iso_duration X (iso_duration_text secs) = Ok (secs * 1000000).
  Proof.
    intros Hr Hs Hf. destruct (C62_writes secs Hs Hf) as (sign & w & d & h & m & s & Hw & _ & _ & _ & _ & _ & E).
    rewrite (C62_reads _ _ _ _ _ _ _ Hw). unfold microseconds, mk_delta, us_per_day.
    replace (sign * ((((w * 7 + d) * 24 + h) * 60 + m) * 60 * 1000000 + s * 1000000)) with (secs * 1000000) by lia.
    unfold delta_range in Hr. rewrite (proj2 (Z.leb_le _ _)) by lia. rewrite (proj2 (Z.ltb_lt _ _)) by lia. reflexivity.
  Qed.
End Iso.

(** the reading half on every input: a value or one of three exceptions *)
Theorem C62_outcomes X s : digits_ok X -> digit X 383%N = None ->
  (exists sign w d h m us, written_duration (digit X) (float_us X) s sign w d h m us /\
     let t := microseconds sign w d h m us in
     parse_iso_duration X s = if (-999999999 * 86400000000 <=? t) && (t <? 1000000000 * 86400000000) then Ok t else Raise EOverflow) \/
  parse_iso_duration X s = Raise EValue \/ parse_iso_duration X s = Raise EAttr.
Proof.
  intros Xok Hs. destruct (C62_otherwise X Xok Hs s) as [(sign & w & d & h & m & us & H)|[[H _]|[H _]]]; [left|auto|auto].
  exists sign, w, d, h, m, us. split; [exact H|]. cbv zeta. rewrite (C62_reads X Xok Hs _ _ _ _ _ _ _ H). reflexivity.
Qed.
Theorem C62_roundtrip_refuted X : parse_iso_duration X (iso_duration_text 0) = Raise EValue.
Proof. reflexivity. Qed.

(** a runtime meeting the hypotheses, and a round trip in it *)
Definition iso_sec : iso_env := IsoEnv (digit iso_ex) (fun w => int_of iso_ex w * 1000000).
Example C62_runtime : digits_ok iso_sec /\ digit iso_sec 383%N = None /\
  forall n, 0 <= n < 60 -> float_us iso_sec (int_str n) = n * 1000000.
Proof.
  split; [exact iso_ex_ok|]. split; [reflexivity|]. intros n Hn. unfold iso_sec, int_str. cbn [float_us].
  rewrite (int_of_nat_str iso_ex iso_ex_ok). lia.
Qed.
Example C62_some : iso_duration_text 694861 = u "P1W1DT1H1M1S" /\ iso_duration_text (-694861) = u "-P1W1DT1H1M1S" /\
  iso_duration_text 86400 = u "P1D" /\ iso_duration_text (-45) = u "-PT45S" /\ delta_range (-694861) /\
  parse_iso_duration iso_sec (u "-P1W1DT1H1M1S") = Ok (-694861000000).
Proof. unfold delta_range. repeat split; try lia; vm_compute; reflexivity. Qed.
Example C62_none : parse_iso_duration iso_sec (u "PT") = Raise EValue /\ parse_iso_duration iso_sec (u "P1") = Raise EValue /\
  parse_iso_duration iso_sec (u "P1D" ++ [10%N]) = Raise EAttr /\
  parse_iso_duration iso_sec (u "P1000000000D") = Raise EOverflow.
Proof. repeat split; vm_compute; reflexivity. Qed.
