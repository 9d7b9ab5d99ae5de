(** C96 and C98, character by character: which spaces and digits of other
    alphabets count as the ASCII ones. *)
From Verif Require Import PyBase PyVal Regex Iso Formats FormatSpec PropsUrl StdText PropsStd.
Local Open Scope nat_scope.
Local Notation length := List.length (only parsing).

Section Chars.
  Variables (X : iso_env) (str_of : pv -> pystr) (re_compiles decimal_list : pv -> bool).
  Hypothesis Xok : digits_ok X.
  Local Notation accepts := (accepts X str_of re_compiles decimal_list).

  (** the ASCII character that counts instead: a space for any white space, the
      digit for a digit of another alphabet; any other character is none *)
  Inductive read_as : N -> N -> Prop :=
  | ra_ascii c : (c < 127)%N -> read_as c c
  | ra_space c : (127 <= c)%N -> white_space c -> read_as c 32%N
  | ra_digit c d : (127 <= c)%N -> ~ white_space c -> digit X c = Some d -> read_as c (48 + Z.to_N d)%N.

  Lemma not_space c : ~ white_space c -> is_space c = false.
  Proof. intro H. destruct (is_space c) eqn:E; [destruct (H (proj1 (space_iff c) E))|reflexivity]. Qed.
  Lemma read_ascii c c' : read_as c c' -> as_ascii X c = c'.
  Proof.
    unfold as_ascii. intros [x H|x H W|x d H W D].
    - rewrite (proj2 (N.ltb_lt _ _) H). reflexivity.
    - rewrite (proj2 (N.ltb_ge _ _) H), (proj2 (space_iff x) W). reflexivity.
    - rewrite (proj2 (N.ltb_ge _ _) H), (not_space x W), D. reflexivity.
  Qed.
  Lemma ascii_read c : as_ascii X c <> 63%N -> read_as c (as_ascii X c).
  Proof.
    unfold as_ascii. destruct (N.ltb_spec c 127) as [L|L]; [intros _; constructor; exact L|].
    destruct (is_space c) eqn:S; [intros _; apply ra_space; [exact L|apply space_iff, S]|].
    destruct (digit X c) as [d|] eqn:D; [|congruence]. intros _. apply ra_digit; [exact L|rewrite <- space_iff; congruence|exact D].
  Qed.
  Lemma no_delete : digit X 127%N = None.
  Proof. apply Xok; [lia|reflexivity]. Qed.
  Lemma read_127 c : ~ read_as 127%N c.
  Proof.
    inversion 1 as [x L|x L W|x d L W D]; subst; [lia| |].
    - unfold white_space in W. cbn [In] in W. lia.
    - rewrite no_delete in D. discriminate.
  Qed.
  Lemma reads_map h t : Forall2 read_as h t -> map (as_ascii X) h = t.
  Proof. induction 1 as [|c c' h t H _ IH]; [reflexivity|]. cbn [map]. rewrite IH, (read_ascii _ _ H). reflexivity. Qed.
  Lemma map_reads h : (forall c, In c (map (as_ascii X) h) -> c <> 63%N) -> Forall2 read_as h (map (as_ascii X) h).
  Proof.
    induction h as [|c h IH]; intro H; [constructor|]. cbn [map] in *. constructor; [apply ascii_read, H; left; reflexivity|].
    apply IH. intros x Hx. apply H. right. exact Hx.
  Qed.

  (** ** C96 *)
  Lemma int16_chars t c : int16_text t -> In c t -> (c <= 126)%N /\ c <> 63%N.
  Proof.
    intros (s1 & sg & pre & w & s2 & H1 & H2 & Hs & Hp & (ws & _ & Fw & ->) & ->). rewrite !in_app_iff.
    intros [H|[H|[H|[H|H]]]].
    - specialize (H1 _ H). lia.
    - destruct Hs as [->| ->]; vm_compute in H; lia.
    - cbn in Hp. destruct Hp as [<-|[<-|[<-|[<-|[<-|[]]]]]]; vm_compute in H; lia.
    - clear - Fw H. revert H. change (u "_") with [95%N]. induction Fw as [|r ws [_ Hr] _ IH]; [intros []|].
      destruct ws as [|r2 ws]; cbn [join].
      + intro H. specialize (Hr _ H). unfold hex_digit in Hr. lia.
      + rewrite !in_app_iff. intros [H|[H|H]]; [specialize (Hr _ H); unfold hex_digit in Hr; lia|destruct H as [<-|[]]; lia|exact (IH H)].
    - specialize (H2 _ H). lia.
  Qed.
  Lemma to_ascii_reads h : int16_text (to_ascii X h) <-> exists t, Forall2 read_as h t /\ int16_text t.
  Proof.
    unfold to_ascii. destruct (forallb (fun c => N.ltb c 128) h) eqn:A.
    - assert (R : forall l, (forall c, In c l -> (c < 128)%N) -> ~ In 127%N l -> Forall2 read_as l l).
      { induction l as [|c l IH]; intros H N; [constructor|]. constructor; [|apply IH; [intros x Hx; apply H; right; exact Hx|intro Hx; apply N; right; exact Hx]].
        constructor. assert (c <> 127%N) by (intros ->; apply N; left; reflexivity). specialize (H c (or_introl eq_refl)). lia. }
      split.
      + intro H. exists h. split; [|exact H]. apply R; [intros c Hc; rewrite forallb_forall in A; apply N.ltb_lt, A, Hc|].
        intro H127. apply (int16_chars _ _ H) in H127. lia.
      + intros (t & F & H). replace h with t; [exact H|]. rewrite <- (reads_map _ _ F).
        rewrite <- (map_id h) at 2. apply map_ext_in. intros c Hc. unfold as_ascii. replace (c <? 127)%N with true; [reflexivity|]. symmetry. apply N.ltb_lt.
        rewrite forallb_forall in A. assert (L : (c < 128)%N) by (apply N.ltb_lt, A, Hc). destruct (N.eq_dec c 127) as [->|]; [|lia]. exfalso.
        destruct (in_split _ _ Hc) as (a & b & ->). apply Forall2_app_inv_l in F as (t1 & t2 & _ & F & _). inversion F as [|? y ? ? Q _]; subst. exact (read_127 _ Q).
    - split.
      + intro H. exists (map (as_ascii X) h). split; [|exact H]. apply map_reads. intros c Hc. apply (int16_chars _ _ H Hc).
      + intros (t & F & H). rewrite (reads_map _ _ F). exact H.
  Qed.
  Theorem C96_uuid_chars s : accepts "uuid" (VStr s) <->
    let h := replace (u "-") [] (strip brace (replace (u "uuid:") [] (replace (u "urn:") [] s))) in
    length h = 32 /\ exists t, Forall2 read_as h t /\ int16_text t.
  Proof. rewrite C96_uuid_exact. cbv zeta. rewrite to_ascii_reads. reflexivity. Qed.

  (** ** C98 *)
  Lemma decimal_chars t c : decimal_number t -> In c t -> (33 <= c <= 126)%N /\ c <> 63%N.
  Proof.
    intros (sg & i & pt & f & w & x & Hs & Hi & Hf & _ & Hp & He & _ & ->).
    assert (D : forall y, digits_only y -> In c y -> (33 <= c <= 126)%N /\ c <> 63%N) by (intros y Hy Hc; specialize (Hy c Hc); unfold ascii_digit in Hy; lia).
    rewrite !in_app_iff. intros [H|[H|[H|[H|H]]]].
    - destruct Hs as [->|[->| ->]]; vm_compute in H; lia.
    - exact (D i Hi H).
    - destruct Hp as [[-> _]| ->]; vm_compute in H; lia.
    - exact (D f Hf H).
    - destruct He as [[-> _]|(e & d & He & (_ & Hd) & Hw)]; [destruct H|].
      assert (W : In c e \/ c = 43%N \/ c = 45%N \/ In c d).
      { destruct Hw as [[[->| ->] _]|[-> _]]; rewrite ?in_app_iff in H; change (u "+") with [43%N] in H; change (u "-") with [45%N] in H; cbn [In] in H; intuition auto. }
      destruct W as [W|[->|[->|W]]]; [destruct He as [->| ->]; (vm_compute in W; lia)|lia|lia|exact (D d Hd W)].
  Qed.
  (** the white space around the text and the underscores in it do not count *)
  Definition no_underscores (s : pystr) : pystr := filter (fun c => negb (N.eqb c 95)) s.
  Definition spaces (w : pystr) : Prop := forall c, In c w -> white_space c.
  Lemma spaces_iff w : spaces w <-> forallb is_space w = true.
  Proof. rewrite forallb_forall. split; intros H c Hc; apply space_iff, H, Hc. Qed.
  Lemma numeric_form s : numeric_ascii X s = map (fun c => if between 1 127 c then c else as_ascii X c) (no_underscores (strip is_space s)).
  Proof. reflexivity. Qed.
  Lemma strip_parts s : exists w1 w2, s = w1 ++ strip is_space s ++ w2 /\ spaces w1 /\ spaces w2.
  Proof.
    destruct (lstrip_spec is_space s) as (w1 & E1 & P1 & _). destruct (lstrip_spec is_space (rev (lstrip is_space s))) as (w2 & E2 & P2 & _).
    exists w1, (rev w2). split; [|split; [apply spaces_iff, P1|apply spaces_iff]].
    - rewrite E1 at 1. f_equal. rewrite <- (rev_involutive (lstrip is_space s)) at 1. rewrite E2, rev_app_distr. reflexivity.
    - apply forallb_forall. intros c Hc. rewrite forallb_forall in P2. apply P2, in_rev, Hc.
  Qed.
  Lemma strip_ends m : match m with c :: _ => is_space c = false | [] => True end ->
    match rev m with c :: _ => is_space c = false | [] => True end -> forall w1 w2, spaces w1 -> spaces w2 -> strip is_space (w1 ++ m ++ w2) = m.
  Proof.
    intros H1 H2 w1 w2 S1 S2. unfold strip. destruct m as [|c m].
    - cbn [app]. assert (A : forall w, forallb is_space w = true -> lstrip is_space w = []) by (induction w as [|y w IH]; [reflexivity|]; cbn; intros Q; apply andb_true_iff in Q as [-> Q]; exact (IH Q)).
      rewrite (A (w1 ++ w2)); [reflexivity|]. rewrite forallb_app. apply andb_true_iff. split; apply spaces_iff; assumption.
    - rewrite (lstrip_app is_space w1); [|apply spaces_iff, S1|exact H1]. rewrite rev_app_distr, (lstrip_app is_space (rev w2)).
      + apply rev_involutive.
      + apply forallb_forall. intros x Hx. apply space_iff, S2, in_rev, Hx.
      + destruct (rev (c :: m)); exact H2.
  Qed.
  Theorem C98_decimal_chars s : accepts "decimal" (VStr s) <->
    exists w1 m w2 t, s = w1 ++ m ++ w2 /\ spaces w1 /\ spaces w2 /\ Forall2 read_as (no_underscores m) t /\ decimal_number t.
  Proof.
    rewrite C98_decimal_exact, numeric_form.
    assert (F : forall c, (33 <= c)%N -> c <> 127%N -> (if between 1 127 c then c else as_ascii X c) = as_ascii X c).
    { intros c H1 H2. unfold between. destruct (N.leb_spec 1 c), (N.leb_spec c 127); cbn [andb]; try reflexivity. unfold as_ascii. replace (c <? 127)%N with true; [reflexivity|]. symmetry. apply N.ltb_lt. lia. }
    split.
    - intro H. destruct (strip_parts s) as (w1 & w2 & E & S1 & S2). set (m := strip is_space s) in *.
      exists w1, m, w2, (map (fun c => if between 1 127 c then c else as_ascii X c) (no_underscores m)). split; [exact E|]. split; [exact S1|]. split; [exact S2|]. split; [|exact H].
      clear E. set (n := no_underscores m) in *. clearbody n. clear m S1 S2 w1 w2.
      assert (Q : forall c, In c (map (fun c => if between 1 127 c then c else as_ascii X c) n) -> (33 <= c <= 126)%N /\ c <> 63%N) by (intros c Hc; exact (decimal_chars _ _ H Hc)).
      clear H. induction n as [|c n IH]; [constructor|]. cbn [map] in *. constructor; [|apply IH; intros x Hx; apply Q; right; exact Hx].
      specialize (Q _ (or_introl eq_refl)). unfold between in *. destruct ((1 <=? c) && (c <=? 127))%N; [constructor; lia|]. apply ascii_read. lia.
    - intros (w1 & m & w2 & t & -> & S1 & S2 & Fm & H).
      assert (K : forall a b, spaces a -> spaces b -> map (fun c => if between 1 127 c then c else as_ascii X c) (no_underscores m) = t) by
        (intros a b _ _; rewrite <- (reads_map _ _ Fm); apply map_ext_in; intros c Hc; apply F;
         [destruct (in_split _ _ Hc) as (x & y & Exy)|intros ->; destruct (in_split _ _ Hc) as (x & y & Exy)];
         rewrite Exy in Fm; apply Forall2_app_inv_l in Fm as (t1 & t2 & _ & Fm & ->); inversion Fm as [|? z ? t3 Q _]; subst;
         [assert (Hz : In z (t1 ++ z :: t3)) by (apply in_app_iff; right; left; reflexivity); apply (decimal_chars _ _ H) in Hz; destruct Q; lia|exact (read_127 _ Q)]).
      rewrite strip_ends.
      + rewrite (K [] []); [exact H|intros ? []..].
      + destruct m as [|c m]; [trivial|]. apply not_space. intro W.
        assert (c <> 95%N) by (intros ->; unfold white_space in W; cbn [In] in W; lia). unfold no_underscores in Fm. cbn [filter] in Fm.
        replace (negb (N.eqb c 95)) with true in Fm by (symmetry; apply negb_true_iff, N.eqb_neq; assumption). inversion Fm as [|? z ? t3 Q _]; subst.
        assert (Hz : (33 <= z <= 126)%N /\ z <> 63%N) by (apply (decimal_chars _ _ H); left; reflexivity). destruct Q as [x L|x L V|x d L V D]; [|lia|contradiction].
        unfold white_space in W. cbn [In] in W. lia.
      + destruct (rev m) as [|c r] eqn:Er; [trivial|]. apply not_space. intro W. assert (Em : m = rev r ++ [c]) by (rewrite <- (rev_involutive m), Er; reflexivity).
        assert (c <> 95%N) by (intros ->; unfold white_space in W; cbn [In] in W; lia). rewrite Em in Fm. unfold no_underscores in Fm. rewrite filter_app in Fm. cbn [filter] in Fm.
        replace (negb (N.eqb c 95)) with true in Fm by (symmetry; apply negb_true_iff, N.eqb_neq; assumption). apply Forall2_app_inv_l in Fm as (t1 & t2 & _ & Fm & ->). inversion Fm as [|? z ? t3 Q _]; subst.
        assert (Hz : (33 <= z <= 126)%N /\ z <> 63%N) by (apply (decimal_chars _ _ H), in_app_iff; right; left; reflexivity). destruct Q as [x L|x L V|x d L V D]; [|lia|contradiction].
        unfold white_space in W. cbn [In] in W. lia.
      + exact S1.
      + exact S2.
  Qed.
End Chars.

(** Arabic digits, an ideographic space and underscores: twelve and a half *)
Definition arabic : iso_env :=
  IsoEnv (fun c => if is_ascii_digit c then Some (Z.of_N c - 48)%Z else if between 1632 1641 c then Some (Z.of_N c - 1632)%Z else None) (fun _ => 0%Z).
Example arabic_ok : digits_ok arabic.
Proof.
  split; [|split]; cbn [digit arabic].
  - intros c H. rewrite H. reflexivity.
  - intros c L H. rewrite H. unfold between. replace (1632 <=? c)%N with false by (symmetry; apply N.leb_gt; lia). reflexivity.
  - intros c v. destruct (is_ascii_digit c) eqn:A; [intros [= <-]; unfold is_ascii_digit, between in A; lia|].
    destruct (between 1632 1641 c) eqn:B; [intros [= <-]; unfold between in B; lia|discriminate].
Qed.
Example C98_arabic str_of rc dl : accepts arabic str_of rc dl "decimal" (VStr ([12288; 1633; 95; 1634; 46; 1637]%N)).
Proof.
  apply (C98_decimal_chars arabic str_of rc dl arabic_ok). exists [12288%N], [1633; 95; 1634; 46; 1637]%N, [], (u "12.5").
  split; [reflexivity|]. split; [intros c [<-|[]]; unfold white_space; cbn [In]; tauto|]. split; [intros c []|]. split.
  - assert (K : forall c d, (127 <= c)%N -> is_space c = false -> digit arabic c = Some d -> read_as arabic c (48 + Z.to_N d)%N) by (intros c d H1 H2 H3; apply ra_digit; [exact H1|rewrite <- space_iff; congruence|exact H3]).
    repeat constructor; first [apply (K _ 1%Z)|apply (K _ 2%Z)|apply (K _ 5%Z)|idtac]; first [reflexivity|lia].
  - apply decimal_iff. vm_compute. reflexivity.
Qed.
