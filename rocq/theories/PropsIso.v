(** C60, C61: dates, times, date-times. *)
From Verif Require Import PyBase PyBaseFacts LeafFacts Regex RegexFacts FormatSpec IsoSpec Iso IsoFacts PropsPointer PropsFormats.
Local Open Scope Z_scope.
Local Notation length := List.length (only parsing).

Section Iso.
  Variable X : iso_env.
  Hypothesis Xok : digits_ok X.
  Local Notation dig := (digit X).

  (** ** C60 *)
  Lemma written_pieces s y m d : written_date dig s y m d -> real_date y m d ->
    exists ys h1 ms h2 ds, s = ys ++ h1 ++ ms ++ h2 ++ ds /\ date_pieces X ys h1 ms h2 ds y m d.
  Proof.
    intros (ys & h1 & ms & h2 & ds & -> & Hy & Ly & H1 & Hm & H2 & Hd) Hr. apply real_date_bounds in Hr as [Bm Bd].
    exists ys, h1, ms, h2, ds. split; [reflexivity|].
    exact (conj Hy (conj Ly (conj H1 (conj (conj Hm Bm) (conj H2 (conj Hd Bd)))))).
  Qed.
  Lemma date_pure : pure (seqs (date_body X)) = true.
  Proof. reflexivity. Qed.
  Lemma date_caps w cs : parse (seqs (date_body X)) w [] cs <->
    exists ys h1 ms h2 ds y m d, w = ys ++ h1 ++ ms ++ h2 ++ ds /\ date_pieces X ys h1 ms h2 ds y m d /\
      cs = [(3%nat, ds); (2%nat, ms); (1%nat, ys)].
  Proof.
    replace (date_body X) with (date_body X ++ []) by apply app_nil_r. rewrite (parse_date X Xok). split.
    - intros (ys & h1 & ms & h2 & ds & y & m & d & w' & -> & Hp & H). apply parse_eps in H as [-> ->].
      exists ys, h1, ms, h2, ds, y, m, d. rewrite app_nil_r. auto.
    - intros (ys & h1 & ms & h2 & ds & y & m & d & -> & Hp & ->). exists ys, h1, ms, h2, ds, y, m, d, [].
      rewrite app_nil_r. split; [reflexivity|]. split; [exact Hp|apply parse_eps; auto].
  Qed.
  Lemma pieces_int ys h1 ms h2 ds y m d : date_pieces X ys h1 ms h2 ds y m d ->
    int_of X ys = y /\ int_of X ms = m /\ int_of X ds = d.
  Proof.
    intros (Hy & _ & _ & [Hm _] & _ & [Hd _]). apply (numeral_iff X) in Hy as (_ & _ & ->).
    split; [reflexivity|]. split; eapply field_int; eassumption.
  Qed.
  (** what the text [s] says, a final line feed being ignored *)
  Definition date_of (s : pystr) (y m d : Z) : Prop :=
    exists w t, s = w ++ t /\ final_newline t /\ written_date dig w y m d.
  Theorem C60_date_exact s y m d : parse_iso_date X s = Ok (PDate y m d) <-> date_of s y m d /\ real_date y m d.
  Proof.
    unfold parse_iso_date, date_regex. split.
    - destruct (re_match _ s) as [cs|] eqn:E; [|discriminate]. apply (match_caps _ _ _ date_pure) in E as (w & t & -> & Ht & P).
      apply date_caps in P as (ys & h1 & ms & h2 & ds & y' & m' & d' & -> & Hp & ->).
      unfold grp; cbn [group Nat.eqb]. destruct (pieces_int _ _ _ _ _ _ _ _ Hp) as (-> & -> & ->).
      destruct (mk_date_spec y' m' d') as [[Hr ->]|[_ ->]]; [|discriminate]. intros [= -> -> ->].
      split; [|exact Hr]. eexists _, t. split; [reflexivity|]. split; [exact Ht|]. apply pieces_written. exact Hp.
    - intros [(w & t & -> & Ht & Hw) Hr]. apply written_pieces in Hw as (ys & h1 & ms & h2 & ds & -> & Hp); [|exact Hr].
      set (w := ys ++ h1 ++ ms ++ h2 ++ ds). destruct (re_match (Seq (seqs (date_body X)) Eol) (w ++ t)) as [cs|] eqn:E.
      + apply (match_caps _ _ _ date_pure) in E as (w' & t' & He & Ht' & P).
        apply date_caps in P as (ys' & h1' & ms' & h2' & ds' & y' & m' & d' & -> & Hp' & ->).
        unfold w in He. rewrite <- !app_assoc in He. destruct (date_unique X _ _ _ _ _ _ _ _ _ _ _ _ _ _ _ _ _ _ Hp Hp' He) as (_ & _ & _ & <- & <- & <- & _).
        unfold grp; cbn [group Nat.eqb]. destruct (pieces_int _ _ _ _ _ _ _ _ Hp') as (-> & -> & ->).
        destruct (mk_date_spec y m d) as [[_ ->]|[Hn _]]; [reflexivity|contradiction].
      + exfalso. assert (Hx : exists cs, re_match (Seq (seqs (date_body X)) Eol) (w ++ t) = Some cs).
        { apply match_iff; [exact date_pure|]. exists w, t. eexists. split; [reflexivity|]. split; [exact Ht|].
          apply date_caps. exists ys, h1, ms, h2, ds, y, m, d. split; [reflexivity|]. split; [exact Hp|reflexivity]. }
        destruct Hx as [cs Hx]. congruence.
  Qed.
  Theorem C60_date_otherwise s :
    (~ exists y m d, date_of s y m d /\ real_date y m d) <-> parse_iso_date X s = Raise EValue.
  Proof.
    assert (D : (exists y m d, parse_iso_date X s = Ok (PDate y m d)) \/ parse_iso_date X s = Raise EValue).
    { unfold parse_iso_date. destruct (re_match _ s) as [cs|]; [|auto]. unfold mk_date. destruct (_ && _); eauto. }
    split.
    - intro H. destruct D as [(y & m & d & E)|E]; [|exact E]. exfalso. apply H. exists y, m, d. apply C60_date_exact. exact E.
    - intros E (y & m & d & H). apply C60_date_exact in H. congruence.
  Qed.
  Theorem C60_date_partial s : ~ In 10%N s ->
    (forall y m d, parse_iso_date X s = Ok (PDate y m d) <-> written_date dig s y m d /\ real_date y m d) /\
    (parse_iso_date X s = Raise EValue <-> ~ exists y m d, written_date dig s y m d /\ real_date y m d).
  Proof.
    intro Hn.
    assert (E : forall y m d, date_of s y m d <-> written_date dig s y m d).
    { intros y m d. split.
      - intros (w & t & Hs & Ht & Hw). rewrite (no_newline s w t Hn Hs Ht). exact Hw.
      - intro H. exists s, []. rewrite app_nil_r. split; [reflexivity|]. split; [left; reflexivity|exact H]. }
    split.
    - intros y m d. rewrite C60_date_exact, E. reflexivity.
    - rewrite <- C60_date_otherwise. split; intros H (y & m & d & H1 & H2); apply H; exists y, m, d; (split; [apply E; exact H1|exact H2]).
  Qed.
End Iso.
Definition iso_ex : iso_env := IsoEnv (fun c => if is_ascii_digit c then Some (Z.of_N c - 48) else None) (fun _ => 0).
Lemma iso_ex_ok : digits_ok iso_ex.
Proof.
  split; [|split].
  - intros c H. simpl. rewrite H. reflexivity.
  - intros c _ H. simpl. rewrite H. reflexivity.
  - intros c v H. simpl in H. destruct (is_ascii_digit c) eqn:E; [|discriminate]. injection H as <-.
    apply ascii_digit_iff in E. unfold ascii_digit in E. lia.
Qed.
Lemma numeral_no_newline X w n : digits_ok X -> numeral (digit X) w n -> ~ In 10%N w.
Proof.
  intros Xok H Hi. apply (numeral_iff X) in H as (_ & H & _). rewrite Forall_forall in H. apply H in Hi.
  apply (isd_ascii X Xok) in Hi; [unfold ascii_digit in Hi|]; lia.
Qed.
(** A line feed after a date is accepted although it is not part of any date. *)
Theorem C60_date_refuted : exists X s, digits_ok X /\ parse_iso_date X s = Ok (PDate 2024 2 29) /\
  ~ exists y m d, written_date (digit X) s y m d.
Proof.
  exists iso_ex, (u "2024-02-29" ++ [10%N]). split; [exact iso_ex_ok|]. split; [vm_compute; reflexivity|].
  intros (y & m & d & ys & h1 & ms & h2 & ds & E & Hy & _ & H1 & Hm & H2 & Hd).
  assert (Hi : In 10%N (ys ++ h1 ++ ms ++ h2 ++ ds)) by (rewrite <- E; apply in_or_app; right; left; reflexivity).
  assert (K : forall h, maybe "-" h -> ~ In 10%N h) by (intros h [->| ->] F; cbn in F; intuition discriminate).
  repeat (apply in_app_or in Hi as [Hi|Hi]).
  - exact (numeral_no_newline _ _ _ iso_ex_ok Hy Hi).
  - exact (K _ H1 Hi).
  - exact (numeral_no_newline _ _ _ iso_ex_ok (proj1 Hm) Hi).
  - exact (K _ H2 Hi).
  - exact (numeral_no_newline _ _ _ iso_ex_ok (proj1 Hd) Hi).
Qed.
Example C60_leap : (exists y m d, written_date (digit iso_ex) (u "2024-0229") y m d /\ real_date y m d) /\
  ~ (exists y m d, written_date (digit iso_ex) (u "2023-02-29") y m d /\ real_date y m d) /\
  ~ (exists y m d, written_date (digit iso_ex) (u "1900-02-29") y m d /\ real_date y m d).
Proof.
  split; [|split]; [exists 2024, 2, 29|..]; (apply (C60_date_partial iso_ex iso_ex_ok); [cbn; intuition discriminate|vm_compute; reflexivity]).
Qed.
