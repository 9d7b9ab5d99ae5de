(** C59, C63, C64: the hostname, semver and email formats. *)
From Verif Require Import PyBase PyBaseFacts LeafFacts PyVal Regex RegexFacts FormatSpec Iso Formats PropsPointer.
Local Open Scope N_scope.
Local Notation length := List.length (only parsing).

Lemma Forall_In {A} (P : A -> Prop) l : Forall P l <-> forall x, In x l -> P x.
Proof. apply Forall_forall. Qed.

Lemma between_iff a b c : between a b c = true <-> a <= c <= b.
Proof. unfold between. rewrite andb_true_iff, !N.leb_le. tauto. Qed.
Lemma among_In l c : among l c = true <-> In c l.
Proof.
  unfold among. rewrite existsb_exists. split.
  - intros (x & H & E). apply N.eqb_eq in E as ->. exact H.
  - intro H. exists c. split; [exact H|apply N.eqb_refl].
Qed.
Lemma one_iff a c : one a c = true <-> c = a.
Proof. apply N.eqb_eq. Qed.
Lemma letter_i_iff c : is_letter_i c = true <-> folded_letter c.
Proof.
  unfold is_letter_i, folded_letter, ascii_letter, is_lower, is_upper.
  rewrite !orb_true_iff, !between_iff, among_In. tauto.
Qed.
Lemma ascii_digit_iff c : is_ascii_digit c = true <-> ascii_digit c.
Proof. apply between_iff. Qed.
Lemma alnum_iff c : alnum_i c = true <-> word_char folded_letter c.
Proof. unfold alnum_i, word_char. rewrite orb_true_iff, letter_i_iff, ascii_digit_iff. tauto. Qed.
Lemma alnum_dash_iff c : alnum_dash_i c = true <-> word_char folded_letter c \/ c = hyphen_char.
Proof. unfold alnum_dash_i. rewrite orb_true_iff, alnum_iff, one_iff. reflexivity. Qed.
Lemma not_hyphen c : word_char folded_letter c -> c <> hyphen_char.
Proof.
  intros H ->. unfold word_char, folded_letter, ascii_letter, ascii_digit, hyphen_char in H.
  simpl in H. intuition (try lia; try discriminate).
Qed.

Lemma reads_label w : reads label w <-> host_label folded_letter w.
Proof.
  unfold label, host_label. rewrite reads_seq by reflexivity. split.
  - intros (w1 & w2 & -> & H1 & H2). apply reads_cls in H1 as (c & -> & Hc). apply alnum_iff in Hc.
    apply reads_opt in H2 as [H2| ->].
    + apply reads_seq in H2 as (m & e & -> & Hm & He); [|apply nogrp_upto; reflexivity].
      apply reads_upto_cls in Hm as [Hl Hm]. apply reads_cls in He as (z & -> & Hz). apply alnum_iff in Hz.
      repeat split.
      * rewrite !app_length; simpl; lia.
      * rewrite !app_length; simpl; lia.
      * intros x Hx. apply in_app_or in Hx as [[<-|[]]|Hx]; [tauto|].
        apply in_app_or in Hx as [Hx|[<-|[]]]; [|tauto].
        rewrite Forall_forall in Hm. apply Hm, alnum_dash_iff in Hx. exact Hx.
      * intros x w' [= <- _]. apply not_hyphen; exact Hc.
      * intros x w' E. assert (x = z) as ->; [|apply not_hyphen; exact Hz].
        rewrite app_assoc in E. apply app_inj_tail in E. symmetry. apply E.
    + repeat split; try (simpl; lia).
      * intros x [<-|[]]. tauto.
      * intros x w' [= <- _]. apply not_hyphen; exact Hc.
      * intros x w' E. change ([c] ++ []) with ([] ++ [c]) in E. apply app_inj_tail in E as [_ <-]. apply not_hyphen; exact Hc.
  - intros (Hl & Ha & Hf & Hz). destruct w as [|c w]; [simpl in Hl; lia|].
    exists [c], w. split; [reflexivity|].
    assert (Hc : word_char folded_letter c).
    { destruct (Ha c (or_introl eq_refl)) as [H|H]; [exact H|]. exfalso. exact (Hf c w eq_refl H). }
    split; [apply reads_cls; exists c; split; [reflexivity|apply alnum_iff; exact Hc]|].
    apply reads_opt. destruct w as [|w0 w1 _] using rev_ind; [right; reflexivity|left]. rename w0 into z, w1 into m.
    apply reads_seq; [apply nogrp_upto; reflexivity|]. exists m, [z]. split; [reflexivity|]. split.
    + apply reads_upto_cls. split.
      * simpl in Hl. rewrite app_length in Hl. simpl in Hl. lia.
      * apply Forall_forall. intros x Hx. apply alnum_dash_iff, Ha. right. apply in_or_app. left; exact Hx.
    + apply reads_cls. exists z. split; [reflexivity|]. apply alnum_iff.
      destruct (Ha z) as [H|H]; [right; apply in_or_app; right; left; reflexivity|exact H|].
      exfalso. exact (Hz z (c :: m) eq_refl H).
Qed.

(** [item(?:\.item)*] *)
Lemma reads_dotted r w : nogrp r = true ->
  reads (Seq r (Star (Seq (Cls (one dot)) r))) w <-> dotted_list (reads r) w.
Proof.
  intro Hn. rewrite reads_seq by exact Hn. unfold dotted_list. split.
  - intros (w1 & w2 & -> & H1 & H2). apply reads_star in H2 as (ws & -> & Hf); [|exact Hn].
    assert (Hx : exists l, ws = map (fun x => dot :: x) l /\ Forall (reads r) l).
    { clear H1. induction Hf as [|x ws [Hx _] _ (l & -> & Hl)]; [exists []; split; [reflexivity|constructor]|].
      apply reads_seq in Hx as (d & y & -> & Hd & Hy); [|reflexivity].
      apply reads_cls in Hd as (c & -> & Hc). apply one_iff in Hc as ->. exists (y :: l). split; [reflexivity|constructor; assumption]. }
    destruct Hx as (l & -> & Hl). exists (w1 :: l). split; [discriminate|]. split; [constructor; assumption|].
    symmetry. apply (join_map dot).
  - intros (l & Hl & Hf & ->). destruct Hf as [|x l Hx Hf]; [congruence|].
    exists x, (List.concat (map (fun y => dot :: y) l)). split; [apply (join_map dot)|]. split; [exact Hx|].
    apply reads_star; [exact Hn|]. exists (map (fun y => dot :: y) l). split; [reflexivity|].
    apply Forall_forall. intros z Hz. apply in_map_iff in Hz as (y & <- & Hy). rewrite Forall_forall in Hf.
    split; [|discriminate]. apply reads_seq; [reflexivity|]. exists [dot], y. split; [reflexivity|].
    split; [apply reads_cls; exists dot; split; reflexivity|exact (Hf y Hy)].
Qed.
Lemma dotted_ext (P Q : pystr -> Prop) s : (forall w, P w <-> Q w) -> dotted_list P s <-> dotted_list Q s.
Proof.
  intro H. unfold dotted_list. split; intros (l & Hl & Hf & ->); exists l; (split; [exact Hl|split; [|reflexivity]]);
    (eapply Forall_impl; [|exact Hf]; intros a Ha; apply H; exact Ha).
Qed.
Lemma reads_labels w : reads labels w <-> host folded_letter w.
Proof. unfold labels, host. rewrite reads_dotted by reflexivity. apply dotted_ext, reads_label. Qed.

Lemma matches_reads a s : pure a = true ->
  matches (Seq a Eol) s = true <-> exists w t, s = w ++ t /\ final_newline t /\ reads (erase a) w.
Proof.
  intro Hp. pose proof (match_reads a s Hp) as H. unfold matches. destruct (re_match (Seq a Eol) s) as [cs|].
  - split; [intros _; apply H; eauto|reflexivity].
  - split; [discriminate|]. intro Hw. apply H in Hw as [cs Hcs]. discriminate.
Qed.

(** Plain ASCII texts without line feed: the letters are the 52 *)
Lemma letters_ascii c : c < 128 -> folded_letter c <-> ascii_letter c.
Proof. intro H. unfold folded_letter, ascii_letter. simpl. intuition (try lia). Qed.
Lemma label_ascii w : ascii_text w -> host_label folded_letter w <-> host_label ascii_letter w.
Proof.
  intro H. unfold host_label, word_char.
  assert (E : (forall c, In c w -> (folded_letter c \/ ascii_digit c) \/ c = hyphen_char) <->
              (forall c, In c w -> (ascii_letter c \/ ascii_digit c) \/ c = hyphen_char)).
  { split; intros Hc c Hi; pose proof (Hc c Hi); pose proof (letters_ascii c (H c Hi)); tauto. }
  rewrite E. reflexivity.
Qed.
Lemma join_In (l : list pystr) w c : In w l -> In c w -> In c (join (u ".") l).
Proof.
  intros Hw Hc. destruct l as [|x l]; [destruct Hw|]. change (u ".") with [dot]. rewrite join_map. apply in_or_app.
  destruct Hw as [->|Hw]; [left; exact Hc|right]. apply in_concat. exists (dot :: w). split; [apply in_map_iff; eauto|right; exact Hc].
Qed.
Lemma dotted_ascii (P Q : pystr -> Prop) s : ascii_text s -> (forall w, ascii_text w -> P w <-> Q w) -> dotted_list P s <-> dotted_list Q s.
Proof.
  intros Ha H. unfold dotted_list. split; intros (l & Hl & Hf & ->); exists l; (split; [exact Hl|split; [|reflexivity]]);
    rewrite Forall_forall in *; intros w Hw; (apply H; [|exact (Hf w Hw)]); intros c Hc; apply Ha, (join_In l w); assumption.
Qed.
Lemma host_ascii s : ascii_text s -> host folded_letter s <-> host ascii_letter s.
Proof. intro H. apply dotted_ascii; [exact H|]. apply label_ascii. Qed.
Lemma no_newline s w t : ~ In 10 s -> s = w ++ t -> final_newline t -> s = w.
Proof.
  intros H -> [->| ->]; [rewrite app_nil_r; reflexivity|]. exfalso. apply H. apply in_or_app. right; left; reflexivity.
Qed.

(** ** C59 *)
(** Exactly which texts the hostname format accepts: a host name over the folded
    letters, with or without a line feed at the end. *)
Theorem C59_hostname_exact s :
  format_hostname (VStr s) = Ok true <-> exists h t, s = h ++ t /\ final_newline t /\ host folded_letter h.
Proof.
  unfold format_hostname, on_text, hostname_regex.
  assert (E : Ok (matches (Seq labels Eol) s) = Ok true <-> matches (Seq labels Eol) s = true) by (split; congruence).
  rewrite E, matches_reads by reflexivity. change (erase labels) with labels.
  split; intros (h & t & H1 & H2 & H3); exists h, t; (split; [exact H1|split; [exact H2|apply reads_labels; exact H3]]).
Qed.
Theorem C59_hostname_total v : exists r, format_hostname v = r /\ (r = Ok true \/ r = Ok false \/ r = Raise EType) /\
  (r = Raise EType <-> forall s, v <> VStr s).
Proof.
  eexists. split; [reflexivity|]. destruct v; simpl; try (split; [auto|]; split; [intros _ ? ?; discriminate|auto]; fail).
  split; [destruct (matches _ _); auto|]. split; [discriminate|]. intro H. exfalso. exact (H _ eq_refl).
Qed.
Theorem C59_hostname_partial s : ascii_text s -> ~ In 10 s ->
  (format_hostname (VStr s) = Ok true <-> host ascii_letter s) /\
  (format_hostname (VStr s) = Ok false <-> ~ host ascii_letter s).
Proof.
  intros Ha Hn.
  assert (H : format_hostname (VStr s) = Ok true <-> host ascii_letter s).
  { rewrite C59_hostname_exact. split.
    - intros (h & t & H1 & H2 & H3). rewrite (no_newline s h t Hn H1 H2) in *. apply host_ascii; assumption.
    - intro H. exists s, []. rewrite app_nil_r. split; [reflexivity|]. split; [left; reflexivity|]. apply host_ascii; assumption. }
  split; [exact H|]. rewrite <- H. unfold format_hostname, on_text. destruct (matches _ s); split; congruence.
Qed.
Lemma hostname_no_newline (L : N -> Prop) s : (forall c, L c -> c <> 10) -> host L s -> ~ In 10 s.
Proof.
  intros HL (l & Hl & Hf & ->) Hin. destruct Hf as [|x l Hx Hf]; [congruence|]. change (u ".") with [dot] in Hin.
  assert (K : forall w, host_label L w -> ~ In 10 w).
  { intros w (_ & Hc & _) Hi. destruct (Hc _ Hi) as [[H|H]|H]; [exact (HL _ H eq_refl)|unfold ascii_digit in H; lia|discriminate]. }
  rewrite join_map in Hin. apply in_app_or in Hin as [Hin|Hin]; [exact (K x Hx Hin)|].
  apply in_concat in Hin as (y & Hy & Hin). apply in_map_iff in Hy as (w & <- & Hw). rewrite Forall_forall in Hf.
  destruct Hin as [Hin|Hin]; [discriminate|]. exact (K w (Hf w Hw) Hin).
Qed.
(** Every host name followed by a line feed is accepted, and is not a host name. *)
Theorem C59_hostname_refuted : exists s, format_hostname (VStr s) = Ok true /\ ~ host ascii_letter s.
Proof.
  exists (u "example.com" ++ [10]). split; [vm_compute; reflexivity|]. intro H.
  apply (hostname_no_newline ascii_letter) in H; [|intros c Hc ->; unfold ascii_letter in Hc; lia].
  apply H. apply in_or_app. right; left; reflexivity.
Qed.
Example C59_accepts : format_hostname (VStr (u "ex-1.Example.COM")) = Ok true.
Proof. vm_compute. reflexivity. Qed.
Example C59_is_host : host ascii_letter (u "ex-1.Example.COM").
Proof.
  apply C59_hostname_partial; [| |vm_compute; reflexivity].
  - intros c Hc. cbn in Hc. intuition (subst; reflexivity).
  - cbn. intuition discriminate.
Qed.
Example C59_rejects : ~ host ascii_letter (u "a..b") /\ ~ host ascii_letter (u "-a.b").
Proof.
  split; (apply C59_hostname_partial; [| |vm_compute; reflexivity]);
    try (intros c Hc; cbn in Hc; intuition (subst; reflexivity)); cbn; intuition discriminate.
Qed.

(** ** C63 *)
Lemma reads_digits w : reads digits w <-> number_text w.
Proof.
  unfold digits, number_text. rewrite reads_plus_cls. rewrite Forall_forall.
  split; intros [H1 H2]; (split; [exact H1|]); intros c Hc; apply ascii_digit_iff, H2, Hc.
Qed.
Lemma reads_ident w : reads ident w <-> identifier folded_letter w.
Proof.
  unfold ident, identifier. rewrite reads_plus_cls. rewrite Forall_forall.
  split; intros [H1 H2]; (split; [exact H1|]); intros c Hc; apply alnum_dash_iff, H2, Hc.
Qed.
Lemma reads_idents w : reads idents w <-> dotted_list (identifier folded_letter) w.
Proof. unfold idents. rewrite reads_dotted by reflexivity. apply dotted_ext, reads_ident. Qed.
Lemma reads_one c w : reads (Cls (one c)) w <-> w = [c].
Proof.
  rewrite reads_cls. split.
  - intros (x & -> & H). apply one_iff in H as ->. reflexivity.
  - intros ->. exists c. split; [reflexivity|apply N.eqb_refl].
Qed.
Lemma reads_part c w : reads (opt (Seq (Cls (one c)) idents)) w <->
  w = [] \/ exists ids, dotted_list (identifier folded_letter) ids /\ w = [c] ++ ids.
Proof.
  rewrite reads_opt, reads_seq by reflexivity. split.
  - intros [(w1 & w2 & -> & H1 & H2)|H]; [right|left; exact H]. apply reads_one in H1 as ->. apply reads_idents in H2. eauto.
  - intros [H|(ids & H & ->)]; [right; exact H|left]. exists [c], ids. split; [reflexivity|]. split; [apply reads_one; reflexivity|].
    apply reads_idents; exact H.
Qed.
Lemma reads_semver w : reads (erase semver_body) w <-> semver folded_letter w.
Proof.
  unfold semver_body, semver. cbn [erase seqs fold_right opt]. change (erase digits) with digits. change (erase idents) with idents.
  change (Alt (Seq (Cls (one dash)) idents) Eps) with (opt (Seq (Cls (one dash)) idents)).
  change (Alt (Seq (Cls (one 43)) idents) Eps) with (opt (Seq (Cls (one 43)) idents)).
  rewrite reads_seq by reflexivity. split.
  - intros (v & b & -> & Hv & Hb). apply reads_part in Hb.
    apply reads_seq in Hv as (ma & x1 & -> & Hma & Hv); [|reflexivity]. apply reads_digits in Hma.
    apply reads_seq in Hv as (d1 & x2 & -> & Hd1 & Hv); [|reflexivity]. apply reads_one in Hd1 as ->.
    apply reads_seq in Hv as (mi & x3 & -> & Hmi & Hv); [|reflexivity]. apply reads_digits in Hmi.
    apply reads_seq in Hv as (d2 & x4 & -> & Hd2 & Hv); [|reflexivity]. apply reads_one in Hd2 as ->.
    apply reads_seq in Hv as (pa & x5 & -> & Hpa & Hv); [|reflexivity]. apply reads_digits in Hpa.
    apply reads_seq in Hv as (pr & x6 & -> & Hpr & Hv); [|reflexivity]. apply reads_part in Hpr. apply reads_eps in Hv as ->.
    exists ma, mi, pa, pr, b. repeat (split; [assumption|]). rewrite app_nil_r, <- !app_assoc. reflexivity.
  - intros (ma & mi & pa & pr & b & Hma & Hmi & Hpa & Hpr & Hb & ->).
    exists (ma ++ [dot] ++ mi ++ [dot] ++ pa ++ pr ++ []), b. split; [rewrite app_nil_r, <- !app_assoc; reflexivity|].
    split; [|apply reads_part; exact Hb].
    apply reads_seq; [reflexivity|]. eexists _, _. split; [reflexivity|]. split; [apply reads_digits; exact Hma|].
    apply reads_seq; [reflexivity|]. eexists _, _. split; [reflexivity|]. split; [apply reads_one; reflexivity|].
    apply reads_seq; [reflexivity|]. eexists _, _. split; [reflexivity|]. split; [apply reads_digits; exact Hmi|].
    apply reads_seq; [reflexivity|]. eexists _, _. split; [reflexivity|]. split; [apply reads_one; reflexivity|].
    apply reads_seq; [reflexivity|]. eexists _, _. split; [reflexivity|]. split; [apply reads_digits; exact Hpa|].
    apply reads_seq; [reflexivity|]. eexists _, _. split; [reflexivity|]. split; [apply reads_part; exact Hpr|].
    apply reads_eps; reflexivity.
Qed.
Lemma identifier_ascii w : ascii_text w -> identifier folded_letter w <-> identifier ascii_letter w.
Proof.
  intro H. unfold identifier, word_char.
  split; intros [Hn Hc]; (split; [exact Hn|]); intros c Hi; pose proof (Hc c Hi); pose proof (letters_ascii c (H c Hi)); tauto.
Qed.
Lemma ascii_app a b : ascii_text (a ++ b) <-> ascii_text a /\ ascii_text b.
Proof.
  unfold ascii_text. split.
  - intro H. split; intros c Hc; apply H, in_or_app; auto.
  - intros [H1 H2] c Hc. apply in_app_or in Hc as [Hc|Hc]; auto.
Qed.
Lemma idents_ascii s : ascii_text s ->
  dotted_list (identifier folded_letter) s <-> dotted_list (identifier ascii_letter) s.
Proof. intro H. apply dotted_ascii; [exact H|apply identifier_ascii]. Qed.
Lemma semver_ascii s : ascii_text s -> semver folded_letter s <-> semver ascii_letter s.
Proof.
  intro H. unfold semver.
  split; intros (ma & mi & pa & pr & b & H1 & H2 & H3 & H4 & H5 & ->); exists ma, mi, pa, pr, b;
    repeat (rewrite ascii_app in H); destruct H as (_ & _ & _ & _ & _ & Hp & Hb);
    repeat (split; [assumption|]);
    (split; [destruct H4 as [->|(ids & Hi & ->)]; [left; reflexivity|right; exists ids; split; [|reflexivity]];
             apply ascii_app in Hp as [_ Hp]; apply (idents_ascii ids Hp); exact Hi
            |split; [|reflexivity]];
     destruct H5 as [->|(ids & Hi & ->)]; [left; reflexivity|right; exists ids; split; [|reflexivity]];
     apply ascii_app in Hb as [_ Hb]; apply (idents_ascii ids Hb); exact Hi).
Qed.

Section Semver.
  Variable X : fmt_env.
  Hypothesis str_text : forall s, str_of X (VStr s) = s.       (* [str(s)] of a text is itself *)

  Theorem C63_semver_exact s :
    format_semver X (VStr s) = Ok true <-> exists v t, s = v ++ t /\ final_newline t /\ semver folded_letter v.
  Proof.
    unfold format_semver, semver_regex. rewrite str_text.
    assert (E : Ok (matches (Seq semver_body Eol) s) = Ok true <-> matches (Seq semver_body Eol) s = true) by (split; congruence).
    rewrite E, matches_reads by reflexivity.
    split; intros (h & t & H1 & H2 & H3); exists h, t; (split; [exact H1|split; [exact H2|apply reads_semver; exact H3]]).
  Qed.
  Theorem C63_semver_total v : exists b, format_semver X v = Ok b.
  Proof. eexists. reflexivity. Qed.
  Theorem C63_semver_partial s : ascii_text s -> ~ In 10 s ->
    (format_semver X (VStr s) = Ok true <-> semver ascii_letter s) /\
    (format_semver X (VStr s) = Ok false <-> ~ semver ascii_letter s).
  Proof.
    intros Ha Hn.
    assert (H : format_semver X (VStr s) = Ok true <-> semver ascii_letter s).
    { rewrite C63_semver_exact. split.
      - intros (h & t & H1 & H2 & H3). rewrite (no_newline s h t Hn H1 H2) in *. apply semver_ascii; assumption.
      - intro H. exists s, []. rewrite app_nil_r. split; [reflexivity|]. split; [left; reflexivity|]. apply semver_ascii; assumption. }
    split; [exact H|]. rewrite <- H. unfold format_semver. destruct (matches _ _); split; congruence.
  Qed.
End Semver.

Lemma last_inj {A} (l l' : list A) x y : l ++ [x] = l' ++ [y] -> x = y.
Proof. intro H. apply app_inj_tail in H. apply H. Qed.
Lemma dotted_no_newline (P : pystr -> Prop) s : (forall w, P w -> ~ In 10 w) -> dotted_list P s -> ~ In 10 s.
Proof.
  intros K (l & Hl & Hf & ->) Hin. destruct Hf as [|x l Hx Hf]; [congruence|]. change (u ".") with [dot] in Hin.
  rewrite join_map in Hin. apply in_app_or in Hin as [Hin|Hin]; [exact (K x Hx Hin)|].
  apply in_concat in Hin as (y & Hy & Hin). apply in_map_iff in Hy as (w & <- & Hw). rewrite Forall_forall in Hf.
  destruct Hin as [Hin|Hin]; [discriminate|]. exact (K w (Hf w Hw) Hin).
Qed.
Lemma identifier_no_newline w : identifier ascii_letter w -> ~ In 10 w.
Proof.
  intros [_ H] Hi. destruct (H _ Hi) as [[K|K]|K]; [unfold ascii_letter in K; lia|unfold ascii_digit in K; lia|discriminate].
Qed.
Lemma semver_no_newline s : semver ascii_letter s -> ~ In 10 s.
Proof.
  intros (ma & mi & pa & pr & b & H1 & H2 & H3 & H4 & H5 & ->) Hin.
  assert (K : forall w, number_text w -> ~ In 10 w) by (intros w [_ H] Hi; apply H in Hi; unfold ascii_digit in Hi; lia).
  assert (K2 : forall c ids, c <> 10 -> dotted_list (identifier ascii_letter) ids -> ~ In 10 ([c] ++ ids)).
  { intros c ids Hc Hd [Hi|Hi]; [congruence|]. revert Hi. apply (dotted_no_newline _ _ identifier_no_newline Hd). }
  repeat (apply in_app_or in Hin as [Hin|Hin]).
  - exact (K _ H1 Hin).
  - destruct Hin as [Hin|[]]; discriminate.
  - exact (K _ H2 Hin).
  - destruct Hin as [Hin|[]]; discriminate.
  - exact (K _ H3 Hin).
  - destruct H4 as [->|(ids & Hd & ->)]; [destruct Hin|]. revert Hin. apply K2; [discriminate|exact Hd].
  - destruct H5 as [->|(ids & Hd & ->)]; [destruct Hin|]. revert Hin. apply K2; [discriminate|exact Hd].
Qed.
Definition fmt_ex : fmt_env :=
  FmtEnv (IsoEnv (fun c => if is_ascii_digit c then Some (Z.of_N c - 48)%Z else None) (fun _ => 0%Z))
         (fun v => match v with VStr s => s | _ => [] end)
         (fun _ => true) (fun _ => true) (fun _ => true) (fun _ => Ok true) (fun _ => Ok true) (fun _ => true).
Theorem C63_semver_refuted : exists X s, (forall s, str_of X (VStr s) = s) /\
  format_semver X (VStr s) = Ok true /\ ~ semver ascii_letter s.
Proof.
  exists fmt_ex, (u "1.0.0" ++ [10]). split; [reflexivity|]. split; [vm_compute; reflexivity|].
  intro H. apply semver_no_newline in H. apply H. apply in_or_app. right; left; reflexivity.
Qed.
Example C63_is_semver : semver ascii_letter (u "1.20.3-rc.1-x+Build.7") /\ ~ semver ascii_letter (u "1.2") /\
  ~ semver ascii_letter (u "1.2.3-a..b").
Proof.
  repeat split; (apply (C63_semver_partial fmt_ex (fun _ => eq_refl)); [| |vm_compute; reflexivity]);
    try (intros c Hc; cbn in Hc; intuition (subst; reflexivity)); cbn; intuition discriminate.
Qed.

(** ** C64 *)
Lemma reads_local w : reads (plus (Cls local_char)) w <-> local_part folded_letter w.
Proof.
  unfold local_part. rewrite reads_plus_cls. rewrite Forall_forall.
  split; intros [H1 H2]; (split; [exact H1|]); intros c Hc; specialize (H2 c Hc); revert H2; unfold local_char;
    rewrite orb_true_iff, alnum_iff, among_In; tauto.
Qed.
Theorem C64_email_exact s :
  format_email (VStr s) = Ok true <-> exists e t, s = e ++ t /\ final_newline t /\ email folded_letter e.
Proof.
  unfold format_email, on_text, email_regex.
  set (body := Seq (plus (Cls local_char)) (Seq (Cls (one 64)) labels)).
  assert (E : forall b, Ok b = Ok true <-> b = true) by (intros []; split; congruence).
  rewrite E, andb_true_iff, negb_true_iff, matches_reads by reflexivity. change (erase body) with body.
  assert (D : forall e t, final_newline t -> (exists a b, e ++ t = a ++ u ".." ++ b) <-> (exists a b, e = a ++ u ".." ++ b)).
  { intros e t Ht. split; [|intros (a & b & ->); exists a, (b ++ t); rewrite <- !app_assoc; reflexivity].
    destruct Ht as [->| ->]; [rewrite app_nil_r; auto|]. intros (a & b & H).
    destruct b as [|x b _] using rev_ind.
    - exfalso. rewrite app_nil_r in H. change (u "..") with ([46] ++ [46]) in H. rewrite app_assoc in H.
      apply last_inj in H. discriminate.
    - exists a, b. rewrite !app_assoc in H. apply app_inj_tail in H as [H _]. rewrite <- app_assoc in H. exact H. }
  assert (F : str_in (u "..") s = false <-> ~ exists a b, s = a ++ u ".." ++ b).
  { rewrite <- str_in_spec. destruct (str_in _ s); split; congruence. }
  rewrite F. split.
  - intros [(w & t & -> & Ht & Hr) Hd]. exists w, t. split; [reflexivity|]. split; [exact Ht|]. split.
    + apply reads_seq in Hr as (l & x & -> & Hl & Hx); [|reflexivity].
      apply reads_seq in Hx as (a & h & -> & Ha & Hh); [|reflexivity]. apply reads_one in Ha as ->.
      exists l, h. split; [apply reads_local; exact Hl|]. split; [apply reads_labels; exact Hh|reflexivity].
    + rewrite <- (D w t Ht). exact Hd.
  - intros (e & t & -> & Ht & (l & h & Hl & Hh & ->) & Hd). split.
    + exists (l ++ u "@" ++ h), t. split; [reflexivity|]. split; [exact Ht|].
      apply reads_seq; [reflexivity|]. exists l, (u "@" ++ h). split; [reflexivity|]. split; [apply reads_local; exact Hl|].
      apply reads_seq; [reflexivity|]. exists (u "@"), h. split; [reflexivity|]. split; [apply reads_one; reflexivity|].
      apply reads_labels; exact Hh.
    + rewrite (D _ t Ht). exact Hd.
Qed.
Lemma local_ascii w : ascii_text w -> local_part folded_letter w <-> local_part ascii_letter w.
Proof.
  intro H. unfold local_part, word_char.
  split; intros [Hn Hc]; (split; [exact Hn|]); intros c Hi; pose proof (Hc c Hi); pose proof (letters_ascii c (H c Hi)); tauto.
Qed.
Lemma email_ascii s : ascii_text s -> email folded_letter s <-> email ascii_letter s.
Proof.
  intro H. unfold email.
  split; (intros [(l & h & Hl & Hh & ->) Hd]; split; [|exact Hd]; exists l, h; apply ascii_app in H as [Ha H];
    apply ascii_app in H as [_ Hb]; split; [apply local_ascii; assumption|split; [apply host_ascii; assumption|reflexivity]]).
Qed.
Theorem C64_email_partial s : ascii_text s -> ~ In 10 s ->
  (format_email (VStr s) = Ok true <-> email ascii_letter s) /\
  (format_email (VStr s) = Ok false <-> ~ email ascii_letter s).
Proof.
  intros Ha Hn.
  assert (H : format_email (VStr s) = Ok true <-> email ascii_letter s).
  { rewrite C64_email_exact. split.
    - intros (h & t & H1 & H2 & H3). rewrite (no_newline s h t Hn H1 H2) in *. apply email_ascii; assumption.
    - intro H. exists s, []. rewrite app_nil_r. split; [reflexivity|]. split; [left; reflexivity|]. apply email_ascii; assumption. }
  split; [exact H|]. rewrite <- H. unfold format_email, on_text. destruct (_ && _); split; congruence.
Qed.
Lemma email_no_newline s : email ascii_letter s -> ~ In 10 s.
Proof.
  intros [(l & h & [_ Hl] & Hh & ->) _] Hin. apply in_app_or in Hin as [Hin|Hin].
  - destruct (Hl _ Hin) as [[K|K]|K]; [unfold ascii_letter in K; lia|unfold ascii_digit in K; lia|].
    cbn in K. intuition discriminate.
  - destruct Hin as [Hin|Hin]; [discriminate|]. revert Hin. apply (hostname_no_newline ascii_letter); [|exact Hh].
    intros c Hc ->. unfold ascii_letter in Hc. lia.
Qed.
Theorem C64_email_refuted : exists s, format_email (VStr s) = Ok true /\ ~ email ascii_letter s.
Proof.
  exists (u "me@example.com" ++ [10]). split; [vm_compute; reflexivity|].
  intro H. apply email_no_newline in H. apply H. apply in_or_app. right; left; reflexivity.
Qed.
Example C64_is_email : email ascii_letter (u "first.last+tag@mail.example.org") /\ ~ email ascii_letter (u "a..b@example.org") /\
  ~ email ascii_letter (u "a@b@c") /\ ~ email ascii_letter (u "@example.org").
Proof.
  split; [|split; [|split]]; (apply C64_email_partial; [| |vm_compute; reflexivity]);
    try (intros c Hc; cbn in Hc; intuition (subst; reflexivity)); cbn; intuition discriminate.
Qed.
