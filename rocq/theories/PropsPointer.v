(** C01-C03: JSON pointers. *)
From Verif Require Import PyBase PyBaseFacts Regex RegexFacts Pointer.
Local Open Scope N_scope.
Local Notation length := List.length (only parsing).

(** ** What a pointer text looks like *)
Definition tildes_ok (s : pystr) : Prop :=
  forall a b, s = a ++ tilde :: b -> exists c b', b = c :: b' /\ (c = 48 \/ c = 49).
Definition pointer_text (s : pystr) : Prop :=
  s = [] \/ ((exists s', s = slash :: s') /\ tildes_ok s).

(** ** Escaping, character by character *)
Definition esc (c : N) : pystr :=
  if c =? tilde then [tilde; 48] else if c =? slash then [tilde; 49] else [c].
Definition half (c : N) : pystr := if c =? tilde then [tilde; 48] else [c].

Lemma replace1 c r s : replace [c] r s = flat_map (fun x => if x =? c then r else [x]) s.
Proof.
  unfold replace. induction s as [|x s IH]; [reflexivity|]. cbn [replace_aux startswith flat_map length Nat.sub].
  rewrite andb_true_r, (N.eqb_sym c x). destruct (x =? c); rewrite IH; reflexivity.
Qed.
Lemma escape_flat w : escape w = flat_map esc w.
Proof.
  unfold escape. change (u "/") with [slash]. change (u "~") with [tilde].
  rewrite !replace1. induction w as [|c w IH]; [reflexivity|]. simpl. rewrite flat_map_app, IH. f_equal.
  unfold esc. destruct (N.eqb_spec c tilde) as [->|Hne]; [reflexivity|]. simpl. rewrite app_nil_r. reflexivity.
Qed.
Lemma unescape_1 w : replace (u "~1") (u "/") (flat_map esc w) = flat_map half w.
Proof.
  unfold replace. induction w as [|c w IH]; [reflexivity|]. simpl flat_map. unfold esc at 1, half at 1.
  destruct (N.eqb_spec c tilde) as [->|Hne]; [|destruct (N.eqb_spec c slash) as [->|Hns]].
  - simpl. rewrite IH. reflexivity.
  - simpl. rewrite IH. reflexivity.
  - cbn [app replace_aux]. change (startswith (u "~1") (c :: flat_map esc w)) with
      ((126 =? c) && startswith (u "1") (flat_map esc w)).
    replace (126 =? c) with false by (symmetry; apply N.eqb_neq; intro; apply Hne; symmetry; assumption).
    simpl. rewrite IH. reflexivity.
Qed.
Lemma unescape_0 w : replace (u "~0") (u "~") (flat_map half w) = w.
Proof.
  unfold replace. induction w as [|c w IH]; [reflexivity|]. simpl flat_map. unfold half at 1.
  destruct (N.eqb_spec c tilde) as [->|Hne].
  - simpl. rewrite IH. reflexivity.
  - cbn [app replace_aux]. change (startswith (u "~0") (c :: flat_map half w)) with
      ((126 =? c) && startswith (u "0") (flat_map half w)).
    replace (126 =? c) with false by (symmetry; apply N.eqb_neq; intro; apply Hne; symmetry; assumption).
    simpl. rewrite IH. reflexivity.
Qed.
Lemma unescape_escape w : unescape (escape w) = w.
Proof. unfold unescape. rewrite escape_flat, unescape_1, unescape_0. reflexivity. Qed.

(** ** The pattern *)
Lemma tildes_ok_cons c s : c <> tilde -> tildes_ok (c :: s) <-> tildes_ok s.
Proof.
  intro Hne. split; intros H a b Heq.
  - apply (H (c :: a)). rewrite Heq. reflexivity.
  - destruct a as [|x a]; simpl in Heq; injection Heq as -> Heq; [congruence|]. apply (H a b Heq).
Qed.
Lemma tildes_ok_pair c s : c = 48 \/ c = 49 -> tildes_ok (tilde :: c :: s) <-> tildes_ok s.
Proof.
  intro Hc. split; intros H a b Heq.
  - apply (H (tilde :: c :: a)). rewrite Heq. reflexivity.
  - destruct a as [|x [|y a]]; simpl in Heq.
    + assert (b = c :: s) as -> by congruence. eauto.
    + assert (c = tilde) as -> by congruence. destruct Hc; discriminate.
    + apply (H a b). congruence.
Qed.
Lemma tildes_ok_nil : tildes_ok [].
Proof. intros [|] b; discriminate. Qed.

Definition tok : regex :=
  Alt (Cls (fun c => negb (one slash c) && negb (one tilde c))) (Seq (Cls (one tilde)) (Cls (among (u "01")))).
Lemma reads_tok w : reads tok w <->
  (exists c, w = [c] /\ c <> slash /\ c <> tilde) \/ exists c, w = [tilde; c] /\ (c = 48 \/ c = 49).
Proof.
  unfold tok. rewrite reads_alt, reads_cls, reads_seq by reflexivity. unfold one. split.
  - intros [(c & -> & H)|(w1 & w2 & -> & H1 & H2)].
    + left. exists c. split; [reflexivity|]. apply andb_true_iff in H as [H1 H2].
      apply negb_true_iff, N.eqb_neq in H1. apply negb_true_iff, N.eqb_neq in H2. auto.
    + apply reads_cls in H1 as (c1 & -> & H1). apply N.eqb_eq in H1 as ->.
      apply reads_cls in H2 as (c2 & -> & H2). right. exists c2. split; [reflexivity|].
      simpl in H2. rewrite orb_false_r in H2. apply orb_true_iff in H2 as [H2|H2]; apply N.eqb_eq in H2; auto.
  - intros [(c & -> & H1 & H2)|(c & -> & H)].
    + left. exists c. split; [reflexivity|]. apply N.eqb_neq in H1, H2. rewrite H1, H2. reflexivity.
    + right. exists [tilde], [c]. split; [reflexivity|]. split; apply reads_cls; eexists; (split; [reflexivity|]).
      * reflexivity.
      * destruct H as [-> | ->]; reflexivity.
Qed.
Lemma reads_toks w : reads (Star tok) w -> tildes_ok w /\ ~ In slash w.
Proof.
  rewrite reads_star by reflexivity. intros (ws & -> & Hf).
  induction Hf as [|x ws [Hx _] _ [IH1 IH2]]; [split; [apply tildes_ok_nil|intros []]|]. simpl.
  apply reads_tok in Hx as [(c & -> & Hs & Ht)|(c & -> & Hc)]; simpl.
  - split; [apply tildes_ok_cons; assumption|]. intros [->|H]; contradiction.
  - split; [apply tildes_ok_pair; assumption|]. intros [H|[->|H]]; [discriminate| |contradiction].
    destruct Hc; discriminate.
Qed.
Lemma reads_pointer s : reads (erase pointer_body) s <-> pointer_text s.
Proof.
  change (erase pointer_body) with (Star (Seq (Cls (one slash)) (Star tok))).
  rewrite reads_star by reflexivity. split.
  - intros (ws & -> & Hf). unfold pointer_text.
    assert (Hok : tildes_ok (List.concat ws)).
    { induction Hf as [|x ws [Hx _] _ IH]; [apply tildes_ok_nil|]. simpl.
      apply reads_seq in Hx as (w1 & w2 & -> & H1 & H2); [|reflexivity].
      apply reads_cls in H1 as (c & -> & Hc). apply N.eqb_eq in Hc as ->. simpl.
      apply tildes_ok_cons; [discriminate|].
      apply reads_star in H2 as (ts & -> & Ht); [|reflexivity].
      induction Ht as [|y ts [Hy _] _ IHt]; [exact IH|]. simpl. rewrite <- app_assoc.
      apply reads_tok in Hy as [(c & -> & Hs & Hn)|(c & -> & Hc)]; simpl.
      - apply tildes_ok_cons; assumption.
      - apply tildes_ok_pair; assumption. }
    destruct Hf as [|x ws [Hx _] _]; [left; reflexivity|right]. split; [|exact Hok].
    apply reads_seq in Hx as (w1 & w2 & -> & H1 & H2); [|reflexivity].
    apply reads_cls in H1 as (c & -> & Hc). apply N.eqb_eq in Hc as ->. simpl. eauto.
  - assert (Hgen : forall n s, (length s <= n)%nat -> tildes_ok s ->
      exists w ws, s = w ++ List.concat ws /\ reads (Star tok) w /\
        Forall (fun x => reads (Seq (Cls (one slash)) (Star tok)) x /\ x <> []) ws).
    { induction n as [|n IH]; intros t Hl Hok.
      - destruct t; [|simpl in Hl; lia]. exists [], []. split; [reflexivity|]. split; [|constructor].
        apply reads_star; [reflexivity|]. exists []. split; [reflexivity|constructor].
      - destruct t as [|c t].
        + exists [], []. split; [reflexivity|]. split; [|constructor].
          apply reads_star; [reflexivity|]. exists []. split; [reflexivity|constructor].
        + assert (Hcons : forall x w, reads tok x -> x <> [] -> reads (Star tok) w -> reads (Star tok) (x ++ w)).
          { intros x w H1 H2 H3. apply reads_star in H3 as (ts & -> & Ht); [|reflexivity].
            apply reads_star; [reflexivity|]. exists (x :: ts). split; [reflexivity|]. constructor; auto. }
          destruct (N.eq_dec c tilde) as [->|Hnt].
          * destruct (Hok [] t eq_refl) as (d & t' & -> & Hd).
            apply tildes_ok_pair in Hok; [|exact Hd].
            destruct (IH t') as (w & ws & -> & H1 & H2); [simpl in Hl; lia|exact Hok|].
            exists ([tilde; d] ++ w), ws. split; [reflexivity|]. split; [|exact H2].
            apply Hcons; [apply reads_tok; eauto|discriminate|exact H1].
          * apply tildes_ok_cons in Hok; [|exact Hnt].
            destruct (IH t) as (w & ws & -> & H1 & H2); [simpl in Hl; lia|exact Hok|].
            destruct (N.eq_dec c slash) as [->|Hns].
            -- exists [], ((slash :: w) :: ws). split; [reflexivity|]. split.
               ++ apply reads_star; [reflexivity|]. exists []. split; [reflexivity|constructor].
               ++ constructor; [|exact H2]. split; [|discriminate]. apply reads_seq; [reflexivity|].
                  exists [slash], w. split; [reflexivity|]. split; [|exact H1]. apply reads_cls. exists slash. auto.
            -- exists ([c] ++ w), ws. split; [reflexivity|]. split; [|exact H2].
               apply Hcons; [apply reads_tok; left; eauto|discriminate|exact H1]. }
    intros [->|[[s' ->] Hok]]; [exists []; split; [reflexivity|constructor]|].
    apply tildes_ok_cons in Hok; [|discriminate].
    destruct (Hgen (length s') s' (le_n _) Hok) as (w & ws & -> & H1 & H2).
    exists ((slash :: w) :: ws). split; [reflexivity|]. constructor; [|exact H2].
    split; [|discriminate]. apply reads_seq; [reflexivity|].
    exists [slash], w. split; [reflexivity|]. split; [|exact H1]. apply reads_cls. exists slash. auto.
Qed.

(** ** C02 *)
Theorem C02_accepts s : (exists p, pointer_parse s = Ok p) <-> pointer_text s.
Proof.
  rewrite <- reads_pointer, <- fullmatch_reads by reflexivity. unfold pointer_parse, pointer_regex.
  destruct (re_fullmatch _ s); split; intros [x H]; eauto; discriminate.
Qed.
Theorem C02_rejects s : ~ pointer_text s -> pointer_parse s = Raise EValue.
Proof.
  rewrite <- C02_accepts. intro H. unfold pointer_parse in *.
  destruct (re_fullmatch pointer_regex s); [|reflexivity]. exfalso. apply H. eauto.
Qed.
Theorem C02_tokens s p : pointer_parse s = Ok p -> p = map unescape (tl (split slash s)).
Proof. unfold pointer_parse. destruct (re_fullmatch pointer_regex s); congruence. Qed.

(** ** C01 *)
Lemma esc_no_slash w : ~ In slash (flat_map esc w).
Proof.
  rewrite in_flat_map. intros (c & _ & H). unfold esc in H.
  destruct (N.eqb_spec c tilde) as [Ht|Ht]; [|destruct (N.eqb_spec c slash) as [Hs|Hs]]; simpl in H.
  - destruct H as [H|[H|[]]]; discriminate.
  - destruct H as [H|[H|[]]]; discriminate.
  - destruct H as [H|[]]; congruence.
Qed.
Lemma split_none c w : ~ In c w -> split c w = [w].
Proof.
  induction w as [|x w IH]; intro H; [reflexivity|]. cbn [split]. rewrite IH by (intro; apply H; right; assumption).
  destruct (N.eqb_spec x c) as [->|]; [exfalso; apply H; left; reflexivity|reflexivity].
Qed.
Lemma split_cons c s : exists w ws, split c s = w :: ws.
Proof.
  induction s as [|x s (w & ws & IH)]; [simpl; eauto|]. simpl. rewrite IH. destruct (x =? c); eauto.
Qed.
Lemma split_app c w s : ~ In c w -> split c (w ++ c :: s) = w :: split c s.
Proof.
  induction w as [|x w IH]; intro H.
  - cbn [app split]. destruct (split_cons c s) as (y & ys & ->). rewrite N.eqb_refl. reflexivity.
  - cbn [app split]. rewrite IH by (intro; apply H; right; assumption).
    destruct (N.eqb_spec x c) as [->|]; [exfalso; apply H; left; reflexivity|reflexivity].
Qed.
Lemma split_tokens ws : Forall (fun w => ~ In slash w) ws -> ws <> [] ->
  split slash (List.concat (map (fun w => slash :: w) ws)) = [] :: ws.
Proof.
  intros Hf Hne. destruct ws as [|w ws]; [congruence|]. clear Hne. simpl List.concat.
  etransitivity; [exact (split_app slash [] (w ++ List.concat (map (fun w => slash :: w) ws)) (fun H => H))|]. f_equal.
  revert w Hf. induction ws as [|w' ws IH]; intros w Hf; inversion Hf as [|? ? H1 H2]; subst; simpl.
  - rewrite app_nil_r. apply split_none; exact H1.
  - rewrite split_app by exact H1. f_equal. apply IH; exact H2.
Qed.
Lemma esc_tildes w t : tildes_ok t -> tildes_ok (flat_map esc w ++ t).
Proof.
  intro Ht. induction w as [|c w IH]; [exact Ht|]. simpl. unfold esc at 1.
  destruct (N.eqb_spec c tilde); [|destruct (N.eqb_spec c slash)]; simpl.
  - apply tildes_ok_pair; [auto|exact IH].
  - apply tildes_ok_pair; [auto|exact IH].
  - apply tildes_ok_cons; assumption.
Qed.
Lemma printed_tildes l : tildes_ok (List.concat (map (fun w => u "/" ++ escape w) l)).
Proof.
  induction l as [|w l IH]; [apply tildes_ok_nil|]. simpl. rewrite escape_flat.
  apply tildes_ok_cons; [discriminate|]. apply esc_tildes. exact IH.
Qed.
Theorem C01_tokens_survive l : l <> [] -> pointer_parse (pointer_str (pointer_from_list l)) = Ok l.
Proof.
  intro Hne. unfold pointer_from_list.
  assert (Hs : pointer_str l = List.concat (map (fun w => u "/" ++ escape w) l)) by (destruct l; [congruence|reflexivity]).
  assert (Htext : pointer_text (pointer_str l)).
  { right. rewrite Hs. split; [|apply printed_tildes]. destruct l; [congruence|]. simpl. eauto. }
  apply C02_accepts in Htext as [p Hp]. rewrite Hp. f_equal. apply C02_tokens in Hp. subst p.
  rewrite Hs. replace (map (fun w => u "/" ++ escape w) l) with (map (fun w => slash :: w) (map escape l)).
  - rewrite split_tokens.
    + simpl. rewrite map_map. rewrite (map_ext _ (fun w => w) unescape_escape). apply map_id.
    + apply Forall_forall. intros w Hw. apply in_map_iff in Hw as (w' & <- & _). rewrite escape_flat. apply esc_no_slash.
    + destruct l; [congruence|discriminate].
  - rewrite map_map. reflexivity.
Qed.

(** ** C03 *)
Lemma is_escaped n : forall t, (length t <= n)%nat -> tildes_ok t -> ~ In slash t -> exists w, t = flat_map esc w.
Proof.
  induction n as [|n IH]; intros t Hl Hok Hns.
  - destruct t; [exists []; reflexivity|simpl in Hl; lia].
  - destruct t as [|c t]; [exists []; reflexivity|]. destruct (N.eq_dec c tilde) as [->|Hnt].
    + destruct (Hok [] t eq_refl) as (d & t' & -> & Hd). apply tildes_ok_pair in Hok; [|exact Hd].
      destruct (IH t') as [w ->]; [simpl in Hl; lia|exact Hok|intro H; apply Hns; right; right; exact H|].
      destruct Hd as [-> | ->]; [exists (tilde :: w)|exists (slash :: w)]; reflexivity.
    + apply tildes_ok_cons in Hok; [|exact Hnt].
      destruct (IH t) as [w ->]; [simpl in Hl; lia|exact Hok|intro H; apply Hns; right; exact H|].
      exists (c :: w). simpl. unfold esc at 2. apply N.eqb_neq in Hnt. rewrite Hnt.
      destruct (N.eqb_spec c slash) as [->|]; [exfalso; apply Hns; left; reflexivity|reflexivity].
Qed.
Lemma split_join c s : join [c] (split c s) = s.
Proof.
  induction s as [|x s IH]; [reflexivity|]. cbn [split]. destruct (split_cons c s) as (w & ws & Hs). rewrite Hs in *.
  destruct (N.eqb_spec x c) as [->|]; [|destruct ws; simpl in *; rewrite <- IH; reflexivity].
  change (join [c] ([] :: w :: ws)) with ([] ++ [c] ++ join [c] (w :: ws)). rewrite IH. reflexivity.
Qed.
Lemma split_no_sep c s w : In w (split c s) -> ~ In c w.
Proof.
  revert w. induction s as [|x s IH]; intros w H.
  - destruct H as [<-|[]]. intros [].
  - cbn [split] in H. destruct (split_cons c s) as (y & ys & Hs). rewrite Hs in *.
    destruct (N.eqb_spec x c) as [->|Hne].
    + destruct H as [<-|H]; [intros []|apply IH; exact H].
    + destruct H as [<-|H]; [|apply IH; right; exact H]. intros [->|Hin]; [congruence|].
      apply (IH y); [left; reflexivity|exact Hin].
Qed.
Lemma join_map c l w : join [c] (w :: l) = w ++ List.concat (map (fun x => c :: x) l).
Proof.
  revert w. induction l as [|x l IH]; intro w; [simpl; rewrite app_nil_r; reflexivity|].
  change (join [c] (w :: x :: l)) with (w ++ [c] ++ join [c] (x :: l)). rewrite IH. reflexivity.
Qed.
Lemma tildes_ok_tail a b : tildes_ok (a ++ b) -> tildes_ok b.
Proof. intros H x y Heq. apply (H (a ++ x)). rewrite Heq, app_assoc. reflexivity. Qed.
Lemma tildes_ok_init a b : tildes_ok (a ++ b) -> (b = [] \/ exists b', b = slash :: b') -> tildes_ok a.
Proof.
  intros H Hb x y Heq. subst a. destruct (H x (y ++ b)) as (c & b' & H1 & H2).
  - rewrite <- app_assoc. reflexivity.
  - destruct y as [|d y]; [|injection H1 as -> _; eauto]. simpl in H1.
    destruct Hb as [->|[b'' ->]]; [discriminate|]. injection H1 as <- _. destruct H2; discriminate.
Qed.
Theorem C03_text_survives s p : s <> [] -> pointer_parse s = Ok p -> pointer_str p = s.
Proof.
  intros Hne Hp. assert (Ht : pointer_text s) by (apply C02_accepts; eauto).
  apply C02_tokens in Hp. destruct Ht as [->|[[s' ->] Hok]]; [congruence|]. clear Hne.
  assert (Hsplit : split slash (slash :: s') = [] :: split slash s').
  { exact (split_app slash [] s' (fun H => H)). }
  rewrite Hsplit in Hp. simpl in Hp. destruct (split_cons slash s') as (w & ws & Hs).
  apply tildes_ok_cons in Hok; [|discriminate].
  assert (Hrun : forall l t, tildes_ok t -> t = List.concat (map (fun x => slash :: x) l) ->
            Forall (fun x => ~ In slash x) l ->
            List.concat (map (fun w => u "/" ++ escape w) (map unescape l)) = t).
  { clear. induction l as [|x l IH]; intros t Hok Heq Hf; [symmetry; exact Heq|].
    inversion Hf as [|? ? H1 H2]; subst. cbn [map List.concat] in Hok |- *.
    apply tildes_ok_cons in Hok; [|discriminate].
    assert (Hx : tildes_ok x).
    { eapply tildes_ok_init; [exact Hok|]. destruct l; [left; reflexivity|right; simpl; eauto]. }
    destruct (is_escaped (length x) x (le_n _) Hx H1) as [y ->].
    rewrite (IH (List.concat (map (fun x => slash :: x) l))); [|eapply tildes_ok_tail; exact Hok|reflexivity|exact H2].
    rewrite <- escape_flat, unescape_escape. reflexivity. }
  pose proof (split_join slash s') as Hj. rewrite Hs in Hj. rewrite join_map in Hj.
  subst p. rewrite Hs. unfold pointer_str.
  assert (Hcase : forall l : list pystr, l <> [] ->
    match l with [] => u "/" | _ => List.concat (map (fun w => u "/" ++ escape w) l) end =
    List.concat (map (fun w => u "/" ++ escape w) l)) by (intros [|]; congruence).
  rewrite Hcase by discriminate. apply Hrun.
  - apply tildes_ok_cons; [discriminate|exact Hok].
  - simpl. rewrite Hj. reflexivity.
  - apply Forall_forall. intros x Hx. eapply split_no_sep. rewrite Hs. exact Hx.
Qed.
(** the empty pointer prints as a different pointer *)
Theorem C03_empty : pointer_parse [] = Ok [] /\ pointer_str [] = u "/" /\ pointer_parse (u "/") = Ok [[]].
Proof. vm_compute. auto. Qed.

Example C01_ex : pointer_parse (pointer_str [u "a/b~1"; []; u "~"]) = Ok [u "a/b~1"; []; u "~"] /\
  pointer_str [u "a/b~1"; []; u "~"] = u "/a~1b~01//~0".
Proof. vm_compute. auto. Qed.
Example C02_ex : pointer_parse (u "/a~2") = Raise EValue /\ pointer_parse (u "a") = Raise EValue /\
  pointer_parse (u "/~") = Raise EValue /\ pointer_parse (u "/~01/x") = Ok [u "~1"; u "x"].
Proof. vm_compute. auto. Qed.
Example C03_ex : pointer_text (u "/a~1b//~0") /\ pointer_str [u "a/b"; []; u "~"] = u "/a~1b//~0".
Proof. split; [apply C02_accepts; eexists; vm_compute; reflexivity|vm_compute; reflexivity]. Qed.
Print Assumptions C01_tokens_survive.
Print Assumptions C02_accepts.
Print Assumptions C03_text_survives.
