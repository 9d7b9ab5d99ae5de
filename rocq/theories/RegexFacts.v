(** Declarative reading of the matcher: which texts a pattern reads and what it
    captures. *)
From Verif Require Import PyBase PyBaseFacts Regex.
Local Notation length := List.length (only parsing).

(** [parse r w cs cs']: [r] can read exactly [w], turning captures [cs] into
    [cs'] (patterns without [$] and lookahead). *)
Inductive parse : regex -> pystr -> caps -> caps -> Prop :=
| p_eps cs : parse Eps [] cs cs
| p_cls p c cs : p c = true -> parse (Cls p) [c] cs cs
| p_seq a b w1 w2 cs cs1 cs2 : parse a w1 cs cs1 -> parse b w2 cs1 cs2 -> parse (Seq a b) (w1 ++ w2) cs cs2
| p_altl a b w cs cs' : parse a w cs cs' -> parse (Alt a b) w cs cs'
| p_altr a b w cs cs' : parse b w cs cs' -> parse (Alt a b) w cs cs'
| p_star0 a cs : parse (Star a) [] cs cs
| p_star1 a w1 w2 cs cs1 cs2 : w1 <> [] -> parse a w1 cs cs1 -> parse (Star a) w2 cs1 cs2 ->
    parse (Star a) (w1 ++ w2) cs cs2
| p_grp i a w cs cs' : parse a w cs cs' -> parse (Grp i a) w cs ((i, w) :: cs').

Fixpoint pure (r : regex) : bool :=
  match r with
  | Eps | Cls _ => true
  | Seq a b | Alt a b => pure a && pure b
  | Star a | Grp _ a => pure a
  | Eol | Look _ | NotLook _ => false
  end.

Lemma star_run_sound (r : regex) :
  (forall s cs t cs', In (t, cs') (run r (s, cs)) -> exists w, s = w ++ t /\ parse r w cs cs') ->
  forall fuel s cs t cs', In (t, cs') (star_run (run r) fuel (s, cs)) ->
  exists w, s = w ++ t /\ parse (Star r) w cs cs'.
Proof.
  intro Hr. induction fuel as [|f IH]; intros s cs t cs' H; simpl in H.
  - destruct H as [[= <- <-]|[]]. exists []. split; [reflexivity|constructor].
  - apply in_app_or in H as [H|[[= <- <-]|[]]].
    + apply in_flat_map in H as ([t1 cs1] & H1 & H2). simpl in H2.
      destruct (Nat.ltb_spec (length t1) (length s)) as [Hlt|]; [|contradiction].
      destruct (Hr _ _ _ _ H1) as (w1 & -> & P1). destruct (IH _ _ _ _ H2) as (w2 & -> & P2).
      exists (w1 ++ w2). rewrite <- app_assoc. split; [reflexivity|].
      econstructor; [|eassumption|exact P2]. intros ->. simpl in Hlt. lia.
    + exists []. split; [reflexivity|constructor].
Qed.
Lemma run_sound r : pure r = true -> forall s cs t cs', In (t, cs') (run r (s, cs)) ->
  exists w, s = w ++ t /\ parse r w cs cs'.
Proof.
  induction r as [|p|a IHa b IHb|a IHa b IHb|a IHa|i a IHa| |a IHa|a IHa]; simpl; intros Hp s cs t cs' H;
    try discriminate; try apply andb_true_iff in Hp as [Hp1 Hp2].
  - destruct H as [[= <- <-]|[]]. exists []. split; [reflexivity|constructor].
  - destruct s as [|c s]; simpl in H; [contradiction|]. destruct (p c) eqn:Hc; [|contradiction].
    destruct H as [[= <- <-]|[]]. exists [c]. split; [reflexivity|constructor; exact Hc].
  - apply in_flat_map in H as ([t1 cs1] & H1 & H2).
    destruct (IHa Hp1 _ _ _ _ H1) as (w1 & -> & P1). destruct (IHb Hp2 _ _ _ _ H2) as (w2 & -> & P2).
    exists (w1 ++ w2). rewrite <- app_assoc. split; [reflexivity|econstructor; eassumption].
  - apply in_app_or in H as [H|H].
    + destruct (IHa Hp1 _ _ _ _ H) as (w & -> & P). exists w. split; [reflexivity|apply p_altl; exact P].
    + destruct (IHb Hp2 _ _ _ _ H) as (w & -> & P). exists w. split; [reflexivity|apply p_altr; exact P].
  - apply star_run_sound in H; [exact H|]. intros. eapply IHa; eassumption.
  - apply in_map_iff in H as ([t1 cs1] & [= <- <-] & H). destruct (IHa Hp _ _ _ _ H) as (w & -> & P).
    exists w. split; [reflexivity|]. rewrite app_length.
    replace (length w + length t1 - length t1) with (length w) by lia.
    rewrite firstn_app, firstn_all, Nat.sub_diag. simpl. rewrite app_nil_r. constructor. exact P.
Qed.
Lemma run_complete r w cs cs' : parse r w cs cs' -> forall t, In (t, cs') (run r (w ++ t, cs)).
Proof.
  induction 1 as [cs|p c cs Hc|a b w1 w2 cs cs1 cs2 _ IH1 _ IH2|a b w cs cs' _ IH|a b w cs cs' _ IH|a cs
                 |a w1 w2 cs cs1 cs2 Hne _ IH1 _ IH2|i a w cs cs' _ IH]; intro t; simpl.
  - auto.
  - rewrite Hc. left; reflexivity.
  - apply in_flat_map. exists (w2 ++ t, cs1). split; [rewrite <- app_assoc; apply IH1|apply IH2].
  - apply in_or_app. left. apply IH.
  - apply in_or_app. right. apply IH.
  - destruct (length t); simpl; [left; reflexivity|]. apply in_or_app. right. left; reflexivity.
  - assert (Hlen : length ((w1 ++ w2) ++ t) = length w1 + length (w2 ++ t)).
    { rewrite <- app_assoc, app_length. reflexivity. }
    rewrite Hlen.
    assert (Hmono : forall f g x y, f <= g -> In y (star_run (run a) f x) -> In y (star_run (run a) g x)).
    { clear. induction f as [|f IH]; intros g x y Hle H.
      - destruct H as [->|[]]. destruct g; simpl; [left; reflexivity|]. apply in_or_app; right; left; reflexivity.
      - destruct g as [|g]; [lia|]. simpl in *. apply in_app_or in H as [H|H]; apply in_or_app; [left|right; exact H].
        apply in_flat_map in H as (z & H1 & H2). apply in_flat_map. exists z. split; [exact H1|].
        destruct (Nat.ltb (length (fst z)) (length (fst x))); [|exact H2]. apply (IH g); [lia|exact H2]. }
    destruct w1 as [|c w1]; [congruence|]. cbn [length Nat.add star_run].
    apply in_or_app. left. apply in_flat_map. exists (w2 ++ t, cs1). split.
    + rewrite <- app_assoc. apply IH1.
    + cbn [fst]. destruct (Nat.ltb_spec (length (w2 ++ t)) (length (((c :: w1) ++ w2) ++ t))) as [_|Hge].
      * apply (Hmono (length (w2 ++ t))); [lia|]. apply IH2.
      * rewrite Hlen in Hge. simpl in Hge. lia.
  - apply in_map_iff. exists (t, cs'). split; [|apply IH]. simpl. f_equal. f_equal. f_equal.
    rewrite app_length. replace (length w + length t - length t) with (length w) by lia.
    rewrite firstn_app, firstn_all, Nat.sub_diag. simpl. apply app_nil_r.
Qed.
Theorem run_parse r s cs t cs' : pure r = true ->
  In (t, cs') (run r (s, cs)) <-> exists w, s = w ++ t /\ parse r w cs cs'.
Proof.
  intro Hp. split; [apply run_sound; exact Hp|]. intros (w & -> & P). apply run_complete. exact P.
Qed.

(** ** Whole patterns of the form [body$] *)
Definition ends (t : pystr) : Prop := t = [] \/ t = [newline].
Lemma run_eol s cs y : In y (run Eol (s, cs)) <-> y = (s, cs) /\ ends s.
Proof.
  unfold ends. simpl. destruct s as [|c [|c' s]].
  - split; [intros [<-|[]]; auto|intros [-> _]; left; reflexivity].
  - destruct (N.eqb_spec c newline) as [->|Hne].
    + split; [intros [<-|[]]; auto|intros [-> _]; left; reflexivity].
    + split; [intros []|]. intros [_ [H|H]]; congruence.
  - split; [intros []|]. intros [_ [H|H]]; discriminate.
Qed.
Lemma run_body_eol a s y : pure a = true ->
  In y (run (Seq a Eol) (s, [])) <-> exists w, s = w ++ fst y /\ parse a w [] (snd y) /\ ends (fst y).
Proof.
  intro Hp. destruct y as [t cs]. cbn [run fst snd]. rewrite in_flat_map. split.
  - intros ([t1 cs1] & H1 & H2). apply run_eol in H2 as [[= <- <-] He].
    apply run_parse in H1 as (w & -> & P); [|exact Hp]. eauto.
  - intros (w & -> & P & He). exists (t, cs). split; [apply run_complete; exact P|]. apply run_eol. auto.
Qed.
Theorem match_iff a s : pure a = true ->
  (exists cs, re_match (Seq a Eol) s = Some cs) <->
  exists w t cs, s = w ++ t /\ ends t /\ parse a w [] cs.
Proof.
  intro Hp. unfold re_match. pose proof (run_body_eol a s) as H.
  destruct (run (Seq a Eol) (s, [])) as [|y l] eqn:Hr.
  - split; [intros [cs Hc]; discriminate|]. intros (w & t & cs & -> & He & P).
    destruct (proj2 (H (t, cs) Hp)). exists w; auto.
  - split; [intros _|eauto]. destruct (proj1 (H y Hp) (or_introl eq_refl)) as (w & H1 & H2 & H3).
    exists w, (fst y), (snd y). auto.
Qed.
(** what was captured is one of the possible readings *)
Theorem match_caps a s cs : pure a = true -> re_match (Seq a Eol) s = Some cs ->
  exists w t, s = w ++ t /\ ends t /\ parse a w [] cs.
Proof.
  intros Hp. unfold re_match. pose proof (run_body_eol a s) as H.
  destruct (run (Seq a Eol) (s, [])) as [|y l] eqn:Hr; [discriminate|]. intros [= <-].
  destruct (proj1 (H y Hp) (or_introl eq_refl)) as (w & H1 & H2 & H3). eauto 6.
Qed.
Theorem fullmatch_iff a s : pure a = true ->
  (exists cs, re_fullmatch (Seq a Eol) s = Some cs) <-> exists cs, parse a s [] cs.
Proof.
  intro Hp. unfold re_fullmatch. pose proof (run_body_eol a s) as H.
  destruct (find _ (run (Seq a Eol) (s, []))) as [y|] eqn:Hf.
  - split; [intros _|eauto]. apply find_some in Hf as [Hin Hy]. apply H in Hin as (w & -> & P & _); [|exact Hp].
    destruct (fst y); [|discriminate]. rewrite app_nil_r. eauto.
  - split; [intros [cs Hc]; discriminate|]. intros [cs P].
    assert (Hin : In ([], cs) (run (Seq a Eol) (s, []))).
    { apply H; [exact Hp|]. exists s. rewrite app_nil_r. unfold ends. auto. }
    pose proof (find_none _ _ Hf _ Hin) as Hx. discriminate.
Qed.
Theorem fullmatch_caps a s cs : pure a = true -> re_fullmatch (Seq a Eol) s = Some cs -> parse a s [] cs.
Proof.
  intro Hp. unfold re_fullmatch. pose proof (run_body_eol a s) as H.
  destruct (find _ (run (Seq a Eol) (s, []))) as [y|] eqn:Hf; [|discriminate]. intros [= <-].
  apply find_some in Hf as [Hin Hy]. apply H in Hin as (w & -> & P & _); [|exact Hp].
  destruct (fst y); [|discriminate]. rewrite app_nil_r. exact P.
Qed.

(** ** Inversion and language of the derived forms *)
Lemma parse_eps w cs cs' : parse Eps w cs cs' <-> w = [] /\ cs' = cs.
Proof. split; [inversion 1; auto|]. intros [-> ->]; constructor. Qed.
Lemma parse_cls p w cs cs' : parse (Cls p) w cs cs' <-> (exists c, w = [c] /\ p c = true) /\ cs' = cs.
Proof. split; [inversion 1; subst; eauto|]. intros [(c & -> & H) ->]; constructor; exact H. Qed.
Lemma parse_seq a b w cs cs' : parse (Seq a b) w cs cs' <->
  exists w1 w2 cs1, w = w1 ++ w2 /\ parse a w1 cs cs1 /\ parse b w2 cs1 cs'.
Proof. split; [inversion 1; subst; eauto 7|]. intros (w1 & w2 & cs1 & -> & H1 & H2). econstructor; eassumption. Qed.
Lemma parse_alt a b w cs cs' : parse (Alt a b) w cs cs' <-> parse a w cs cs' \/ parse b w cs cs'.
Proof. split; [inversion 1; subst; auto|]. intros [H|H]; [apply p_altl|apply p_altr]; exact H. Qed.
Lemma parse_opt a w cs cs' : parse (opt a) w cs cs' <-> parse a w cs cs' \/ (w = [] /\ cs' = cs).
Proof. unfold opt. rewrite parse_alt, parse_eps. reflexivity. Qed.
Lemma parse_grp i a w cs cs' : parse (Grp i a) w cs cs' <-> exists cs1, cs' = (i, w) :: cs1 /\ parse a w cs cs1.
Proof. split; [inversion 1; subst; eauto|]. intros (cs1 & -> & H). constructor; exact H. Qed.

(** patterns without groups read words and leave the captures alone *)
Fixpoint nogrp (r : regex) : bool :=
  match r with
  | Eps | Cls _ => true
  | Seq a b | Alt a b => nogrp a && nogrp b
  | Star a => nogrp a
  | Grp _ _ | Eol | Look _ | NotLook _ => false
  end.
Lemma nogrp_pure r : nogrp r = true -> pure r = true.
Proof. induction r; simpl; intro H; auto; try discriminate; apply andb_true_iff in H as [H1 H2]; rewrite IHr1, IHr2; auto. Qed.
Lemma nogrp_caps r w cs cs' : parse r w cs cs' -> nogrp r = true -> cs' = cs.
Proof.
  induction 1; simpl; intro Hn; auto; try (apply andb_true_iff in Hn as [H1 H2]); auto; try discriminate.
  - rewrite IHparse2, IHparse1; auto.
  - rewrite IHparse2, IHparse1; auto.
Qed.
Lemma nogrp_any r w cs cs' : parse r w cs cs' -> nogrp r = true -> forall ds, parse r w ds ds.
Proof.
  induction 1; simpl; intros Hn ds; try (apply andb_true_iff in Hn as [H1 H2]); try discriminate.
  - constructor.
  - constructor; assumption.
  - econstructor; eauto.
  - apply p_altl; auto.
  - apply p_altr; auto.
  - constructor.
  - econstructor; eauto.
Qed.
Definition reads (r : regex) (w : pystr) : Prop := parse r w [] [].
Lemma nogrp_reads r w cs cs' : nogrp r = true -> parse r w cs cs' <-> reads r w /\ cs' = cs.
Proof.
  intro Hn. split.
  - intro H. split; [exact (nogrp_any _ _ _ _ H Hn [])|exact (nogrp_caps _ _ _ _ H Hn)].
  - intros [H ->]. exact (nogrp_any _ _ _ _ H Hn cs).
Qed.
Lemma reads_eps w : reads Eps w <-> w = [].
Proof. unfold reads. rewrite parse_eps. tauto. Qed.
Lemma reads_cls p w : reads (Cls p) w <-> exists c, w = [c] /\ p c = true.
Proof. unfold reads. rewrite parse_cls. tauto. Qed.
Lemma reads_seq a b w : nogrp a = true -> reads (Seq a b) w <-> exists w1 w2, w = w1 ++ w2 /\ reads a w1 /\ reads b w2.
Proof.
  intro Hn. unfold reads at 1. rewrite parse_seq. split.
  - intros (w1 & w2 & cs1 & -> & H1 & H2). apply (nogrp_reads a _ _ _ Hn) in H1 as [H1 ->]. eauto.
  - intros (w1 & w2 & -> & H1 & H2). exists w1, w2, []. auto.
Qed.
Lemma reads_alt a b w : reads (Alt a b) w <-> reads a w \/ reads b w.
Proof. apply parse_alt. Qed.
Lemma reads_opt a w : reads (opt a) w <-> reads a w \/ w = [].
Proof. unfold reads. rewrite parse_opt. tauto. Qed.
Lemma reads_star a w : nogrp a = true -> reads (Star a) w <-> exists ws, w = List.concat ws /\ Forall (fun x => reads a x /\ x <> []) ws.
Proof.
  intro Hn. split.
  - unfold reads at 1. intro H. remember (Star a) as r eqn:Hr. remember (@nil (nat * pystr)) as cs eqn:Hcs in H at 1.
    remember (@nil (nat * pystr)) as cs' eqn:Hcs' in H. clear Hcs'. revert Hr Hcs.
    induction H; intros Hr Hcs; try discriminate.
    + exists []. split; [reflexivity|constructor].
    + injection Hr as ->. subst cs. apply (nogrp_reads a _ _ _ Hn) in H0 as [H0 ->].
      destruct (IHparse2 eq_refl eq_refl) as (ws & -> & Hf). exists (w1 :: ws). split; [reflexivity|].
      constructor; auto.
  - intros (ws & -> & Hf). induction Hf as [|x ws [Hx Hne] _ IH]; [constructor|]. simpl.
    econstructor; [exact Hne|exact Hx|exact IH].
Qed.
Lemma reads_star_cls p w : reads (Star (Cls p)) w <-> Forall (fun c => p c = true) w.
Proof.
  rewrite reads_star by reflexivity. split.
  - intros (ws & -> & Hf). induction Hf as [|x ws [Hx _] _ IH]; [constructor|]. simpl.
    apply reads_cls in Hx as (c & -> & Hc). constructor; auto.
  - intro H. exists (map (fun c => [c]) w). split.
    + clear H. induction w; simpl; congruence.
    + induction H; simpl; constructor; [|assumption]. split; [apply reads_cls; eauto|discriminate].
Qed.
Lemma nogrp_plus a : nogrp (plus a) = nogrp a.
Proof. simpl. destruct (nogrp a); reflexivity. Qed.
Lemma reads_plus_cls p w : reads (plus (Cls p)) w <-> w <> [] /\ Forall (fun c => p c = true) w.
Proof.
  unfold plus. rewrite reads_seq by reflexivity. split.
  - intros (w1 & w2 & -> & H1 & H2). apply reads_cls in H1 as (c & -> & Hc). apply reads_star_cls in H2.
    split; [discriminate|]. constructor; assumption.
  - intros [Hne H]. destruct H as [|c w Hc H]; [congruence|]. exists [c], w. split; [reflexivity|].
    split; [apply reads_cls; eauto|apply reads_star_cls; exact H].
Qed.
Lemma nogrp_upto n a : nogrp a = true -> nogrp (upto n a) = true.
Proof. intro H. induction n; simpl; [reflexivity|]. rewrite H, IHn. reflexivity. Qed.
Lemma nogrp_times n a : nogrp a = true -> nogrp (times n a) = true.
Proof. intro H. induction n; simpl; [reflexivity|]. rewrite H, IHn. reflexivity. Qed.
Lemma reads_upto_cls n p w : reads (upto n (Cls p)) w <-> length w <= n /\ Forall (fun c => p c = true) w.
Proof.
  revert w; induction n as [|n IH]; intro w.
  - simpl. rewrite reads_eps. split; [intros ->; split; [reflexivity|constructor]|].
    intros [H _]. destruct w; [reflexivity|simpl in H; lia].
  - cbn [upto]. rewrite reads_opt, reads_seq by reflexivity. split.
    + intros [(w1 & w2 & -> & H1 & H2)| ->]; [|split; [simpl; lia|constructor]].
      apply reads_cls in H1 as (c & -> & Hc). apply IH in H2 as [H2 H3]. split; [simpl; lia|constructor; assumption].
    + intros [Hl H]. destruct H as [|c w Hc H]; [right; reflexivity|left].
      exists [c], w. split; [reflexivity|]. split; [apply reads_cls; eauto|]. apply IH. simpl in Hl. split; [lia|exact H].
Qed.
Lemma reads_times_cls n p w : reads (times n (Cls p)) w <-> length w = n /\ Forall (fun c => p c = true) w.
Proof.
  revert w; induction n as [|n IH]; intro w.
  - simpl. rewrite reads_eps. split; [intros ->; split; [reflexivity|constructor]|].
    intros [H _]. destruct w; [reflexivity|discriminate].
  - cbn [times]. rewrite reads_seq by reflexivity. split.
    + intros (w1 & w2 & -> & H1 & H2). apply reads_cls in H1 as (c & -> & Hc). apply IH in H2 as [H2 H3].
      split; [simpl; lia|constructor; assumption].
    + intros [Hl H]. destruct H as [|c w Hc H]; [discriminate|].
      exists [c], w. split; [reflexivity|]. split; [apply reads_cls; eauto|]. apply IH. simpl in Hl. split; [lia|exact H].
Qed.

(** forgetting the groups *)
Fixpoint erase (r : regex) : regex :=
  match r with
  | Eps => Eps
  | Cls p => Cls p
  | Seq a b => Seq (erase a) (erase b)
  | Alt a b => Alt (erase a) (erase b)
  | Star a => Star (erase a)
  | Grp _ a => erase a
  | Eol => Eol
  | Look a => Look (erase a)
  | NotLook a => NotLook (erase a)
  end.
Lemma erase_nogrp r : pure r = true -> nogrp (erase r) = true.
Proof. induction r; simpl; intro H; auto; apply andb_true_iff in H as [H1 H2]; rewrite IHr1, IHr2; auto. Qed.
Lemma parse_erase r w cs cs' : parse r w cs cs' -> reads (erase r) w.
Proof.
  unfold reads. induction 1; simpl; try (constructor; assumption); try (econstructor; eassumption); assumption.
Qed.
Lemma erase_parse r w : pure r = true -> reads (erase r) w -> forall cs, exists cs', parse r w cs cs'.
Proof.
  revert w. induction r as [|p|a IHa b IHb|a IHa b IHb|a IHa|i a IHa| |a IHa|a IHa]; simpl; intros w Hp H cs; try discriminate;
    try apply andb_true_iff in Hp as [Hp1 Hp2].
  - apply reads_eps in H as ->. exists cs. constructor.
  - apply reads_cls in H as (c & -> & Hc). exists cs. constructor; exact Hc.
  - apply reads_seq in H as (w1 & w2 & -> & H1 & H2); [|apply erase_nogrp; exact Hp1].
    destruct (IHa w1 Hp1 H1 cs) as [cs1 P1]. destruct (IHb w2 Hp2 H2 cs1) as [cs2 P2].
    exists cs2. econstructor; eassumption.
  - apply reads_alt in H as [H|H].
    + destruct (IHa w Hp1 H cs) as [cs1 P1]. exists cs1. apply p_altl; exact P1.
    + destruct (IHb w Hp2 H cs) as [cs1 P1]. exists cs1. apply p_altr; exact P1.
  - apply reads_star in H as (ws & -> & Hf); [|apply erase_nogrp; exact Hp]. revert cs.
    induction Hf as [|x ws [Hx Hne] _ IH]; intro cs; simpl; [exists cs; constructor|].
    destruct (IHa x Hp Hx cs) as [cs1 P1]. destruct (IH cs1) as [cs2 P2]. exists cs2. econstructor; eassumption.
  - destruct (IHa w Hp H cs) as [cs1 P1]. eexists. constructor. exact P1.
Qed.
Theorem match_reads a s : pure a = true ->
  (exists cs, re_match (Seq a Eol) s = Some cs) <-> exists w t, s = w ++ t /\ ends t /\ reads (erase a) w.
Proof.
  intro Hp. rewrite match_iff by exact Hp. split.
  - intros (w & t & cs & H1 & H2 & P). exists w, t. repeat split; auto. eapply parse_erase; exact P.
  - intros (w & t & H1 & H2 & P). destruct (erase_parse a w Hp P []) as [cs Pc]. eauto 6.
Qed.
Theorem fullmatch_reads a s : pure a = true ->
  (exists cs, re_fullmatch (Seq a Eol) s = Some cs) <-> reads (erase a) s.
Proof.
  intro Hp. rewrite fullmatch_iff by exact Hp. split.
  - intros [cs P]. eapply parse_erase; exact P.
  - intro P. apply erase_parse; assumption.
Qed.
