(** How the patterns of [Uri] read a text, and facts about the normalizers. *)
From Verif Require Import PyBase PyBaseFacts Regex RegexFacts Uri PropsPointer.
Local Open Scope N_scope.
Local Notation length := List.length (only parsing).

(** ** The longest prefix in a class *)
Fixpoint take_while (p : N -> bool) (s : pystr) : pystr :=
  match s with c :: s' => if p c then c :: take_while p s' else [] | [] => [] end.
Fixpoint drop_while (p : N -> bool) (s : pystr) : pystr :=
  match s with c :: s' => if p c then drop_while p s' else s | [] => [] end.
Lemma take_drop p s : take_while p s ++ drop_while p s = s.
Proof. induction s as [|c s IH]; [reflexivity|]. cbn. destruct (p c); [cbn; rewrite IH|]; reflexivity. Qed.
Lemma take_all p s : Forall (fun c => p c = true) (take_while p s).
Proof. induction s as [|c s IH]; [constructor|]. cbn. destruct (p c) eqn:E; constructor; assumption. Qed.
Lemma drop_head p s c r : drop_while p s = c :: r -> p c = false.
Proof.
  induction s as [|x s IH]; [discriminate|]. cbn. destruct (p x) eqn:E; [exact IH|]. intros [= <- _]. exact E.
Qed.
Lemma take_app p w r : Forall (fun c => p c = true) w -> (forall c r0, r = c :: r0 -> p c = false) -> take_while p (w ++ r) = w.
Proof.
  intros H Hr. induction H as [|c w Hc H IH]; cbn.
  - destruct r as [|c r]; [reflexivity|]. cbn. rewrite (Hr c r eq_refl). reflexivity.
  - rewrite Hc, IH. reflexivity.
Qed.
Lemma drop_app p w r : Forall (fun c => p c = true) w -> (forall c r0, r = c :: r0 -> p c = false) -> drop_while p (w ++ r) = r.
Proof.
  intros H Hr. induction H as [|c w Hc H IH]; cbn.
  - destruct r as [|c r]; [reflexivity|]. cbn. rewrite (Hr c r eq_refl). reflexivity.
  - rewrite Hc, IH. reflexivity.
Qed.

(** ** First reading *)
Definition first (r : regex) (x : mstate) : option mstate := hd_error (run r x).
Definition total (r : regex) : Prop := forall x, run r x <> [].
Lemma first_seq a b x : total b -> first (Seq a b) x = match first a x with Some y => first b y | None => None end.
Proof.
  intro Hb. unfold first. cbn [run]. destruct (run a x) as [|y l]; [reflexivity|]. cbn. specialize (Hb y).
  destruct (run b y) as [|z l']; [congruence|reflexivity].
Qed.
Lemma first_opt a x : first (opt a) x = match first a x with Some y => Some y | None => Some x end.
Proof. unfold first, opt. cbn [run]. destruct (run a x); reflexivity. Qed.
Lemma first_star p s cs : first (Star (Cls p)) (s, cs) = Some (drop_while p s, cs).
Proof.
  unfold first. cbn [run fst]. set (body := fun x : mstate => match fst x with [] => [] | c :: rest => if p c then [(rest, snd x)] else [] end).
  assert (G : forall n s, (length s <= n)%nat -> hd_error (star_run body n (s, cs)) = Some (drop_while p s, cs)).
  { induction n as [|n IH]; intros [|c t] Hl; try reflexivity; [cbn in Hl; lia|]. cbn [star_run fst snd drop_while]. unfold body at 2. cbn [fst snd].
    destruct (p c); [|reflexivity]. cbn [flat_map fst]. rewrite app_nil_r.
    replace (length t <? length (c :: t))%nat with true by (symmetry; apply Nat.ltb_lt; cbn; lia).
    specialize (IH t ltac:(cbn in Hl; lia)). destruct (star_run body n (t, cs)) as [|y l]; [discriminate|]. exact IH. }
  apply G. reflexivity.
Qed.
Lemma first_grp i a s cs : first (Grp i a) (s, cs) =
  match first a (s, cs) with Some y => Some (fst y, (i, firstn (length s - length (fst y)) s) :: snd y) | None => None end.
Proof. unfold first. cbn [run fst]. destruct (run a (s, cs)); reflexivity. Qed.
Lemma first_grp_star i p s cs : first (Grp i (Star (Cls p))) (s, cs) = Some (drop_while p s, (i, take_while p s) :: cs).
Proof.
  rewrite first_grp, first_star. cbn [fst snd]. do 4 f_equal.
  pose proof (take_drop p s) as E. set (w := take_while p s) in *. set (d := drop_while p s) in *. clearbody w d. subst s. rewrite app_length.
  replace (length w + length d - length d)%nat with (length w) by lia.
  rewrite firstn_app, firstn_all, Nat.sub_diag. cbn. apply app_nil_r.
Qed.
Lemma first_cls p s cs : first (Cls p) (s, cs) = match s with c :: r => if p c then Some (r, cs) else None | [] => None end.
Proof. unfold first. cbn [run fst snd]. destruct s as [|c r]; [reflexivity|]. destruct (p c); reflexivity. Qed.
Lemma total_star a : total (Star a).
Proof.
  intros [s cs]. cbn [run fst]. destruct (length s); cbn [star_run]; [discriminate|]. intro H. apply app_eq_nil in H as [_ H]. discriminate.
Qed.
Lemma total_grp i a : total a -> total (Grp i a).
Proof. intros H x. cbn [run]. specialize (H x). destruct (run a x); [congruence|discriminate]. Qed.
Lemma total_opt a : total (opt a).
Proof. intros x. unfold opt. cbn [run]. intro H. apply app_eq_nil in H as [_ H]. discriminate. Qed.
Lemma total_seq a b : total a -> total b -> total (Seq a b).
Proof.
  intros Ha Hb x. cbn [run]. specialize (Ha x). destruct (run a x) as [|y l]; [congruence|]. cbn. specialize (Hb y).
  destruct (run b y); [congruence|discriminate].
Qed.
Lemma total_eps : total Eps.
Proof. intros x. discriminate. Qed.
Lemma first_cls_seq p b s cs : first (Seq (Cls p) b) (s, cs) = match s with c :: r => if p c then first b (r, cs) else None | [] => None end.
Proof.
  unfold first. cbn [run fst snd]. destruct s as [|c r]; [reflexivity|]. destruct (p c); [|reflexivity]. cbn. rewrite app_nil_r. reflexivity.
Qed.

(** ** The five components *)
Definition cut_scheme (s : pystr) : option (pystr * pystr) :=
  match s with
  | c :: s' => if is_alpha c then match drop_while scheme_char s' with
                                  | x :: r => if x =? 58 then Some (c :: take_while scheme_char s', r) else None
                                  | [] => None end
               else None
  | [] => None
  end.
Definition cut_auth (s : pystr) : option (pystr * pystr) :=
  match s with
  | a :: b :: r => if (a =? slash) && (b =? slash) then Some (take_while auth_char r, drop_while auth_char r) else None
  | _ => None
  end.
Definition cut_mark (m : N) (p : N -> bool) (s : pystr) : option (pystr * pystr) :=
  match s with a :: r => if a =? m then Some (take_while p r, drop_while p r) else None | [] => None end.
Definition part (o : option (pystr * pystr)) : pystr := match o with Some (w, _) => w | None => [] end.
Definition rest (o : option (pystr * pystr)) (s : pystr) : pystr := match o with Some (_, r) => r | None => s end.
Definition keep1 (i : nat) (o : option (pystr * pystr)) (cs : caps) : caps := match o with Some (w, _) => (i, w) :: cs | None => cs end.

Lemma scheme_char_colon : scheme_char 58 = false. Proof. reflexivity. Qed.
Lemma reads_scheme w : reads scheme_re w <-> exists c w', w = c :: w' /\ is_alpha c = true /\ Forall (fun x => scheme_char x = true) w'.
Proof.
  unfold scheme_re. rewrite reads_seq by reflexivity. split.
  - intros (w1 & w2 & -> & H1 & H2). apply reads_cls in H1 as (c & -> & Hc). apply reads_star_cls in H2. exists c, w2. auto.
  - intros (c & w' & -> & Hc & H). exists [c], w'. split; [reflexivity|]. split; [apply reads_cls; eauto|apply reads_star_cls; exact H].
Qed.
Lemma scheme_reading s y : In y (run (Seq (Grp 1 scheme_re) (Cls (one 58))) (s, [])) <->
  exists w r, cut_scheme s = Some (w, r) /\ y = (r, [(1%nat, w)]).
Proof.
  destruct y as [t cs]. rewrite run_parse by reflexivity. split.
  - intros (w & -> & P). apply parse_seq in P as (w1 & w2 & cs1 & -> & P1 & P2). apply parse_grp in P1 as (cs0 & -> & P1).
    apply nogrp_reads in P1 as [P1 ->]; [|reflexivity]. apply reads_scheme in P1 as (c & w' & -> & Hc & Hw).
    apply parse_cls in P2 as [(x & -> & Hx) ->]. apply N.eqb_eq in Hx as ->. exists (c :: w'), t. split; [|reflexivity].
    rewrite <- app_assoc. cbn [app cut_scheme]. rewrite Hc. rewrite drop_app, take_app; try exact Hw; try (intros x r0 [= <- _]; reflexivity). reflexivity.
  - intros (w & r & E & [= -> ->]). unfold cut_scheme in E. destruct s as [|c s]; [discriminate|].
    destruct (is_alpha c) eqn:Hc; [|discriminate]. destruct (drop_while scheme_char s) as [|x r'] eqn:Ed; [discriminate|].
    destruct (N.eqb_spec x 58) as [->|]; [|discriminate]. injection E as <- <-.
    exists ((c :: take_while scheme_char s) ++ [58]). split.
    + rewrite <- app_assoc. cbn. f_equal. rewrite <- (take_drop scheme_char s) at 1. rewrite Ed. reflexivity.
    + apply p_seq with (cs1 := [(1%nat, c :: take_while scheme_char s)]); [|constructor; reflexivity]. constructor.
      apply reads_scheme. exists c, (take_while scheme_char s). split; [reflexivity|]. split; [exact Hc|apply take_all].
Qed.
Lemma first_scheme s : first (opt (Seq (Grp 1 scheme_re) (Cls (one 58)))) (s, []) =
  Some (rest (cut_scheme s) s, keep1 1 (cut_scheme s) []).
Proof.
  rewrite first_opt. unfold first. pose proof (scheme_reading s) as H.
  destruct (run (Seq (Grp 1 scheme_re) (Cls (one 58))) (s, [])) as [|y l]; cbn [hd_error].
  - destruct (cut_scheme s) as [[w r]|]; [|reflexivity]. exfalso. apply (proj2 (H (r, [(1%nat, w)]))). eauto.
  - destruct (proj1 (H y) (or_introl eq_refl)) as (w & r & E & ->). rewrite E. reflexivity.
Qed.
Lemma first_auth s cs : first (opt (Seq (Cls (one slash)) (Seq (Cls (one slash)) (Grp 2 (Star (Cls auth_char)))))) (s, cs) =
  Some (rest (cut_auth s) s, keep1 2 (cut_auth s) cs).
Proof.
  rewrite first_opt, first_cls_seq. unfold cut_auth, one. destruct s as [|a [|b r]]; [reflexivity|destruct (a =? slash); reflexivity|].
  destruct (a =? slash); [|reflexivity]. rewrite first_cls_seq. destruct (b =? slash); [|reflexivity]. cbn [andb].
  rewrite first_grp_star. reflexivity.
Qed.
Lemma first_mark m i p s cs : first (opt (Seq (Cls (one m)) (Grp i (Star (Cls p))))) (s, cs) = Some (rest (cut_mark m p s) s, keep1 i (cut_mark m p s) cs).
Proof.
  rewrite first_opt, first_cls_seq. unfold cut_mark, one. destruct s as [|a r]; [reflexivity|].
  destruct (a =? m); [|reflexivity]. rewrite first_grp_star. reflexivity.
Qed.

Definition after_scheme (s : pystr) : pystr := rest (cut_scheme s) s.
Definition after_auth (s : pystr) : pystr := let t := after_scheme s in rest (cut_auth t) t.
Definition after_path (s : pystr) : pystr := drop_while path_char (after_auth s).
Definition after_query (s : pystr) : pystr := let t := after_path s in rest (cut_mark 63 no_hash t) t.
Definition raw_scheme (s : pystr) : pystr := part (cut_scheme s).
Definition raw_auth (s : pystr) : pystr := part (cut_auth (after_scheme s)).
Definition raw_path (s : pystr) : pystr := take_while path_char (after_auth s).
Definition raw_query (s : pystr) : pystr := part (cut_mark 63 no_hash (after_path s)).
Definition raw_frag (s : pystr) : pystr := part (cut_mark 35 no_newline_char (after_query s)).

Lemma uri_reading s : exists cs, re_match uri_regex s = Some cs /\ got 1 cs = raw_scheme s /\ got 2 cs = raw_auth s /\
  got 3 cs = raw_path s /\ got 4 cs = raw_query s /\ got 5 cs = raw_frag s.
Proof.
  assert (F : first uri_regex (s, []) =
    let c1 := keep1 1 (cut_scheme s) [] in let c2 := keep1 2 (cut_auth (after_scheme s)) c1 in let c3 := (3%nat, raw_path s) :: c2 in
    let c4 := keep1 4 (cut_mark 63 no_hash (after_path s)) c3 in let c5 := keep1 5 (cut_mark 35 no_newline_char (after_query s)) c4 in
    Some (rest (cut_mark 35 no_newline_char (after_query s)) (after_query s), c5)).
  { unfold uri_regex. cbn [seqs fold_right].
    assert (T5 : total (Seq (opt (Seq (Cls (one 35)) (Grp 5 (Star (Cls no_newline_char))))) Eps)) by (apply total_seq; [apply total_opt|apply total_eps]).
    assert (T4 : total (Seq (opt (Seq (Cls (one 63)) (Grp 4 (Star (Cls no_hash))))) (Seq (opt (Seq (Cls (one 35)) (Grp 5 (Star (Cls no_newline_char))))) Eps)))
      by (apply total_seq; [apply total_opt|exact T5]).
    assert (T3 := total_seq _ _ (total_grp 3 _ (total_star (Cls path_char))) T4).
    assert (T2 := total_seq _ _ (total_opt (Seq (Cls (one slash)) (Seq (Cls (one slash)) (Grp 2 (Star (Cls auth_char)))))) T3).
    rewrite (first_seq _ _ _ T2), first_scheme. rewrite (first_seq _ _ _ T3), first_auth.
    rewrite (first_seq _ _ _ T4), first_grp_star. rewrite (first_seq _ _ _ T5), first_mark. rewrite (first_seq _ _ _ total_eps), first_mark. reflexivity. }
  unfold re_match. unfold first in F. destruct (run uri_regex (s, [])) as [|y l]; [discriminate|]. cbn [hd_error] in F. injection F as ->.
  eexists. split; [reflexivity|]. cbn [snd]. unfold got, raw_scheme, raw_auth, raw_query, raw_frag.
  destruct (cut_scheme s) as [[? ?]|], (cut_auth (after_scheme s)) as [[? ?]|], (cut_mark 63 no_hash (after_path s)) as [[? ?]|],
    (cut_mark 35 no_newline_char (after_query s)) as [[? ?]|]; cbn; auto 10.
Qed.

Lemma mk_uri_parts auth s : mk_uri auth s =
  match auth (raw_auth s) with
  | None => Raise EAttr
  | Some a => Ok (Uri (normalize_scheme (raw_scheme s)) a
      (match normalize_scheme (raw_scheme s) with [] => raw_path s | _ => normalize_path (raw_path s) end)
      (normalize_query (raw_query s)) (normalize_query (raw_frag s)))
  end.
Proof.
  destruct (uri_reading s) as (cs & E & E1 & E2 & E3 & E4 & E5). unfold mk_uri, mk_authority. rewrite E, E1, E2, E3, E4, E5.
  destruct (auth (raw_auth s)); reflexivity.
Qed.
