(** C90: the cache in front of [query]. *)
From Verif Require Import PyBase PyBaseFacts PyVal Regex Uri Store Pointer PropsPointer Heap HeapFacts PropsWrap Doc DocFacts DocMono PropsLoader PropsQuery Session.
Local Open Scope nat_scope.
Local Notation length := List.length (only parsing).

Lemma qkey_eqb_eq a b : qkey_eqb a b = true <-> a = b.
Proof.
  destruct a as [[s t]|i], b as [[s' t']|j]; cbn; try (split; [discriminate|congruence]).
  - rewrite andb_true_iff, Nat.eqb_eq, str_eqb_eq. split; [intros [-> ->]; reflexivity|intros [= -> ->]; auto].
  - rewrite Nat.eqb_eq. split; [intros ->; reflexivity|intros [= ->]; reflexivity].
Qed.

Section Session.
  Variable auth : pystr -> option authority.
  Variable dig : N -> option Z.
  Variable strx : heap -> addr -> pystr.
  Variable fetch : uri -> res pv.
  Variable n : nat.
  Notation ask := (ask auth dig strx fetch n).
  Notation cached := (cached auth dig strx fetch n).
  Notation session := (session auth dig strx fetch n).
  (** what [schema.query(text)] would answer if it were not cached *)
  Notation answer w s t := (snd (query_text auth dig strx fetch n s t w)).

  (** the run as a history of cached calls of PropsLoader.v *)
  Let f (w : world) (k : qkey) : res addr := snd (ask w k).
  Fixpoint events (acts : list action) (w : world) (c : @lru qkey addr) : list (@event qkey world) :=
    match acts with
    | [] => []
    | Ask s t :: acts' => let '(w1, c1, _) := cached w c (inl (s, t)) in Call (inl (s, t)) :: PropsLoader.World w1 :: events acts' w1 c1
    | Change g :: acts' => PropsLoader.World (g w) :: events acts' (g w) c
    | Follow i :: acts' => let '(w1, c1, _) := cached w c (inr i) in Call (inr i) :: PropsLoader.World w1 :: events acts' w1 c1
    end.
  Definition line_of (e : @entry qkey addr world) : option line :=
    match e_key e with inl (s, t) => Some (Line (e_world e) s t (e_answer e)) | inr _ => None end.
  Fixpoint lines (l : list (@entry qkey addr world)) : list line :=
    match l with [] => [] | e :: l' => match line_of e with Some x => x :: lines l' | None => lines l' end end.
  Lemma session_calls acts : forall w c log w' c', session acts w c = (log, w', c') ->
    exists elog, calls qkey_eqb f (events acts w c) w c = (elog, w', c') /\ log = lines elog.
  Proof.
    induction acts as [|[s t|g|i] acts IH]; intros w c log w' c' H; cbn [Session.session events] in *.
    - injection H as <- <- <-. exists []. split; reflexivity.
    - unfold Session.cached in *. destruct (lru_call qkey_eqb (fun k => snd (ask w k)) (inl (s, t)) c) as [c1 r] eqn:E.
      set (w1 := match lru_find qkey_eqb (inl (s, t)) c with Some _ => w | None => fst (ask w (inl (s, t))) end) in *.
      destruct (session acts w1 c1) as [[log1 w2] c2] eqn:S. injection H as <- <- <-. destruct (IH _ _ _ _ _ S) as (el & C & ->).
      exists (Entry w (inl (s, t)) r :: el). cbn [calls]. unfold f at 1. rewrite E, C. split; reflexivity.
    - exact (IH _ _ _ _ _ H).
    - unfold Session.cached in *. destruct (lru_call qkey_eqb (fun k => snd (ask w k)) (inr i) c) as [c1 r] eqn:E.
      set (w1 := match lru_find qkey_eqb (inr i) c with Some _ => w | None => fst (ask w (inr i)) end) in *.
      destruct (IH _ _ _ _ _ H) as (el & C & ->).
      exists (Entry w (inr i) r :: el). cbn [calls]. unfold f at 1. rewrite E, C. split; reflexivity.
  Qed.
  Lemma lines_app a b : lines (a ++ b) = lines a ++ lines b.
  Proof. induction a as [|e a IH]; [reflexivity|]. cbn. rewrite IH. destruct (line_of e); reflexivity. Qed.
  Lemma lines_split el : forall before x after, lines el = before ++ x :: after -> exists eb e ea, el = eb ++ e :: ea /\ lines eb = before /\ line_of e = Some x.
  Proof.
    induction el as [|e el IH]; intros before x after H; cbn in H; [destruct before; discriminate|]. destruct (line_of e) as [y|] eqn:Ey.
    - destruct before as [|b before]; cbn in H; injection H as <- H.
      + exists [], e, el. auto.
      + destruct (IH _ _ _ H) as (eb & e' & ea & -> & <- & Hx). exists (e :: eb), e', ea. cbn. rewrite Ey. auto.
    - destruct (IH _ _ _ H) as (eb & e' & ea & -> & <- & Hx). exists (e :: eb), e', ea. cbn. rewrite Ey. auto.
  Qed.
  Lemma lines_in el w s t r : In (Entry w (inl (s, t)) r) el -> In (Line w s t r) (lines el).
  Proof. intro H. apply in_split in H as (a & b & ->). rewrite lines_app. apply in_or_app. right. left. reflexivity. Qed.

  (** Full claim: a query answers what its text leads to at that moment.  It fails
      ([C90_stale], [C90_refuted]).  What holds for all histories: the answer is that,
      or the answer the same text already got from the same document. *)
  Theorem C90_partial acts w0 log w c before x after : session acts w0 [] = (log, w, c) -> log = before ++ x :: after ->
    l_answer x = answer (l_world x) (l_doc x) (l_text x) \/
    exists w1 a, In (Line w1 (l_doc x) (l_text x) (Ok a)) before /\ answer w1 (l_doc x) (l_text x) = Ok a /\ l_answer x = Ok a.
  Proof.
    intros H ->. destruct (session_calls _ _ _ _ _ _ H) as (el & C & E). symmetry in E. destruct (lines_split _ _ _ _ E) as (eb & e & ea & -> & <- & Hx).
    unfold line_of in Hx. destruct e as [we [[s t]|i] r]; cbn in Hx; [injection Hx as <-|discriminate]. cbn [l_answer l_doc l_text l_world].
    destruct (calls_origin qkey_eqb qkey_eqb_eq f _ _ [] [] _ _ _ eb _ ea ltac:(intros ? ? []) C eq_refl) as [K|(w1 & a & I & F & A)]; cbn [e_answer e_world e_key] in *; [left; exact K|].
    right. exists w1, a. split; [apply lines_in, I|]. split; [exact F|exact A].
  Qed.
  (** failures are never remembered, and the first success for a text is right *)
  Theorem C90_fresh acts w0 log w c before x after : session acts w0 [] = (log, w, c) -> log = before ++ x :: after ->
    (forall a, l_answer x <> Ok a) \/ (forall y a, In y before -> l_doc y = l_doc x -> l_text y = l_text x -> l_answer y <> Ok a) ->
    l_answer x = answer (l_world x) (l_doc x) (l_text x).
  Proof.
    intros H E K. destruct (C90_partial _ _ _ _ _ _ _ _ H E) as [A|(w1 & a & I & _ & A)]; [exact A|]. exfalso. destruct K as [K|K]; [exact (K a A)|exact (K _ a I eq_refl eq_refl eq_refl)].
  Qed.

  (** ** How long an answer is remembered *)
  Definition asks (acts : list action) : nat := length (filter (fun a => match a with Ask _ _ => true | _ => false end) acts).
  Definition calls_in (acts : list action) : nat := length (filter (fun a => match a with Change _ => false | _ => true end) acts).
  Lemma session_app a : forall b w c, session (a ++ b) w c =
    let '(l1, w1, c1) := session a w c in let '(l2, w2, c2) := session b w1 c1 in (l1 ++ l2, w2, c2).
  Proof.
    induction a as [|[s t|g|i] a IH]; intros b w c; cbn [app Session.session].
    - destruct (session b w c) as [[l w1] c1]. reflexivity.
    - destruct (cached w c (inl (s, t))) as [[w1 c1] r]. rewrite IH. destruct (session a w1 c1) as [[l1 w2] c2]. destruct (session b w2 c2) as [[l2 w3] c3]. reflexivity.
    - apply IH.
    - destruct (cached w c (inr i)) as [[w1 c1] r]. apply IH.
  Qed.
  Lemma session_length a : forall w c l w' c', session a w c = (l, w', c') -> length l = asks a.
  Proof.
    induction a as [|[s t|g|i] a IH]; intros w c l w' c' H; cbn [Session.session] in H; unfold asks; cbn [filter].
    - injection H as <- <- <-. reflexivity.
    - destruct (cached w c (inl (s, t))) as [[w1 c1] r]. destruct (session a w1 c1) as [[l1 w2] c2] eqn:E. injection H as <- <- <-. cbn. f_equal. exact (IH _ _ _ _ _ E).
    - exact (IH _ _ _ _ _ H).
    - destruct (cached w c (inr i)) as [[w1 c1] r]. exact (IH _ _ _ _ _ H).
  Qed.
  Lemma cached_call w c k w1 c1 r : cached w c k = (w1, c1, r) -> lru_call qkey_eqb (f w) k c = (c1, r).
  Proof. unfold Session.cached. change (lru_call qkey_eqb (f w) k c) with (lru_call qkey_eqb (fun k => snd (ask w k)) k c). destruct (lru_call _ _ k c) as [c' r']. intros [= _ <- <-]. reflexivity. Qed.
  Lemma session_nodup a : forall w c l w' c', NoDup (keys c) -> session a w c = (l, w', c') -> NoDup (keys c').
  Proof.
    induction a as [|[s t|g|i] a IH]; intros w c l w' c' N H; cbn [Session.session] in H.
    - injection H as <- <- <-. exact N.
    - destruct (cached w c (inl (s, t))) as [[w1 c1] r] eqn:E. destruct (session a w1 c1) as [[l1 w2] c2] eqn:E1. injection H as <- <- <-.
      eapply IH; [|exact E1]. eapply call_nodup; [exact qkey_eqb_eq|exact N|exact (cached_call _ _ _ _ _ _ E)].
    - exact (IH _ _ _ _ _ N H).
    - destruct (cached w c (inr i)) as [[w1 c1] r] eqn:E. eapply IH; [|exact H]. eapply call_nodup; [exact qkey_eqb_eq|exact N|exact (cached_call _ _ _ _ _ _ E)].
  Qed.
  Lemma session_holds k a acts : forall m w c l w' c', holds k a m c -> m + calls_in acts <= 127 -> session acts w c = (l, w', c') -> holds k a (m + calls_in acts) c'.
  Proof.
    induction acts as [|[s t|g|i] acts IH]; intros m w c l w' c' Hh Hm H; cbn [Session.session] in H; unfold calls_in in *; cbn [filter length] in *.
    - injection H as <- <- <-. rewrite Nat.add_0_r. exact Hh.
    - destruct (cached w c (inl (s, t))) as [[w1 c1] r] eqn:E. destruct (session acts w1 c1) as [[l1 w2] c2] eqn:E1. injection H as <- <- <-.
      rewrite <- Nat.add_succ_comm. eapply IH; [|lia|exact E1]. eapply holds_call; [exact qkey_eqb_eq|exact Hh|lia|exact (cached_call _ _ _ _ _ _ E)].
    - exact (IH _ _ _ _ _ _ Hh Hm H).
    - destruct (cached w c (inr i)) as [[w1 c1] r] eqn:E.
      rewrite <- Nat.add_succ_comm. eapply IH; [|lia|exact H]. eapply holds_call; [exact qkey_eqb_eq|exact Hh|lia|exact (cached_call _ _ _ _ _ _ E)].
  Qed.

  (** the text asked twice, with [mid] in between *)
  Lemma asked_twice acts s t mid w0 log w c : session (acts ++ Ask s t :: mid ++ [Ask s t]) w0 [] = (log, w, c) ->
    exists log1 w1 c1 w2 c2 r1 log2 w3 c3 w4 c4 r2, session acts w0 [] = (log1, w1, c1) /\ cached w1 c1 (inl (s, t)) = (w2, c2, r1) /\
      session mid w2 c2 = (log2, w3, c3) /\ cached w3 c3 (inl (s, t)) = (w4, c4, r2) /\ log = log1 ++ Line w1 s t r1 :: log2 ++ [Line w3 s t r2].
  Proof.
    intro H. rewrite session_app in H. destruct (session acts w0 []) as [[log1 w1] c1] eqn:S1. cbn [Session.session] in H.
    destruct (cached w1 c1 (inl (s, t))) as [[w2 c2] r1] eqn:C1. rewrite session_app in H. destruct (session mid w2 c2) as [[log2 w3] c3] eqn:S2. cbn [Session.session] in H.
    destruct (cached w3 c3 (inl (s, t))) as [[w4 c4] r2] eqn:C2. injection H as <- <- <-.
    exists log1, w1, c1, w2, c2, r1, log2, w3, c3, w4, c4, r2. repeat split; assumption.
  Qed.

  (** after a success nothing that happens to the document is seen by the same
      query until 128 other queries have been made or references followed *)
  Theorem C90_stale acts s t mid w0 log w c : session (acts ++ Ask s t :: mid ++ [Ask s t]) w0 [] = (log, w, c) -> calls_in mid <= 127 ->
    exists log1 w1 r1 log2 w2 r2, log = log1 ++ Line w1 s t r1 :: log2 ++ [Line w2 s t r2] /\ length log1 = asks acts /\ length log2 = asks mid /\
      forall a, r1 = Ok a -> r2 = Ok a.
  Proof.
    intros H Hm. destruct (asked_twice _ _ _ _ _ _ _ _ H) as (log1 & w1 & c1 & w2 & c2 & r1 & log2 & w3 & c3 & w4 & c4 & r2 & S1 & C1 & S2 & C2 & ->).
    exists log1, w1, r1, log2, w3, r2. split; [reflexivity|]. split; [exact (session_length _ _ _ _ _ _ S1)|]. split; [exact (session_length _ _ _ _ _ _ S2)|].
    intros a ->. assert (N : NoDup (keys c1)) by (eapply session_nodup; [|exact S1]; constructor).
    pose proof (call_holds qkey_eqb qkey_eqb_eq f _ _ _ _ _ N (cached_call _ _ _ _ _ _ C1)) as Hh.
    pose proof (session_holds _ _ _ 0 _ _ _ _ _ Hh Hm S2) as Hh2. apply cached_call in C2. unfold lru_call in C2. rewrite (holds_find qkey_eqb qkey_eqb_eq _ _ _ _ Hh2) in C2. injection C2 as _ <-. reflexivity.
  Qed.

  (** the keys used after [k], if [k] is remembered *)
  Fixpoint since (k : qkey) (c : @lru qkey addr) : option (list qkey) :=
    match c with [] => None | (k', _) :: c' => if qkey_eqb k k' then Some (keys c') else since k c' end.
  Lemma since_find k c : since k c = None <-> lru_find qkey_eqb k c = None.
  Proof. induction c as [|[k' a] c IH]; cbn; [tauto|]. destruct (qkey_eqb k k'); [split; discriminate|exact IH]. Qed.
  Lemma since_length k c r : since k c = Some r -> length r < length c.
  Proof. induction c as [|[k' a] c IH]; cbn; [discriminate|]. destruct (qkey_eqb k k'); [intros [= <-]; unfold keys; rewrite map_length; lia|]. intro H. specialize (IH H). lia. Qed.
  Definition behind (D : list qkey) (k : qkey) (c : @lru qkey addr) : Prop := forall r, since k c = Some r -> incl D r.
  Lemma behind_snoc D k c k' b : k <> k' -> behind D k c -> behind (k' :: D) k (c ++ [(k', b)]).
  Proof.
    intros Nk H r. assert (G : since k (c ++ [(k', b)]) = option_map (fun r => r ++ [k']) (since k c)).
    { clear H. induction c as [|[x a] c IH]; cbn.
      - destruct (qkey_eqb k k') eqn:E; [apply qkey_eqb_eq in E; contradiction|reflexivity].
      - destruct (qkey_eqb k x); [cbn; unfold keys; rewrite map_app; reflexivity|exact IH]. }
    rewrite G. destruct (since k c) as [r0|] eqn:E; [|discriminate]. intros [= <-] x [<-|Hx]; apply in_or_app; [right; left; reflexivity|left; exact (H r0 E x Hx)].
  Qed.
  Lemma behind_drop D k c k' : k <> k' -> behind D k c -> forall r, since k (lru_drop qkey_eqb k' c) = Some r -> forall x, In x D -> x <> k' -> In x r.
  Proof.
    intros Nk H r. revert r H. induction c as [|[y a] c IH]; intros r H; cbn; [discriminate|]. destruct (qkey_eqb k' y) eqn:E.
    - apply qkey_eqb_eq in E as <-. intros Hr x Hx Nx. apply (H r); [|exact Hx]. cbn. destruct (qkey_eqb k k') eqn:Ek; [apply qkey_eqb_eq in Ek; contradiction|exact Hr].
    - cbn [since]. destruct (qkey_eqb k y) eqn:Ek.
      + intros [= <-] x Hx Nx. assert (I : In x (keys c)) by (apply (H (keys c)); [cbn; rewrite Ek; reflexivity|exact Hx]).
        clear -I Nx. induction c as [|[z a] c IH]; [destruct I|]. cbn in *. destruct (qkey_eqb k' z) eqn:E; [apply qkey_eqb_eq in E; subst z; destruct I; [congruence|assumption]|]. destruct I; [left; assumption|right; auto].
      + intros Hr. apply IH; [|exact Hr]. intros r0 H0. apply H. cbn. rewrite Ek. exact H0.
  Qed.
  Lemma behind_tl D k c : NoDup (keys c) -> behind D k c -> behind D k (tl c).
  Proof.
    destruct c as [|[y a] c]; [intros _ H; exact H|]. cbn [tl keys map fst]. intros N H r Hr. inversion N as [|? ? Ny _]; subst. apply (H r). cbn. destruct (qkey_eqb k y) eqn:E; [|exact Hr].
    apply qkey_eqb_eq in E as <-. exfalso. apply (find_None qkey_eqb qkey_eqb_eq) in Ny. apply since_find in Ny. congruence.
  Qed.
  Lemma behind_call D k w c k' w1 c1 r : k <> k' -> NoDup (keys c) -> length c <= 128 -> behind D k c -> cached w c k' = (w1, c1, r) ->
    length c1 <= 128 /\ behind (match r with Ok _ => k' :: D | _ => D end) k c1.
  Proof.
    intros Nk N L H E. apply cached_call in E. unfold lru_call in E. destruct (lru_find qkey_eqb k' c) as [b|] eqn:F.
    - injection E as <- <-. split.
      + rewrite app_length. cbn. assert (I : In k' (keys c)) by (apply find_In in F; [|exact qkey_eqb_eq]; apply (in_map fst) in F; exact F). pose proof (drop_found qkey_eqb qkey_eqb_eq _ _ I). lia.
      + intros r0 H0. assert (B : behind (filter (fun x => negb (qkey_eqb k' x)) D) k (lru_drop qkey_eqb k' c)).
        { intros r1 H1 x Hx. apply filter_In in Hx as [Hx Nx]. eapply behind_drop; [exact Nk|exact H|exact H1|exact Hx|]. intros ->. apply negb_true_iff in Nx. rewrite (proj2 (qkey_eqb_eq k' k') eq_refl) in Nx. discriminate. }
        pose proof (behind_snoc _ _ _ k' b Nk B r0 H0) as I. intros x [<-|Hx]; [apply I; left; reflexivity|]. destruct (qkey_eqb k' x) eqn:Ex; [apply qkey_eqb_eq in Ex as <-; apply I; left; reflexivity|].
        apply I. right. apply filter_In. split; [exact Hx|]. rewrite Ex. reflexivity.
    - destruct (f w k') as [b|e|]; injection E as <- <-; [|auto|auto]. unfold lru_put. destruct (Nat.leb_spec maxsize (length c)) as [Hl|Hl]; unfold maxsize in Hl.
      + split; [rewrite app_length; destruct c; cbn in *; lia|]. apply behind_snoc; [exact Nk|]. apply behind_tl; assumption.
      + split; [rewrite app_length; cbn; lia|]. apply behind_snoc; assumption.
  Qed.
  Definition successes (l : list line) : list qkey := flat_map (fun x => match l_answer x with Ok _ => [inl (l_doc x, l_text x)] | _ => [] end) l.
  Lemma behind_session k s t acts : k = inl (s, t) -> ~ In (Ask s t) acts -> forall D w c l w' c', NoDup (keys c) -> length c <= 128 -> behind D k c -> session acts w c = (l, w', c') ->
    length c' <= 128 /\ behind (rev (successes l) ++ D) k c'.
  Proof.
    intros -> . induction acts as [|[s1 t1|g|i] acts IH]; intros Na D w c l w' c' N L H E; cbn [Session.session] in E.
    - injection E as <- <- <-. auto.
    - destruct (cached w c (inl (s1, t1))) as [[w1 c1] r] eqn:C. destruct (session acts w1 c1) as [[l1 w2] c2] eqn:S. injection E as <- <- <-.
      assert (Nk : @inl (nat * pystr) nat (s, t) <> inl (s1, t1)) by (intros [= -> ->]; apply Na; left; reflexivity).
      destruct (behind_call D _ w c _ _ _ _ Nk N L H C) as [L1 B1].
      destruct (IH ltac:(intro; apply Na; right; assumption) _ _ _ _ _ _ (call_nodup qkey_eqb qkey_eqb_eq f _ _ _ _ _ N (cached_call _ _ _ _ _ _ C)) L1 B1 S) as [L2 B2].
      split; [exact L2|]. unfold successes in *. cbn [flat_map l_answer l_doc l_text]. destruct r; cbn [app]; [|exact B2|exact B2]. cbn [rev]. rewrite <- app_assoc. exact B2.
    - exact (IH ltac:(intro; apply Na; right; assumption) _ _ _ _ _ _ N L H E).
    - destruct (cached w c (inr i)) as [[w1 c1] r] eqn:C. assert (Nk : @inl (nat * pystr) nat (s, t) <> inr i) by discriminate.
      destruct (behind_call D _ w c _ _ _ _ Nk N L H C) as [L1 B1].
      assert (B1' : behind D (inl (s, t)) c1) by (intros r0 H0 x Hx; apply (B1 r0 H0); destruct r; [right|..]; exact Hx).
      exact (IH ltac:(intro; apply Na; right; assumption) _ _ _ _ _ _ (call_nodup qkey_eqb qkey_eqb_eq f _ _ _ _ _ N (cached_call _ _ _ _ _ _ C)) L1 B1' E).
  Qed.
  Lemma session_size a : forall w c l w' c', NoDup (keys c) -> length c <= 128 -> session a w c = (l, w', c') -> length c' <= 128.
  Proof.
    induction a as [|[s t|g|i] a IH]; intros w c l w' c' N L H; cbn [Session.session] in H.
    - injection H as <- <- <-. exact L.
    - destruct (cached w c (inl (s, t))) as [[w1 c1] r] eqn:E. destruct (session a w1 c1) as [[l1 w2] c2] eqn:E1. injection H as <- <- <-.
      eapply IH; [eapply call_nodup; [exact qkey_eqb_eq|exact N|exact (cached_call _ _ _ _ _ _ E)]| |exact E1].
      apply (behind_call [] (inr 0) w c (inl (s, t)) w1 c1 r); [discriminate|exact N|exact L|intros ? _ ? []|exact E].
    - exact (IH _ _ _ _ _ N L H).
    - destruct (cached w c (inr i)) as [[w1 c1] r] eqn:E.
      eapply IH; [eapply call_nodup; [exact qkey_eqb_eq|exact N|exact (cached_call _ _ _ _ _ _ E)]| |exact H].
      apply (behind_call [] (inl (0, [])) w c (inr i) w1 c1 r); [discriminate|exact N|exact L|intros ? _ ? []|exact E].
  Qed.
  (** after 128 different queries that succeeded the text is looked up again *)
  Theorem C90_forgotten acts s t mid w0 log w c : session (acts ++ Ask s t :: mid ++ [Ask s t]) w0 [] = (log, w, c) -> ~ In (Ask s t) mid ->
    exists log1 w1 r1 log2 w2 r2, log = log1 ++ Line w1 s t r1 :: log2 ++ [Line w2 s t r2] /\ length log1 = asks acts /\ length log2 = asks mid /\
      forall others : list (nat * pystr), NoDup others -> length others = 128 ->
        (forall s' t', In (s', t') others -> exists w' a, In (Line w' s' t' (Ok a)) log2) -> r2 = answer w2 s t.
  Proof.
    intros H Hm. destruct (asked_twice _ _ _ _ _ _ _ _ H) as (log1 & w1 & c1 & w2 & c2 & r1 & log2 & w3 & c3 & w4 & c4 & r2 & S1 & C1 & S2 & C2 & ->).
    exists log1, w1, r1, log2, w3, r2. split; [reflexivity|]. split; [exact (session_length _ _ _ _ _ _ S1)|]. split; [exact (session_length _ _ _ _ _ _ S2)|].
    intros others No Lo Ho. assert (N : NoDup (keys c1)) by (eapply session_nodup; [|exact S1]; constructor).
    assert (L1 : length c1 <= 128) by (eapply session_size; [| |exact S1]; [constructor|cbn; lia]).
    assert (L2 : length c2 <= 128) by (apply (behind_call [] (inr 0) w1 c1 (inl (s, t)) w2 c2 r1); [discriminate|exact N|exact L1|intros ? _ ? []|exact C1]).
    assert (N2 : NoDup (keys c2)) by (eapply call_nodup; [exact qkey_eqb_eq|exact N|exact (cached_call _ _ _ _ _ _ C1)]).
    destruct (behind_session (inl (s, t)) s t mid eq_refl Hm [] w2 c2 log2 w3 c3 N2 L2 ltac:(intros ? _ ? []) S2) as [L3 B].
    apply cached_call in C2. unfold lru_call in C2. destruct (since (inl (s, t)) c3) as [r|] eqn:E.
    - exfalso. pose proof (since_length _ _ _ E) as Lr. specialize (B r E).
      assert (I : incl (map inl others) r).
      { intros x Hx. apply in_map_iff in Hx as ([s' t'] & <- & Hx). destruct (Ho s' t' Hx) as (w' & a & Hl). apply B. rewrite app_nil_r, <- in_rev. unfold successes. apply in_flat_map. eexists. split; [exact Hl|]. left. reflexivity. }
      assert (Nm : NoDup (map (@inl (nat * pystr) nat) others)) by (apply FinFun.Injective_map_NoDup; [intros ? ? [=]; assumption|exact No]).
      pose proof (NoDup_incl_length Nm I) as K. rewrite map_length, Lo in K. exact (Nat.lt_irrefl _ (Nat.le_lt_trans _ _ _ K (Nat.lt_le_trans _ _ _ Lr L3))).
    - apply since_find in E. rewrite E in C2. change (answer w3 s t) with (f w3 (inl (s, t))). destruct (f w3 (inl (s, t))); injection C2 as _ <-; reflexivity.
  Qed.

  (** with nothing changing, the cache makes no difference *)
  Theorem C90_steady acts w log w' c : Forall (fun a => match a with Change g => g w = w | _ => True end) acts ->
    (forall s t, In (Ask s t) acts -> fst (query_text auth dig strx fetch n s t w) = w) -> session acts w [] = (log, w', c) ->
    forall x, In x log -> l_answer x = answer w (l_doc x) (l_text x).
  Proof.
    intros Hc Hs H.
    assert (G : forall c0 log0 w1 c1, session acts w c0 = (log0, w1, c1) -> forall x, In x log0 -> l_world x = w).
    { clear H. induction acts as [|[s t|g|i] acts IH]; intros c0 log0 w1 c1 E x Hx; cbn [Session.session] in E; inversion Hc; subst.
      - injection E as <- _ _. destruct Hx.
      - unfold Session.cached in E. destruct (lru_call qkey_eqb (fun k => snd (ask w k)) (inl (s, t)) c0) as [c2 r]. assert (Hw : fst (ask w (inl (s, t))) = w) by (apply Hs; left; reflexivity). rewrite Hw in E.
        replace (match lru_find qkey_eqb (inl (s, t)) c0 with Some _ => w | None => w end) with w in E by (match goal with |- context[lru_find ?q ?k c0] => destruct (lru_find q k c0) end; reflexivity).
        destruct (session acts w c2) as [[l1 w2] c3] eqn:S. injection E as <- <- <-. destruct Hx as [<-|Hx]; [reflexivity|]. eapply IH; eauto. intros s0 t0 I. apply Hs. right. exact I.
      - rewrite H1 in E. eapply IH; eauto. intros s0 t0 I. apply Hs. right. exact I.
      - unfold Session.cached in E. destruct (lru_call qkey_eqb (fun k => snd (ask w k)) (inr i) c0) as [c2 r]. cbn [Session.ask fst] in E.
        replace (match lru_find qkey_eqb (inr i) c0 with Some _ => w | None => w end) with w in E by (match goal with |- context[lru_find ?q ?k c0] => destruct (lru_find q k c0) end; reflexivity).
        eapply IH; eauto. intros s0 t0 I. apply Hs. right. exact I. }
    intros x Hx. destruct (in_split _ _ Hx) as (before & after & ->).
    destruct (C90_partial _ _ _ _ _ _ _ _ H eq_refl) as [A|(w1 & a & I & A & B)].
    - rewrite A, (G _ _ _ _ H x Hx). reflexivity.
    - rewrite B. assert (w1 = w) as -> by (apply (G _ _ _ _ H (Line w1 (l_doc x) (l_text x) (Ok a))); apply in_or_app; left; exact I). symmetry. exact A.
  Qed.
End Session.

(** ** Cases *)
(** every query of a loaded document without references leaves everything as it is *)
Lemma plain_steady auth dig strx fetch w s r v t : plain_document w s r v -> exists n0, forall n, n0 <= n -> fst (query_text auth dig strx fetch n s t w) = w /\ snd (query_text auth dig strx fetch n s t w) <> OutOfFuel.
Proof.
  intro P. unfold query_text, mbind, lift. destruct (pointer_parse t) as [p|e|] eqn:E; [|exists 0; intros; split; [reflexivity|discriminate]|].
  - destruct (C44_exact auth dig strx fetch w s r v p P) as (o & [n0 R] & No & _). exists n0. intros n Hn. rewrite (R n Hn). split; [reflexivity|exact No].
  - exists 0. intros. split; [reflexivity|]. exfalso. unfold pointer_parse in E. destruct (re_fullmatch pointer_regex t); discriminate.
Qed.
(** [node[k] = v] *)
Definition assign (a : addr) (k : pystr) (v : pv) (w : world) : world :=
  match obj_set (w_heap w) a k v with Ok h => Doc.World h (w_schemas w) (w_store w) | _ => w end.
(** asking for [/a], assigning [2] to it and asking again gives the old node *)
Theorem C90_refuted auth strx fetch n : let w0 := ex_world (VDict [(u "a", VInt 1)]) in
  exists old new w1 w c, w1 = assign 0 (u "a") (VInt 2) w0 /\
    session auth ex_dig strx fetch (3 + n) [Ask 0 (u "/a"); Change (assign 0 (u "a") (VInt 2)); Ask 0 (u "/a")] w0 [] = ([Line w0 0 (u "/a") (Ok old); Line w1 0 (u "/a") (Ok old)], w, c) /\
    snd (query_text auth ex_dig strx fetch (3 + n) 0 (u "/a") w1) = Ok new /\
    HeapFacts.holds (w_heap w1) old (VInt 1) /\ HeapFacts.holds (w_heap w1) new (VInt 2) /\ plain_document w1 0 0 (VDict [(u "a", VInt 2)]).
Proof.
  cbn zeta. exists 1, 2. eexists. eexists. eexists. split; [reflexivity|]. split; [vm_compute; reflexivity|]. split; [vm_compute; reflexivity|].
  split; [eapply h_int; [eexists; split; vm_compute; reflexivity|reflexivity]|]. split; [eapply h_int; [eexists; split; vm_compute; reflexivity|reflexivity]|].
  eexists. split; [vm_compute; reflexivity|]. split; [reflexivity|]. split; [reflexivity|]. split; [reflexivity|].
  eapply h_dict; [eexists; split; vm_compute; reflexivity|]. constructor; [|constructor]. split; [reflexivity|]. eapply h_int; [eexists; split; vm_compute; reflexivity|reflexivity].
Qed.
(** the cases of the other theorems: 128 other elements of an array are asked for
    between the two questions, and the document is changed *)
Fixpoint distinct_keys (l : list (nat * pystr)) : bool :=
  match l with [] => true | k :: l' => negb (existsb (fun k' => qkey_eqb (inl k) (inl k')) l') && distinct_keys l' end.
Lemma distinct_keys_ok l : distinct_keys l = true -> NoDup l.
Proof.
  induction l as [|k l IH]; cbn; [constructor|]. intro H. apply andb_true_iff in H as [H1 H2]. constructor; [|auto]. intro I. apply negb_true_iff in H1.
  rewrite <- not_true_iff_false in H1. apply H1, existsb_exists. exists k. split; [exact I|]. apply (qkey_eqb_eq (inl k) (inl k)). reflexivity.
Qed.
Definition C90_texts : list pystr := map (fun i => u "/" ++ nat_str i) (seq 1 128).
Definition C90_world : world := ex_world (VDict [(u "a", VInt 1); (u "l", VInt 2)]).
Definition C90_session : list action := Change (assign 0 (u "a") (VList (repeat VNone 129))) :: map (fun t => Ask 0 (u "/a" ++ t)) C90_texts.
Definition C90_others : list (nat * pystr) := map (fun t => (0, u "/a" ++ t)) C90_texts.
Definition answered (log : list line) (k : nat * pystr) : bool :=
  existsb (fun x => qkey_eqb (inl k) (inl (l_doc x, l_text x)) && match l_answer x with Ok _ => true | _ => false end) log.
Lemma answered_ok log s t : answered log (s, t) = true -> exists w a, In (Line w s t (Ok a)) log.
Proof.
  intro H. apply existsb_exists in H as ([w s' t' r] & I & H). apply andb_true_iff in H as [H1 H2]. apply qkey_eqb_eq in H1. cbn in H1, H2. injection H1 as <- <-. destruct r as [a| |]; try discriminate. eauto.
Qed.
Example C90_some auth strx fetch : ~ In (Ask 0 (u "/a")) C90_session /\ NoDup C90_others /\ length C90_others = 128 /\
  exists log w c, session auth ex_dig strx fetch 5 C90_session C90_world [] = (log, w, c) /\ forall s t, In (s, t) C90_others -> exists w' a, In (Line w' s t (Ok a)) log.
Proof.
  split; [|split; [apply distinct_keys_ok; vm_compute; reflexivity|split; [vm_compute; reflexivity|]]].
  - intros [H|H]; [discriminate|]. apply in_map_iff in H as (t & H & I). injection H as H. apply in_map_iff in I as (i & <- & _). discriminate H.
  - destruct (session auth ex_dig strx fetch 5 C90_session C90_world []) as [[log w] c] eqn:E. exists log, w, c. split; [reflexivity|]. intros s t I. apply answered_ok.
    assert (F : forallb (answered (fst (fst (session auth ex_dig strx fetch 5 C90_session C90_world [])))) C90_others = true) by (vm_compute; reflexivity).
    rewrite E in F. rewrite forallb_forall in F. exact (F _ I).
Qed.
Print Assumptions C90_partial. Print Assumptions C90_fresh. Print Assumptions C90_stale. Print Assumptions C90_forgotten. Print Assumptions C90_steady. Print Assumptions C90_refuted.
