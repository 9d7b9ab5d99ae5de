(** C57, C58: resolvers and the cache in front of them. *)
From Verif Require Import PyBase PyBaseFacts LeafFacts Regex Uri UriSpec UriNorm PropsUri PropsPointer PropsResolve PropsUriText Store PropsStore.
Local Notation length := List.length (only parsing).

(** ** The cache *)
Section Lru.
  Context {K A W : Type} (keqb : K -> K -> bool) (keqb_eq : forall a b, keqb a b = true <-> a = b).
  (** what the cached function would answer in a state of the world *)
  Variable f : W -> K -> res A.
  Inductive event := World (w : W) | Call (k : K).
  Record entry := Entry { e_world : W; e_key : K; e_answer : res A }.
  Fixpoint calls (es : list event) (w : W) (c : @lru K A) : list entry * W * @lru K A :=
    match es with
    | [] => ([], w, c)
    | World w' :: es' => calls es' w' c
    | Call k :: es' =>
        let '(c', r) := lru_call keqb (f w) k c in
        let '(log, w', c'') := calls es' w c' in (Entry w k r :: log, w', c'')
    end.
  Definition keys (c : @lru K A) : list K := map fst c.
  Lemma keqb_refl k : keqb k k = true. Proof. apply keqb_eq. reflexivity. Qed.
  Lemma find_In k (a : A) (c : @lru K A) : lru_find keqb k c = Some a -> In (k, a) c.
  Proof.
    induction c as [|[k' a'] c IH]; [discriminate|]. cbn. destruct (keqb k k') eqn:E; [|auto]. apply keqb_eq in E as <-. intros [= ->]. left; reflexivity.
  Qed.
  Lemma find_None k (c : @lru K A) : lru_find keqb k c = None <-> ~ In k (keys c).
  Proof.
    induction c as [|[k' a'] c IH]; [cbn; tauto|]. cbn. destruct (keqb k k') eqn:E.
    - apply keqb_eq in E as <-. split; [discriminate|]. intro H. exfalso. apply H. left; reflexivity.
    - rewrite IH. split; intros H; [intros [->|K']; [rewrite keqb_refl in E; discriminate|exact (H K')]|tauto].
  Qed.
  Lemma drop_In x k (c : @lru K A) : In x (lru_drop keqb k c) -> In x c.
  Proof. induction c as [|[k' a'] c IH]; [auto|]. cbn. destruct (keqb k k'); [auto|]. intros [->|H]; auto. Qed.
  Lemma call_In k w c c' r x : lru_call keqb (f w) k c = (c', r) -> In x c' -> In x c \/ (fst x = k /\ f w k = Ok (snd x) /\ ~ In k (keys c)).
  Proof.
    unfold lru_call. destruct (lru_find keqb k c) as [a|] eqn:E.
    - intros [= <- <-] H. left. apply in_app_or in H as [H|[<-|[]]]; [exact (drop_In _ _ _ H)|exact (find_In _ _ _ E)].
    - apply find_None in E. destruct (f w k) as [a|e|] eqn:Ef; intros [= <- <-] H; auto. unfold lru_put in H.
      assert (H' : In x c \/ x = (k, a)).
      { destruct (Nat.leb maxsize (length c)); apply in_app_or in H as [H|[<-|[]]]; auto. left. destruct c; [destruct H|right; exact H]. }
      destruct H' as [?| ->]; cbn; auto.
  Qed.
  (** every cached answer was computed by an earlier call *)
  Lemma calls_origin es : forall w c pre log w' c' before e after, (forall k a, In (k, a) c -> exists w0, In (Entry w0 k (Ok a)) pre /\ f w0 k = Ok a) ->
    calls es w c = (log, w', c') -> log = before ++ e :: after ->
    e_answer e = f (e_world e) (e_key e) \/
    exists w0 a, In (Entry w0 (e_key e) (Ok a)) (pre ++ before) /\ f w0 (e_key e) = Ok a /\ e_answer e = Ok a.
  Proof.
    induction es as [|[w1|k] es IH]; intros w c pre log w' c' before e after Hc H Hl; cbn [calls] in H.
    - injection H as <- <- <-. destruct before; discriminate.
    - exact (IH _ _ _ _ _ _ _ _ _ Hc H Hl).
    - destruct (lru_call keqb (f w) k c) as [c1 r] eqn:E. destruct (calls es w c1) as [[log1 w2] c2] eqn:E1. injection H as <- <- <-.
      destruct before as [|e0 before]; cbn [app] in Hl; injection Hl as <- Hl.
      + cbn [e_answer e_world e_key]. unfold lru_call in E. destruct (lru_find keqb k c) as [a|] eqn:Ef.
        * injection E as <- <-. right. apply find_In in Ef. destruct (Hc _ _ Ef) as (w0 & H0 & F0). exists w0, a. rewrite app_nil_r. auto.
        * left. destruct (f w k); injection E as _ <-; reflexivity.
      + specialize (IH w c1 (pre ++ [Entry w k r]) log1 w2 c2 before e after). rewrite <- app_assoc in IH. cbn [app] in IH. apply IH; [|exact E1|exact Hl].
        intros k0 a0 H0. destruct (call_In k w c c1 r _ E H0) as [H1|(H1 & H2 & H3)].
        * destruct (Hc _ _ H1) as (w0 & Hw & F0). exists w0. split; [apply in_or_app; left; exact Hw|exact F0].
        * cbn in H1, H2. subst k0. exists w. split; [|exact H2]. apply in_or_app. right. left. f_equal.
          unfold lru_call in E. apply find_None in H3. rewrite H3, H2 in E. injection E as _ <-. reflexivity.
  Qed.
  (** an answer stays for the next 127 calls *)
  Definition holds (k : K) (a : A) (n : nat) (c : @lru K A) : Prop :=
    exists l r, c = l ++ (k, a) :: r /\ ~ In k (keys l) /\ ~ In k (keys r) /\ length r <= n.
  Lemma keys_app (l : @lru K A) (r : @lru K A) : keys (l ++ r) = keys l ++ keys r. Proof. apply map_app. Qed.
  Lemma find_app k (l : @lru K A) (r : @lru K A) : ~ In k (keys l) -> lru_find keqb k (l ++ r) = lru_find keqb k r.
  Proof.
    induction l as [|[k' a'] l IH]; [auto|]. cbn. intro H. destruct (keqb k k') eqn:E; [apply keqb_eq in E as ->; tauto|]. apply IH. tauto.
  Qed.
  Lemma holds_find k a n c : holds k a n c -> lru_find keqb k c = Some a.
  Proof. intros (l & r & -> & H & _). rewrite (find_app _ _ _ H). cbn. rewrite keqb_refl. reflexivity. Qed.
  Lemma drop_app k (l : @lru K A) (r : @lru K A) : ~ In k (keys l) -> lru_drop keqb k (l ++ r) = l ++ lru_drop keqb k r.
  Proof.
    induction l as [|[k' a'] l IH]; [auto|]. cbn. intro H. destruct (keqb k k') eqn:E; [apply keqb_eq in E as ->; tauto|]. f_equal. apply IH. tauto.
  Qed.
  Lemma drop_length k (c : @lru K A) : length (lru_drop keqb k c) <= length c.
  Proof. induction c as [|[k' a'] c IH]; [auto|]. cbn. destruct (keqb k k'); cbn; lia. Qed.
  Lemma drop_found k (c : @lru K A) : In k (keys c) -> S (length (lru_drop keqb k c)) = length c.
  Proof.
    induction c as [|[k' a'] c IH]; [intros []|]. cbn. destruct (keqb k k') eqn:E; [reflexivity|]. intros [->|H]; [rewrite keqb_refl in E; discriminate|]. cbn. rewrite IH; auto.
  Qed.
  Lemma drop_keys k x (c : @lru K A) : In x (keys (lru_drop keqb k c)) -> In x (keys c).
  Proof. induction c as [|[k' a'] c IH]; [auto|]. cbn. destruct (keqb k k'); cbn; tauto. Qed.
  Lemma holds_call k a n c w k' c' r : holds k a n c -> n < 127 -> lru_call keqb (f w) k' c = (c', r) -> holds k a (S n) c'.
  Proof.
    intros Hh Hn E. pose proof (holds_find _ _ _ _ Hh) as F. destruct Hh as (l & t & -> & Hl & Ht & Hlen).
    destruct (keqb k' k) eqn:Ek.
    - apply keqb_eq in Ek as ->. unfold lru_call in E. rewrite F in E. injection E as <- _. rewrite (drop_app _ _ _ Hl). cbn. rewrite keqb_refl.
      exists (l ++ t), []. split; [rewrite <- app_assoc; reflexivity|]. split; [rewrite keys_app; intro H; apply in_app_or in H; tauto|]. split; [intros []|cbn; lia].
    - assert (Nk : k' <> k) by (intros ->; rewrite keqb_refl in Ek; discriminate).
      unfold lru_call in E. destruct (lru_find keqb k' (l ++ (k, a) :: t)) as [b|] eqn:Fk.
      + injection E as <- _. assert (Hdec : In k' (keys l) \/ ~ In k' (keys l)).
        { destruct (lru_find keqb k' l) as [y|] eqn:Fl; [left|right; apply find_None; exact Fl]. apply find_In in Fl. apply (in_map fst) in Fl. exact Fl. }
        destruct Hdec as [Hi|Hi].
        * assert (Ed : lru_drop keqb k' (l ++ (k, a) :: t) = lru_drop keqb k' l ++ (k, a) :: t).
          { clear - Hi keqb_eq. induction l as [|[x y] l IH]; [destruct Hi|]. cbn. destruct (keqb k' x) eqn:E; [reflexivity|]. cbn [app]. f_equal. apply IH.
            destruct Hi as [Hi|Hi]; [|exact Hi]. cbn in Hi. subst x. rewrite keqb_refl in E. discriminate. }
          rewrite Ed. exists (lru_drop keqb k' l), (t ++ [(k', b)]). split; [rewrite <- app_assoc; reflexivity|].
          split; [intro H; apply drop_keys in H; tauto|]. split; [rewrite keys_app; intro H; apply in_app_or in H as [H|[H|[]]]; [tauto|cbn in H; congruence]|]. rewrite app_length. cbn. lia.
        * rewrite (drop_app _ _ _ Hi). cbn [lru_drop]. rewrite Ek. exists l, (lru_drop keqb k' t ++ [(k', b)]).
          split; [rewrite <- app_assoc; reflexivity|]. split; [exact Hl|].
          split; [rewrite keys_app; intro H; apply in_app_or in H as [H|[H|[]]]; [apply drop_keys in H; tauto|cbn in H; congruence]|].
          rewrite app_length. cbn. pose proof (drop_length k' t). lia.
      + destruct (f w k') as [b|e|]; injection E as <- _.
        * unfold lru_put. destruct (Nat.leb_spec maxsize (length (l ++ (k, a) :: t))) as [Hm|Hm].
          { destruct l as [|x l]; [exfalso; unfold maxsize in Hm; cbn in Hm; lia|]. cbn [app tl]. exists l, (t ++ [(k', b)]). split; [rewrite <- app_assoc; reflexivity|].
            split; [intro H; apply Hl; right; exact H|]. split; [rewrite keys_app; intro H; apply in_app_or in H as [H|[H|[]]]; [tauto|cbn in H; congruence]|]. rewrite app_length. cbn. lia. }
          { exists l, (t ++ [(k', b)]). split; [rewrite <- app_assoc; reflexivity|]. split; [exact Hl|].
            split; [rewrite keys_app; intro H; apply in_app_or in H as [H|[H|[]]]; [tauto|cbn in H; congruence]|]. rewrite app_length. cbn. lia. }
        * exists l, t. auto with arith.
        * exists l, t. auto with arith.
  Qed.
  Definition is_call (e : event) : bool := match e with Call _ => true | _ => false end.
  Lemma holds_calls k a es : forall n w c log w' c', holds k a n c -> n + length (filter is_call es) <= 127 -> calls es w c = (log, w', c') -> holds k a (n + length (filter is_call es)) c'.
  Proof.
    induction es as [|[w1|k1] es IH]; intros n w c log w' c' Hh Hn H; cbn [calls filter is_call length] in *.
    - injection H as <- <- <-. rewrite Nat.add_0_r. exact Hh.
    - exact (IH _ _ _ _ _ _ Hh Hn H).
    - destruct (lru_call keqb (f w) k1 c) as [c1 r] eqn:E. destruct (calls es w c1) as [[log1 w2] c2] eqn:E1. injection H as <- <- <-.
      rewrite <- Nat.add_succ_comm. cbn in Hn. apply (IH (S n) w c1 log1 w2 c2); [|lia|exact E1]. apply (holds_call k a n c w k1 c1 r Hh ltac:(lia) E).
  Qed.
  Lemma call_holds k a w c c' : NoDup (keys c) -> lru_call keqb (f w) k c = (c', Ok a) -> holds k a 0 c'.
  Proof.
    intros Hd E. unfold lru_call in E. destruct (lru_find keqb k c) as [b|] eqn:F.
    - injection E as <- ->. exists (lru_drop keqb k c), []. split; [reflexivity|]. split; [|split; [intros []|cbn; lia]].
      clear F. induction c as [|[x y] c IH]; [intros []|]. cbn. inversion Hd; subst. destruct (keqb k x) eqn:Ek; [apply keqb_eq in Ek as ->; assumption|].
      intros [K'|K']; [cbn in K'; subst; rewrite keqb_refl in Ek; discriminate|]. exact (IH ltac:(assumption) K').
    - apply find_None in F. destruct (f w k) as [b|e|]; try discriminate. injection E as <- ->. unfold lru_put.
      destruct (Nat.leb maxsize (length c)); (eexists; exists []; split; [reflexivity|]; split; [|split; [intros []|cbn; lia]]); [|exact F].
      intro H. apply F. destruct c; [destruct H|right; exact H].
  Qed.
  Lemma drop_nodup k (c : @lru K A) : NoDup (keys c) -> NoDup (keys (lru_drop keqb k c)) /\ ~ In k (keys (lru_drop keqb k c)).
  Proof.
    induction c as [|[x y] c IH]; [intro; split; [constructor|intros []]|]. cbn. intro H. inversion H; subst. destruct (keqb k x) eqn:E; [apply keqb_eq in E as ->; auto|].
    destruct (IH ltac:(assumption)) as [I1 I2]. cbn. split; [constructor; [intro K'; apply drop_keys in K'; contradiction|exact I1]|].
    intros [K'|K']; [subst; rewrite keqb_refl in E; discriminate|contradiction].
  Qed.
  Lemma nodup_snoc (l : list K) x : NoDup l -> ~ In x l -> NoDup (l ++ [x]).
  Proof. intros H Hx. apply (Permutation_NoDup (Permutation_cons_append l x)). constructor; assumption. Qed.
  Lemma call_nodup w k c c' r : NoDup (keys c) -> lru_call keqb (f w) k c = (c', r) -> NoDup (keys c').
  Proof.
    intros Hd E. unfold lru_call in E. destruct (lru_find keqb k c) as [b|] eqn:F.
    - injection E as <- _. rewrite keys_app. destruct (drop_nodup k c Hd). apply nodup_snoc; assumption.
    - apply find_None in F. destruct (f w k) as [b|e|]; injection E as <- _; try exact Hd. unfold lru_put.
      destruct (Nat.leb maxsize (length c)); rewrite keys_app; (apply nodup_snoc; [|]); [|intro H; apply F|exact Hd|exact F].
      + destruct c; [constructor|inversion Hd; assumption].
      + destruct c; [destruct H|right; exact H].
  Qed.
  Lemma calls_nodup es : forall w c log w' c', NoDup (keys c) -> calls es w c = (log, w', c') -> NoDup (keys c').
  Proof.
    induction es as [|[w1|k1] es IH]; intros w c log w' c' Hd H; cbn [calls] in H.
    - injection H as <- <- <-. exact Hd.
    - exact (IH _ _ _ _ _ Hd H).
    - destruct (lru_call keqb (f w) k1 c) as [c1 r] eqn:E. destruct (calls es w c1) as [[log1 w2] c2] eqn:E1. injection H as <- <- <-.
      exact (IH _ _ _ _ _ (call_nodup _ _ _ _ _ Hd E) E1).
  Qed.
End Lru.

(** ** C58 *)
Section Resolvers.
  (** every [DefaultLoader] of the program, by identity, and the resolvers
      registered with each.  The cache is shared by all of them. *)
  Definition loaders := nat -> list (pystr * resolver).
  Definition answer_now (w : loaders) (k : nat * uri) : res pystr := plain_resolve (w (fst k)) (snd k).
  Definition call_eqb (a b : nat * uri) : bool := Nat.eqb (fst a) (fst b) && uri_eq (snd a) (snd b).
  Lemma call_eqb_eq a b : call_eqb a b = true <-> a = b.
  Proof.
    destruct a as [i v], b as [j w]. unfold call_eqb. cbn. rewrite andb_true_iff, Nat.eqb_eq, uri_eq_iff. split; [intros [-> ->]; reflexivity|intros [= -> ->]; auto].
  Qed.
  (** a program: registrations, resolvers changing what they answer (for
      instance [MappableUriResolver.map]), resolutions *)
  Inductive action := Register (i : nat) (scheme : pystr) (r : resolver) | Rewire (w : loaders) | Resolve (i : nat) (v : uri).
  Definition registered (i : nat) (scheme : pystr) (r : resolver) (w : loaders) : loaders :=
    fun j => if Nat.eqb j i then dset scheme r (w j) else w j.
  (** the loaders over time *)
  Fixpoint events (acts : list action) (w : loaders) : list (@event (nat * uri) loaders) :=
    match acts with
    | [] => []
    | Register i s r :: acts' => let w' := registered i s r w in World w' :: events acts' w'
    | Rewire w' :: acts' => World w' :: events acts' w'
    | Resolve i v :: acts' => Call (i, v) :: events acts' w
    end.
  Definition trace (acts : list action) (w : loaders) (c : @lru (nat * uri) pystr) : list (@entry (nat * uri) pystr loaders) * loaders * @lru (nat * uri) pystr :=
    calls call_eqb answer_now (events acts w) w c.
  Definition no_loaders : loaders := fun _ => [].

  (** Full claim: every answer is the one the resolvers registered at that moment
      give.  It fails ([C58_stale], [C58_refuted]).  What holds: it is that, or
      the answer the same loader already gave for an equal URI. *)
  Theorem C58_partial acts log w c before e after : trace acts no_loaders [] = (log, w, c) -> log = before ++ e :: after ->
    e_answer e = answer_now (e_world e) (e_key e) \/
    exists w0 p, In (Entry w0 (e_key e) (Ok p)) before /\ answer_now w0 (e_key e) = Ok p /\ e_answer e = Ok p.
  Proof. intros H E. apply (calls_origin call_eqb call_eqb_eq answer_now _ _ [] [] _ _ _ before e after ltac:(intros ? ? []) H E). Qed.
  (** so a URI resolved for the first time is resolved by what is registered *)
  Theorem C58_first acts log w c before e after : trace acts no_loaders [] = (log, w, c) -> log = before ++ e :: after ->
    (forall e0, In e0 before -> e_key e0 = e_key e -> forall p, e_answer e0 <> Ok p) -> e_answer e = answer_now (e_world e) (e_key e).
  Proof.
    intros H E Hn. destruct (C58_partial _ _ _ _ _ _ _ H E) as [K|(w0 & p & Hin & _)]; [exact K|]. exfalso. exact (Hn _ Hin eq_refl p eq_refl).
  Qed.
  Fixpoint after (acts : list action) (w : loaders) : loaders :=
    match acts with
    | [] => w
    | Register i s r :: acts' => after acts' (registered i s r w)
    | Rewire w' :: acts' => after acts' w'
    | Resolve _ _ :: acts' => after acts' w
    end.
  Lemma events_app a b w : events (a ++ b) w = events a w ++ events b (after a w).
  Proof. revert w. induction a as [|x a IH]; intro w; [reflexivity|]. destruct x; cbn; rewrite IH; reflexivity. Qed.
  Lemma trace_world acts : forall w c log w' c', trace acts w c = (log, w', c') -> w' = after acts w.
  Proof.
    unfold trace. induction acts as [|x acts IH]; intros w c log w' c' H; [injection H as <- <- <-; reflexivity|]. destruct x; cbn [events calls] in H; cbn [after].
    - exact (IH _ _ _ _ _ H).
    - exact (IH _ _ _ _ _ H).
    - destruct (lru_call call_eqb (answer_now w) (i, v) c) as [c1 r]. destruct (calls call_eqb answer_now (events acts w) w c1) as [[log1 w2] c2] eqn:E. injection H as <- <- <-. exact (IH _ _ _ _ _ E).
  Qed.
  Lemma calls_snoc es k : forall w c log w' c', calls call_eqb answer_now (es ++ [Call k]) w c = (log, w', c') ->
    exists log0 w1 c0 r, calls call_eqb answer_now es w c = (log0, w1, c0) /\ lru_call call_eqb (answer_now w1) k c0 = (c', r) /\ log = log0 ++ [Entry w1 k r] /\ w' = w1.
  Proof.
    induction es as [|[w1|k1] es IH]; intros w c log w' c' H; cbn [app calls] in H |- *.
    - destruct (lru_call call_eqb (answer_now w) k c) as [c1 r] eqn:E. injection H as <- <- <-. exists [], w, c, r. auto.
    - exact (IH _ _ _ _ _ H).
    - destruct (lru_call call_eqb (answer_now w) k1 c) as [c1 r] eqn:E. destruct (calls call_eqb answer_now (es ++ [Call k]) w c1) as [[log1 w2] c2] eqn:E1. injection H as <- <- <-.
      destruct (IH _ _ _ _ _ E1) as (log0 & w3 & c0 & r0 & I1 & I2 & -> & ->). rewrite I1. exists (Entry w k1 r :: log0), w3, c0, r0. auto.
  Qed.
  Lemma trace_keys acts : forall w c log w' c' k, trace acts w c = (log, w', c') -> In k (keys c') -> In k (keys c) \/ In (Resolve (fst k) (snd k)) acts.
  Proof.
    unfold trace. induction acts as [|x acts IH]; intros w c log w' c' k H Hk; [injection H as <- <- <-; auto|]. destruct x; cbn [events calls] in H.
    - destruct (IH _ _ _ _ _ _ H Hk); cbn; auto.
    - destruct (IH _ _ _ _ _ _ H Hk); cbn; auto.
    - destruct (lru_call call_eqb (answer_now w) (i, v) c) as [c1 r] eqn:Ec. destruct (calls call_eqb answer_now (events acts w) w c1) as [[log1 w2] c2] eqn:E. injection H as <- <- <-.
      destruct (IH _ _ _ _ _ _ E Hk) as [H1|H1]; [|cbn; auto]. unfold keys in H1. apply in_map_iff in H1 as (y & <- & Hy).
      destruct (call_In call_eqb call_eqb_eq answer_now _ _ _ _ _ _ Ec Hy) as [H2|(H2 & _)]; [left; apply in_map; exact H2|].
      right. left. destruct y as [k' a']. cbn in H2. subst k'. reflexivity.
  Qed.
  (** a registration takes effect on every URI of its scheme that this loader has
      not resolved before, as long as it is the latest for that scheme *)
  Theorem C58_takes_effect a1 i s r a2 v log w c : u_scheme v = s ->
    ~ In (Resolve i v) (a1 ++ a2) -> Forall (fun a => match a with Register j s' _ => j <> i \/ s' <> s | Rewire _ => False | Resolve _ _ => True end) a2 ->
    trace (a1 ++ Register i s r :: a2 ++ [Resolve i v]) no_loaders [] = (log, w, c) ->
    exists before w0, log = before ++ [Entry w0 (i, v) (r v)].
  Proof.
    intros Hs Hn Ha H. replace (a1 ++ Register i s r :: a2 ++ [Resolve i v]) with ((a1 ++ Register i s r :: a2) ++ [Resolve i v]) in H by (rewrite <- app_assoc; reflexivity).
    unfold trace in H. rewrite events_app in H. cbn [events] in H. destruct (calls_snoc _ _ _ _ _ _ _ H) as (log0 & w1 & c0 & r0 & C0 & Cr & -> & _).
    exists log0, w1. do 2 f_equal. 
    assert (Hk : ~ In (i, v) (keys c0)).
    { intro K. destruct (trace_keys _ _ _ _ _ _ _ C0 K) as [[]|K']. cbn in K'. apply in_app_or in K' as [K'|[K'|K']]; [|discriminate|]; apply Hn, in_or_app; auto. }
    apply (find_None call_eqb call_eqb_eq) in Hk. unfold lru_call in Cr. rewrite Hk in Cr.
    assert (E : answer_now w1 (i, v) = r v).
    { rewrite (trace_world _ _ _ _ _ _ C0). unfold answer_now, plain_resolve. cbn [fst snd]. rewrite Hs.
      assert (G : forall acts w0, Forall (fun a => match a with Register j s' _ => j <> i \/ s' <> s | Rewire _ => False | Resolve _ _ => True end) acts -> dget s (after acts w0 i) = dget s (w0 i)).
      { clear. induction acts as [|x acts IH]; intros w0 Hf; [reflexivity|]. inversion Hf; subst. destruct x; cbn [after]; [|contradiction|apply IH; assumption].
        rewrite IH by assumption. unfold registered. destruct (Nat.eqb_spec i i0) as [<-|]; [|reflexivity]. rewrite dget_dset.
        destruct (str_eqb s scheme) eqn:E; [|reflexivity]. apply str_eqb_eq in E as <-. destruct H1; congruence. }
      assert (Af : forall a b w0, after (a ++ b) w0 = after b (after a w0)) by (induction a as [|x a IH]; intros; [reflexivity|]; destruct x; cbn; apply IH).
      rewrite Af. cbn [after]. rewrite (G _ _ Ha). unfold registered at 1. rewrite Nat.eqb_refl, dget_dset, str_eqb_refl. reflexivity. }
    rewrite E in Cr. destruct (r v); injection Cr as _ <-; reflexivity.
  Qed.
  (** after a success nothing that is registered matters until 128 other
      resolutions have been made *)
  Theorem C58_stale acts1 acts2 i v p log1 w1 c1 log2 w2 c2 :
    trace (acts1 ++ [Resolve i v]) no_loaders [] = (log1, w1, c1) -> (exists before w0, log1 = before ++ [Entry w0 (i, v) (Ok p)]) ->
    length (filter (fun a => match a with Resolve _ _ => true | _ => false end) acts2) <= 127 ->
    trace acts2 w1 c1 = (log2, w2, c2) -> snd (lru_call call_eqb (answer_now w2) (i, v) c2) = Ok p.
  Proof.
    intros H1 (before & w0 & E1) Hlen H2. unfold trace in *.
    rewrite events_app in H1. cbn [events] in H1.
    destruct (calls_snoc _ _ _ _ _ _ _ H1) as (log0 & w3 & c0 & r & C0 & Cr & -> & ->). apply app_inj_tail in E1 as [_ E1]. injection E1 as -> ->.
    assert (Nd : NoDup (keys c0)) by (refine (calls_nodup call_eqb call_eqb_eq answer_now _ _ _ _ _ _ _ C0); constructor).
    pose proof (call_holds call_eqb call_eqb_eq answer_now _ _ _ _ _ Nd Cr) as Hh.
    assert (Hc : length (filter is_call (events acts2 w0)) <= 127).
    { clear - Hlen. revert w0. induction acts2 as [|x acts IH]; intro w; [cbn; lia|]. destruct x; cbn in *; try apply IH; try exact Hlen. cbn. assert (length (filter is_call (events acts w)) <= 126); [|lia].
      clear IH. assert (G : forall acts w, length (filter is_call (events acts w)) = length (filter (fun a => match a with Resolve _ _ => true | _ => false end) acts)).
      { clear. induction acts as [|x acts IH]; intro w; [reflexivity|]. destruct x; cbn; rewrite ?IH; reflexivity. }
      rewrite G. lia. }
    pose proof (holds_calls call_eqb call_eqb_eq answer_now _ _ _ _ _ _ _ _ _ Hh Hc H2) as H3.
    unfold lru_call. rewrite (holds_find call_eqb call_eqb_eq _ _ _ _ H3). reflexivity.
  Qed.
  (** a registration is found again, and is what answers *)
  Theorem C58_registered i s r w v : u_scheme v = s -> answer_now (registered i s r w) (i, v) = r v.
  Proof. intros <-. unfold answer_now, plain_resolve, registered. cbn. rewrite Nat.eqb_refl, dget_dset, str_eqb_refl. reflexivity. Qed.
End Resolvers.

(** ** C57 *)
Section Mapped.
  Variable auth : pystr -> option authority.
  (** non-empty segments of a path: the names the operating system walks through *)
  Definition nonempty (w : pystr) : bool := negb (str_eqb w []).
  Definition names (p : pystr) : list pystr := filter nonempty (segments p).
  (** [p] is [dir] followed by further names, none of them [..] *)
  Definition stays_under (dir p : pystr) : Prop :=
    exists tail, p = dir ++ tail /\ (tail = [] \/ (exists d, dir = d ++ u "/") \/ exists t, tail = 47%N :: t) /\ ~ In (u "..") (segments tail).

  Lemma split_snoc_slash a b : split slash (a ++ slash :: b) = split slash a ++ split slash b.
  Proof.
    induction a as [|c a IH]; [cbn; destruct (split_cons slash b) as (w & ws & ->); reflexivity|].
    cbn [app split]. rewrite IH. destruct (split_cons slash a) as (w & ws & ->). cbn [app]. destruct (N.eqb c slash); reflexivity.
  Qed.
  Lemma split_noslash_app a b : ~ In slash b -> exists l w, split slash a = l ++ [w] /\ split slash (a ++ b) = l ++ [w ++ b].
  Proof.
    intro Hb. induction a as [|c a (l & w & E1 & E2)]; [exists [], []; split; [reflexivity|apply split_none; exact Hb]|].
    cbn [app split]. rewrite E1, E2. destruct l as [|x l]; cbn [app].
    - destruct (N.eqb c slash); [exists [[]], w|exists [], (c :: w)]; auto.
    - destruct (N.eqb c slash); [exists ([] :: x :: l), w|exists ((c :: x) :: l), w]; auto.
  Qed.
  (** joining pieces without slashes onto a directory *)
  Lemma join_pieces l : forall p, p <> [] -> Forall (fun w => ~ In slash w) l ->
    exists tail, path_join p l = p ++ tail /\ (tail = [] \/ (exists d, p = d ++ u "/") \/ exists t, tail = 47%N :: t) /\
      filter nonempty (split slash tail) = filter nonempty l /\ (forall w, In w (split slash tail) -> w = [] \/ In w l).
  Proof.
    induction l as [|b l IH]; intros p Hp Hl; cbn [path_join].
    - exists []. rewrite app_nil_r. repeat split; auto. intros w [<-|[]]. auto.
    - inversion Hl as [|? ? Hb Hl']; subst.
      assert (Sb : startswith (u "/") b = false).
      { destruct b as [|c b]; [reflexivity|]. rewrite starts_slash. apply N.eqb_neq. intros <-. apply Hb. left; reflexivity. }
      rewrite Sb. replace (str_eqb p []) with false by (symmetry; apply str_eqb_neq; exact Hp). cbn [orb].
      destruct (endswith (u "/") p) eqn:Ee.
      + apply endswith_spec in Ee as [d ->]. destruct (IH ((d ++ u "/") ++ b)) as (tail & E & T1 & T2 & T3); [destruct d; discriminate|exact Hl'|].
        exists (b ++ tail). rewrite E, <- app_assoc. split; [reflexivity|]. split; [right; left; eauto|].
        destruct T1 as [->|[(d' & E')|(t & ->)]].
        * rewrite app_nil_r. rewrite (split_none slash b Hb). cbn [filter]. cbn in T2. rewrite <- T2. split; [destruct (nonempty b); reflexivity|]. intros w [<-|[]]. right; left; reflexivity.
        * destruct b as [|c b]; [cbn [app filter nonempty str_eqb negb]; split; [exact T2|intros w Hw; destruct (T3 w Hw); cbn; auto]|].
          exfalso. apply (f_equal (@rev _)) in E'. rewrite !rev_app_distr in E'. cbn in E'. destruct (rev b) as [|y rb] eqn:Er.
          { cbn in E'. injection E' as -> _. apply Hb. left; reflexivity. }
          { cbn in E'. injection E' as -> _. apply Hb. right. apply in_rev. rewrite Er. left; reflexivity. }
        * change 47%N with slash in *. rewrite split_snoc_slash in *. cbn [split] in T2, T3. rewrite (split_none slash b Hb).
          assert (E2 : filter nonempty (split slash t) = filter nonempty l).
          { rewrite <- T2. destruct (split_cons slash t) as (w & ws & ->). reflexivity. }
          cbn [app filter]. rewrite E2. split; [reflexivity|]. intros w [<-|Hw]; [right; left; reflexivity|].
          destruct (T3 w); [|auto|right; right; assumption]. destruct (split_cons slash t) as (y & ys & E3). rewrite E3 in *. right. exact Hw.
      + destruct (IH (p ++ u "/" ++ b)) as (tail & E & T1 & T2 & T3); [destruct p; discriminate|exact Hl'|].
        exists (slash :: b ++ tail). rewrite E. split; [rewrite <- !app_assoc; reflexivity|]. split; [right; right; eauto|].
        assert (Sp : split slash (slash :: b ++ tail) = [] :: split slash (b ++ tail)).
        { rewrite (split_snoc_slash [] (b ++ tail) : split slash (slash :: b ++ tail) = _). reflexivity. }
        rewrite Sp. cbn [filter nonempty str_eqb negb].
        destruct T1 as [->|[(d' & E')|(t & ->)]].
        * rewrite app_nil_r. rewrite (split_none slash b Hb). cbn [filter]. cbn in T2. rewrite <- T2. split; [destruct (nonempty b); reflexivity|]. intros w [<-|[<-|[]]]; auto. right; left; reflexivity.
        * destruct b as [|c b]; [cbn [app filter nonempty str_eqb negb]; split; [exact T2|intros w [<-|Hw]; [auto|destruct (T3 w Hw); cbn; auto]]|].
          exfalso. apply (f_equal (@rev _)) in E'. rewrite !rev_app_distr in E'. cbn in E'. rewrite rev_app_distr in E' || idtac. destruct (rev b) as [|y rb] eqn:Er.
          { cbn in E'. injection E' as -> _. apply Hb. left; reflexivity. }
          { cbn in E'. injection E' as -> _. apply Hb. right. apply in_rev. rewrite Er. left; reflexivity. }
        * change 47%N with slash in *. rewrite split_snoc_slash in *. cbn [split] in T2, T3. rewrite (split_none slash b Hb).
          assert (E2 : filter nonempty (split slash t) = filter nonempty l).
          { rewrite <- T2. destruct (split_cons slash t) as (w & ws & ->). reflexivity. }
          cbn [app filter]. rewrite E2. split; [reflexivity|]. intros w [<-|[<-|Hw]]; [auto|right; left; reflexivity|].
          destruct (T3 w); [|auto|right; right; assumption]. destruct (split_cons slash t) as (y & ys & E3). rewrite E3 in *. right. exact Hw.
  Qed.

  (** [(m, dir)] is the first mapping whose URI starts the text *)
  Definition maps_to (maps : list (pystr * pystr)) (text m dir rest : pystr) : Prop :=
    text = m ++ rest /\ exists l1 l2, maps = l1 ++ (m, dir) :: l2 /\ (forall m' d', In (m', d') l1 -> forall r, text <> m' ++ r).
  Lemma first_mapping_spec maps text m dir rest : maps_to maps text m dir rest -> first_mapping text maps = (m, dir).
  Proof.
    intros (Et & l1 & l2 & -> & Hl). induction l1 as [|[m' d'] l1 IH]; cbn.
    - replace (startswith m text) with true; [reflexivity|]. symmetry. apply startswith_spec. eauto.
    - destruct (startswith m' text) eqn:E.
      + apply startswith_spec in E as [r E]. exfalso. exact (Hl m' d' (or_introl eq_refl) r E).
      + apply IH. intros x y Hx. apply (Hl x y). right; exact Hx.
  Qed.
  (** A mapped URI becomes the directory followed by the names that remain. *)
  Theorem C57_mapped maps v m dir rest : made auth v -> maps_to maps (base_key v) m dir rest -> dir <> [] ->
    exists p tail, map_resolve auth maps v = Ok p /\ p = dir ++ tail /\
      (tail = [] \/ (exists d, dir = d ++ u "/") \/ exists t, tail = 47%N :: t) /\ names tail = names rest.
  Proof.
    intros Hv Hm Hd. pose proof (key_of_made auth v Hv) as Hk. unfold key_of in Hk. apply bind_Ok in Hk as (b & Eb & Ek). injection Ek as Ek.
    unfold map_resolve. rewrite Eb. cbn [bind]. rewrite Ek, (first_mapping_spec _ _ _ _ _ Hm). destruct Hm as [Et _]. rewrite Et.
    rewrite skipn_app, skipn_all, Nat.sub_diag. cbn [app skipn].
    destruct (join_pieces (split slash rest) dir Hd) as (tail & E & T1 & T2 & T3); [apply split_fine|].
    exists (path_join dir (split slash rest)), tail. split; [destruct dir; [congruence|reflexivity]|]. split; [exact E|]. split; [exact T1|]. unfold names. rewrite !segments_split. exact T2.
  Qed.
  (** so it stays under the directory exactly when none of them is [..] *)
  Theorem C57_exact maps v m dir rest : made auth v -> maps_to maps (base_key v) m dir rest -> dir <> [] ->
    exists p, map_resolve auth maps v = Ok p /\ (stays_under dir p <-> ~ In (u "..") (segments rest)).
  Proof.
    intros Hv Hm Hd. destruct (C57_mapped maps v m dir rest Hv Hm Hd) as (p & tail & E & -> & T1 & T2). exists (dir ++ tail). split; [exact E|].
    assert (Z : forall t, In (u "..") (segments t) <-> In (u "..") (names t)).
    { intro t. unfold names. rewrite filter_In. split; [intro H; split; [exact H|reflexivity]|intros [H _]; exact H]. }
    rewrite (Z rest), <- T2, <- Z. split.
    - intros (t & Et & _ & Hn). apply app_inv_head in Et as <-. exact Hn.
    - intro Hn. exists tail. auto.
  Qed.
  (** Full claim: for every URI and mapping.  It fails ([C57_refuted],
      [C57_host_refuted], [C57_relative_refuted]).  It holds for a URI with a
      scheme and a mapping that covers scheme and authority and ends at a slash
      of the path. *)
  Theorem C57_partial maps v m dir rest m' : made auth v -> maps_to maps (base_key v) m dir rest -> dir <> [] ->
    u_scheme v <> [] -> m = u_scheme v ++ u "://" ++ auth_text (u_auth v) ++ m' ->
    (m' = [] \/ (exists d, m' = d ++ u "/") \/ rest = [] \/ exists t, rest = 47%N :: t) ->
    exists p, map_resolve auth maps v = Ok p /\ stays_under dir p.
  Proof.
    intros Hv Hm Hd Hs Em Ha. destruct (C57_exact maps v m dir rest Hv Hm Hd) as (p & E & S). exists p. split; [exact E|]. apply S. clear E S.
    destruct Hm as [Et _]. assert (Ep : u_path v = m' ++ rest).
    { unfold base_key, uri_text in Et. cbn [u_scheme u_auth u_path u_query u_frag] in Et. rewrite auth_shown in Et. rewrite app_nil_r in Et.
      destruct (u_scheme v) as [|c sc] eqn:Esc; [congruence|]. rewrite Em in Et. rewrite <- !app_assoc in Et. do 3 apply app_inv_head in Et. rewrite app_nil_r in Et || idtac. exact Et. }
    destruct (C54_dotless auth v Hv Hs) as [D _]. intro Hin. rewrite segments_split in Hin.
    assert (K : In (u "..") (segments (u_path v))).
    { rewrite segments_split, Ep. destruct Ha as [->|[[d ->]|[->|[t ->]]]].
      - exact Hin.
      - rewrite <- app_assoc. change (d ++ u "/" ++ rest) with (d ++ slash :: rest). rewrite split_snoc_slash. apply in_or_app. right; exact Hin.
      - destruct Hin as [Hin|[]]. discriminate.
      - change 47%N with slash in *. rewrite split_snoc_slash. rewrite (split_snoc_slash [] t : split slash (slash :: t) = _) in Hin.
        destruct Hin as [Hin|Hin]; [discriminate|]. apply in_or_app. right; exact Hin. }
    exact (D _ K (or_intror eq_refl)).
  Qed.
  (** without a mapping: the path itself for no scheme or [file], else [ValueError] *)
  Theorem C57_unmapped maps v : made auth v -> (forall m d, In (m, d) maps -> forall r, base_key v <> m ++ r) ->
    map_resolve auth maps v = if str_eqb (u_scheme v) [] || str_eqb (u_scheme v) (u "file") then Ok (u_path v) else Raise EValue.
  Proof.
    intros Hv Hm. pose proof (key_of_made auth v Hv) as Hk. unfold key_of in Hk. apply bind_Ok in Hk as (b & Eb & Ek). injection Ek as Ek.
    unfold map_resolve. rewrite Eb. cbn [bind]. rewrite Ek. replace (first_mapping (base_key v) maps) with (@nil N, @nil N); [reflexivity|].
    induction maps as [|[m d] maps IH]; [reflexivity|]. cbn [first_mapping]. destruct (startswith m (base_key v)) eqn:E.
    - apply startswith_spec in E as [r E]. exfalso. exact (Hm m d (or_introl eq_refl) r E).
    - apply IH. intros x y Hx. apply (Hm x y). right; exact Hx.
  Qed.
End Mapped.
