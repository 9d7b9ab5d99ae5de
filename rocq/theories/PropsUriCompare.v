(** C115: comparing URIs with texts and using them as keys. *)
From Verif Require Import PyBase PyBaseFacts PyVal LeafFacts Regex RegexFacts Uri UriSpec UriFacts UriNorm PropsUri PropsPointer PropsResolve PropsUriText PropsUriEx Ident UriCompare.
Local Open Scope N_scope.
Local Notation length := List.length (only parsing).

(** ** The specification *)
(** two URIs, part by part as the API shows them *)
Definition same_parts (v w : uri) : Prop :=
  u_scheme v = u_scheme w /\ a_user (u_auth v) = a_user (u_auth w) /\ a_host (u_auth v) = a_host (u_auth w) /\ a_port (u_auth v) = a_port (u_auth w) /\
  u_path v = u_path w /\ u_query v = u_query w /\ u_frag v = u_frag w.
Lemma same_parts_eq v w : same_parts v w <-> v = w.
Proof.
  split; [|intros ->; repeat split]. destruct v as [s [x y z] p q f], w as [s' [x' y' z'] p' q' f']. intros (A & B & C & D & F & G & H). cbn in *. congruence.
Qed.
Lemma auth_eq_iff a b : auth_eq a b = true <-> a = b.
Proof.
  destruct a as [x y z], b as [x' y' z']. unfold auth_eq. cbn. rewrite !andb_true_iff.
  split; [intros [[A B] C]|intros [= -> -> ->]; rewrite !str_eqb_refl; auto].
  destruct (str_eqb_spec x x'), (str_eqb_spec y y'), (str_eqb_spec z z'); congruence.
Qed.

Section Compare.
  Variable auth : pystr -> option authority.
  Notation equals := (equals auth).
  (** the URI a thing stands for *)
  Definition stands_for (x : thing) (v : uri) : Prop := x = TUri v \/ exists s, x = TStr s /\ mk_uri auth s = Ok v.

  (** A URI is equal to a URI, or to a text, exactly if that has the same parts. *)
  Theorem C115_parts v x w : stands_for x w ->
    exists b, equals (TUri v) x = Ok b /\ equals x (TUri v) = Ok b /\ (b = true <-> same_parts v w).
  Proof.
    assert (S : forall v w, uri_eq v w = true <-> v = w) by (intros; apply uri_eq_iff).
    assert (Sy : forall v w, uri_eq v w = uri_eq w v). { intros a b. destruct (uri_eq a b) eqn:E1, (uri_eq b a) eqn:E2; try reflexivity; [apply S in E1 as ->|apply S in E2 as ->]; exfalso; rewrite (proj2 (S _ _) eq_refl) in *; discriminate. }
    intros [->|(s & -> & Hs)]; exists (uri_eq v w); cbn [UriCompare.equals uri_equals].
    - rewrite (Sy w v). rewrite same_parts_eq, S. repeat split; auto.
    - unfold uri_eq_str. rewrite Hs. cbn [bind]. rewrite same_parts_eq, S. repeat split; auto.
  Qed.
  (** It is equal to its own text exactly if that is printed faithfully (C55). *)
  Theorem C115_own s v : auth_ok auth -> mk_uri auth s = Ok v -> (equals (TUri v) (TStr (uri_text v)) = Ok true <-> printable v).
  Proof.
    intros Hok Hv. rewrite <- (C55_exact auth s v Hok Hv). cbn [UriCompare.equals uri_equals]. unfold uri_eq_str. split.
    - destruct (mk_uri auth (uri_text v)) as [w| |]; cbn [bind]; intro E; [|discriminate..]. exists w. split; [reflexivity|]. injection E as E. apply uri_eq_iff in E. subst w. apply uri_eq_iff. reflexivity.
    - intros (w & -> & E). cbn [bind]. apply uri_eq_iff in E. subst w. f_equal. apply uri_eq_iff. reflexivity.
  Qed.
  (** Equality through a URI is passed on, unless both ends are texts. *)
  Theorem C115_transitive_partial x v y a b : stands_for x a -> stands_for y b -> (exists w, x = TUri w \/ y = TUri w) ->
    equals x (TUri v) = Ok true -> equals (TUri v) y = Ok true -> equals x y = Ok true.
  Proof.
    intros Sx Sy Hu E1 E2. destruct (C115_parts v x a Sx) as (b1 & _ & F1 & G1). destruct (C115_parts v y b Sy) as (b2 & F2 & _ & G2).
    rewrite E1 in F1. injection F1 as <-. rewrite E2 in F2. injection F2 as <-. apply proj1 in G1. specialize (G1 eq_refl). apply proj1 in G2. specialize (G2 eq_refl).
    apply same_parts_eq in G1, G2. subst. destruct Hu as (w & [->| ->]).
    - destruct Sx as [[= ->]|(s & [=] & _)]. exact E2.
    - destruct Sy as [[= ->]|(s & [=] & _)]. exact E1.
  Qed.
  (** An authority is equal to another, or to a text, exactly if user, host and port are;
      in particular to its own text, if the pattern reads that back. *)
  Theorem C115_authority a x c : (x = TAuth c \/ exists s, x = TStr s /\ auth s = Some c) ->
    exists b, equals (TAuth a) x = Ok b /\ equals x (TAuth a) = Ok b /\ (b = true <-> a_user a = a_user c /\ a_host a = a_host c /\ a_port a = a_port c).
  Proof.
    assert (P : forall a c, a = c <-> a_user a = a_user c /\ a_host a = a_host c /\ a_port a = a_port c).
    { intros [x1 y1 z1] [x2 y2 z2]. cbn. split; [intros [= -> -> ->]; auto|intros (-> & -> & ->); reflexivity]. }
    assert (Sy : forall a c, auth_eq a c = auth_eq c a). { intros a1 c1. destruct (auth_eq a1 c1) eqn:E1, (auth_eq c1 a1) eqn:E2; try reflexivity; [apply auth_eq_iff in E1 as ->|apply auth_eq_iff in E2 as ->]; exfalso; rewrite (proj2 (auth_eq_iff _ _) eq_refl) in *; discriminate. }
    intros [->|(s & -> & Hs)]; exists (auth_eq a c); cbn [UriCompare.equals auth_equals]; rewrite <- P, auth_eq_iff.
    - rewrite (Sy c a). repeat split; auto.
    - unfold mk_authority. rewrite Hs. cbn [bind]. repeat split; auto.
  Qed.
  Theorem C115_authority_own s a : auth_ok auth -> lacks [47; 92; 63; 35] s -> auth s = Some a -> equals (TAuth a) (TStr (auth_text a)) = Ok true.
  Proof.
    intros Hok L Ha. destruct (proj2 Hok s a L Ha) as [E _]. destruct (C115_authority a (TStr (auth_text a)) a) as (b & F & _ & G); [eauto|]. rewrite F. f_equal. apply G. auto.
  Qed.

  (** [in] a list of URIs and texts that have one *)
  Theorem C115_in v l : (forall x, In x l -> exists w, stands_for x w) ->
    exists b, among_list auth (TUri v) l = Ok b /\ (b = true <-> exists x w, In x l /\ stands_for x w /\ same_parts v w).
  Proof.
    induction l as [|x l IH]; intro H; [exists false; split; [reflexivity|]; split; [discriminate|intros (x & w & [] & _)]|].
    destruct (H x (or_introl eq_refl)) as [w Sw]. destruct (C115_parts v x w Sw) as (b & _ & E & G). destruct IH as (b' & E' & G'); [intros y Iy; apply H; right; exact Iy|].
    cbn [among_list]. rewrite E. cbn [bind]. destruct b.
    - exists true. split; [reflexivity|]. split; [|reflexivity]. intros _. exists x, w. split; [left; reflexivity|]. split; [exact Sw|apply G; reflexivity].
    - exists b'. split; [exact E'|]. rewrite G'. split; [intros (y & w' & I & R); exists y, w'; split; [right; exact I|exact R]|].
      intros (y & w' & [<-|I] & S' & P); [|exists y, w'; auto]. exfalso. destruct (C115_parts v x w' S') as (b & _ & E2 & G2). rewrite E in E2. injection E2 as <-. discriminate (proj2 G2 P).
  Qed.
  (** two texts are compared as texts *)
  Theorem C115_texts s t : exists b, equals (TStr s) (TStr t) = Ok b /\ (b = true <-> s = t).
  Proof. exists (str_eqb s t). split; [reflexivity|]. destruct (str_eqb_spec s t); split; congruence. Qed.

  (** *** Keys *)
  Variables (prn : N -> bool) (hs : pystr -> Z) (ho : N -> Z).
  Notation find := (find auth prn hs ho).
  (** Whatever the hash of texts, a dict keyed by URIs finds under a URI the first
      entry whose key has the same parts. *)
  Theorem C115_keys_partial {A} (d : list (uri * A)) v :
    (forall a, find (TUri v) (map (fun e => (TUri (fst e), snd e)) d) = Ok (Some a) <->
       exists d1 w d2, d = d1 ++ (w, a) :: d2 /\ same_parts v w /\ forall w' a', In (w', a') d1 -> ~ same_parts v w') /\
    (find (TUri v) (map (fun e => (TUri (fst e), snd e)) d) = Ok None <-> forall w a, In (w, a) d -> ~ same_parts v w).
  Proof.
    unfold UriCompare.find. cbn [hash bind]. induction d as [|[w a] d [IH1 IH2]].
    - split; [|split; [intros _ w a []|reflexivity]]. intro a. split; [discriminate|]. intros (d1 & w & d2 & E & _). destruct d1; discriminate.
    - assert (N0 : same_parts v w -> forall r : res (option A), scan auth prn hs ho (hs (uri_repr prn v)) (TUri v) ((TUri w, a) :: map (fun e => (TUri (fst e), snd e)) d) = r <-> r = Ok (Some a)).
      { intros E r. apply same_parts_eq in E. subst w. cbn [scan hash bind]. rewrite Z.eqb_refl. cbn [UriCompare.equals uri_equals bind]. rewrite (proj2 (uri_eq_iff v v) eq_refl). split; auto. }
      assert (N1 : ~ same_parts v w -> scan auth prn hs ho (hs (uri_repr prn v)) (TUri v) ((TUri w, a) :: map (fun e => (TUri (fst e), snd e)) d) = scan auth prn hs ho (hs (uri_repr prn v)) (TUri v) (map (fun e => (TUri (fst e), snd e)) d)).
      { intro E. cbn [scan hash bind UriCompare.equals uri_equals]. destruct (Z.eqb _ _); [|reflexivity]. destruct (uri_eq w v) eqn:Eq; [|reflexivity]. exfalso. apply E, same_parts_eq. apply uri_eq_iff in Eq. auto. }
      assert (D : same_parts v w \/ ~ same_parts v w). { destruct (uri_eq v w) eqn:Eq; [left; apply same_parts_eq, uri_eq_iff, Eq|right; intro E; apply same_parts_eq, uri_eq_iff in E; congruence]. }
      cbn [map fst snd]. destruct D as [D|D]; split.
      + intro b. rewrite (N0 D). split.
        * intros [= ->]. exists [], w, d. repeat split; try exact D; try (intros ? ? []); apply D.
        * intros (d1 & w1 & d2 & E & P & F). destruct d1 as [|e d1]; cbn [app] in E; [injection E as _ -> _; reflexivity|]. injection E as <- _. exfalso. eapply F; [left; reflexivity|exact D].
      + rewrite (N0 D). split; [discriminate|]. intro F. exfalso. eapply F; [left; reflexivity|exact D].
      + intro b. rewrite (N1 D), IH1. split.
        * intros (d1 & w1 & d2 & -> & P & F). exists ((w, a) :: d1), w1, d2. split; [reflexivity|]. split; [exact P|]. intros w' a' [[= <- <-]|I]; [exact D|eapply F, I].
        * intros (d1 & w1 & d2 & E & P & F). destruct d1 as [|e d1]; cbn [app] in E; [exfalso; apply D; congruence|]. injection E as _ E. exists d1, w1, d2. split; [exact E|]. split; [exact P|]. intros w' a' I. eapply F. right. exact I.
      + rewrite (N1 D), IH2. split; [intros F w' a' [[= <- <-]|I]; [exact D|eapply F, I]|]. intros F w' a' I. eapply F. right. exact I.
  Qed.
  (** A URI never finds what was entered under an equal text, nor the other way
      round, as long as the hashes of the two texts differ. *)
  Theorem C115_text_key {A} v s (a : A) : hs s <> hs (uri_repr prn v) -> find (TUri v) [(TStr s, a)] = Ok None /\ find (TStr s) [(TUri v, a)] = Ok None.
  Proof.
    intro N. unfold UriCompare.find. cbn [hash bind scan]. split; [rewrite (proj2 (Z.eqb_neq _ _) N); reflexivity|]. rewrite (proj2 (Z.eqb_neq _ _)) by congruence. reflexivity.
  Qed.
  (** Comparing with a text that has no URI, or with anything but a URI or a text, is
      an error rather than [False]; so is looking for a URI in a list that starts so. *)
  Theorem C115_fails v : 
    (forall s e, mk_uri auth s = Raise e -> equals (TUri v) (TStr s) = Raise e /\ equals (TStr s) (TUri v) = Raise e) /\
    (forall x, (exists n, x = TOther n) \/ (exists a, x = TAuth a) ->
       equals (TUri v) x = Raise EType /\ equals x (TUri v) = Raise EType /\ forall l, among_list auth (TUri v) (x :: l) = Raise EType) /\
    (forall a n, equals (TAuth a) (TOther n) = Raise EType /\ equals (TOther n) (TAuth a) = Raise EType) /\
    (forall a s, auth s = None -> exists e, equals (TAuth a) (TStr s) = Raise e /\ equals (TStr s) (TAuth a) = Raise e) /\
    (forall B a (d : list (thing * B)), find (TAuth a) d = Raise EType).
  Proof.
    split; [|split; [|split; [|split]]].
    - intros s e H. cbn [UriCompare.equals uri_equals]. unfold uri_eq_str. rewrite H. auto.
    - intros x [[n ->]|[a ->]]; auto.
    - auto.
    - intros a s H. exists EAttr. cbn [UriCompare.equals auth_equals]. unfold mk_authority. rewrite H. auto.
    - reflexivity.
  Qed.
End Compare.

(** ** An authority pattern with user names *)
Definition no_at (c : N) : bool := negb (c =? 64).
Definition rich (s : pystr) : option authority :=
  match drop_while no_at s with
  | [] => toy s
  | _ :: r => match take_while no_at s with [] => None | w => match toy r with Some a => Some (Auth w (a_host a) (a_port a)) | None => None end end
  end.
Lemma toy_user s a : toy s = Some a -> a_user a = [] /\ exists r, s = auth_text a ++ r.
Proof.
  unfold toy. pose proof (take_drop no_colon s) as E. destruct (drop_while no_colon s) as [|c p] eqn:D.
  - intros [= <-]. split; [reflexivity|]. exists []. unfold auth_text. cbn. rewrite !app_nil_r. reflexivity.
  - pose proof (drop_head no_colon s c p D) as Hc. unfold no_colon in Hc. apply negb_false_iff, N.eqb_eq in Hc. subst c.
    destruct (forallb is_ascii_digit p); [|discriminate]. intros [= <-]. split; [reflexivity|]. unfold auth_text. cbn [a_user a_host a_port app].
    destruct p as [|x p]; [exists [58]; rewrite app_nil_r; auto|exists []; rewrite app_nil_r; auto].
Qed.
Lemma rich_ok : auth_ok rich.
Proof.
  split; [reflexivity|]. intros s a L H. unfold rich in H. pose proof (take_drop no_at s) as E. pose proof (take_all no_at s) as T.
  destruct (drop_while no_at s) as [|c r] eqn:D.
  - destruct (toy_user s a H) as [U [r Er]]. destruct (proj2 toy_ok s a L H) as [H1 H2]. split; [|exact H2]. rewrite app_nil_r in E. rewrite E in T. rewrite Er in T. apply Forall_app in T as [T _].
    unfold rich. pose proof (drop_app no_at (auth_text a) [] T ltac:(discriminate)) as D'. rewrite app_nil_r in D'. rewrite D'. exact H1.
  - pose proof (drop_head no_at s c r D) as Hc. unfold no_at in Hc. apply negb_false_iff, N.eqb_eq in Hc. subst c. destruct (take_while no_at s) as [|x w] eqn:W; [discriminate|].
    destruct (toy r) as [b|] eqn:Hb; [|discriminate]. injection H as <-. rewrite <- E in L. apply lacks_app in L as [L1 L2].
    assert (L3 : lacks [47; 92; 63; 35] r) by (apply (lacks_app _ [64] r) in L2; apply L2).
    destruct (toy_user r b Hb) as [U _]. destruct (proj2 toy_ok r b L3 Hb) as [H1 H2].
    assert (Et : auth_text (Auth (x :: w) (a_host b) (a_port b)) = (x :: w) ++ 64 :: auth_text b).
    { unfold auth_text. rewrite U. cbn [a_user a_host a_port app]. rewrite <- app_assoc. reflexivity. }
    rewrite Et. unfold rich. assert (X : forall (y : N) t, 64 :: auth_text b = y :: t -> no_at y = false) by (intros y t [= <- _]; reflexivity).
    rewrite (drop_app no_at (x :: w) (64 :: auth_text b) T X), (take_app no_at (x :: w) (64 :: auth_text b) T X), H1. split; [reflexivity|].
    apply lacks_app. split; [exact L1|]. apply (lacks_app _ [64] (auth_text b)). split; [|exact H2]. apply (lacks_app _ [64] r) in L2. apply L2.
Qed.

(** C115 fails: two texts equal to one URI and not to each other; a text equal to a
    URI that finds nothing entered under it; comparisons that are errors. *)
Theorem C115_refuted : exists v, mk_uri rich (u "http://me@h:80/a") = Ok v /\
  equals rich (TStr (u "HTTP://me@h:80/./a")) (TUri v) = Ok true /\ equals rich (TUri v) (TStr (u "http://me@h:80/a")) = Ok true /\
  equals rich (TStr (u "HTTP://me@h:80/./a")) (TStr (u "http://me@h:80/a")) = Ok false /\
  equals rich (TUri v) (TStr (u "http://h:x/")) = Raise EAttr /\ equals rich (TUri v) (TOther 0) = Raise EType /\ among_list rich (TUri v) [TOther 0; TUri v] = Raise EType /\
  forall prn hs ho, hs (u "http://me@h:80/a") <> hs (u "Uri('http://me@h:80/a')") ->
    find rich prn hs ho (TStr (u "http://me@h:80/a")) [(TUri v, tt)] = Ok None.
Proof.
  eexists. split; [vm_compute; reflexivity|]. do 5 (split; [vm_compute; reflexivity|]). split; [vm_compute; reflexivity|].
  intros prn hs ho N. apply C115_text_key. intro E. apply N. rewrite E. f_equal.
Qed.
Example C115_some : auth_ok rich /\ exists v w, mk_uri rich (u "http://me@h:80/a") = Ok v /\ mk_uri rich (u "HTTP://me@h:80/b/../a") = Ok w /\
  printable v /\ uri_text v = u "http://me@h:80/a" /\ u_auth v = Auth (u "me") (u "h") (u "80") /\ same_parts v w /\
  (forall prn hs ho, find rich prn hs ho (TUri w) [(TUri v, 1)] = Ok (Some 1)) /\
  (exists x, mk_uri rich (u "http://me@h:81/a") = Ok x /\ ~ same_parts v x /\ equals rich (TUri v) (TUri x) = Ok false).
Proof.
  split; [exact rich_ok|]. eexists _, _. split; [vm_compute; reflexivity|]. split; [vm_compute; reflexivity|].
  split; [left; split; [discriminate|right; eexists; left; vm_compute; reflexivity]|]. split; [vm_compute; reflexivity|]. split; [vm_compute; reflexivity|]. split; [repeat split|]. split.
  - intros prn hs ho. apply (C115_keys_partial rich prn hs ho [(_, 1)]). eexists [], _, []. split; [reflexivity|]. split; [repeat split|]. intros ? ? [].
  - eexists. split; [vm_compute; reflexivity|]. split; [intros (_ & _ & _ & P & _); discriminate P|vm_compute; reflexivity].
Qed.
