(** C55 printing and reading again; C53 which URIs are absolute. *)
From Verif Require Import PyBase PyBaseFacts LeafFacts Regex RegexFacts Uri UriSpec UriFacts UriNorm PropsUri PropsPointer PropsResolve.
Local Open Scope N_scope.
Local Notation length := List.length (only parsing).

(** ** Characters of normalised text *)
Lemma upper_escapes_chars c : forall s, In c (upper_escapes s) -> exists d, In d s /\ (c = d \/ c = upper_char d).
Proof.
  assert (K : forall n s, (length s <= n)%nat -> In c (upper_escapes s) -> exists d, In d s /\ (c = d \/ c = upper_char d)).
  { induction n as [|n IH]; intros s Hl H; destruct s as [|x s]; try contradiction; [cbn in Hl; lia|].
    destruct s as [|y [|z s]].
    - destruct H as [<-|[]]. exists x. cbn. auto.
    - destruct H as [<-|[<-|[]]]; [exists x|exists y]; cbn; auto.
    - rewrite upper_step in H. destruct (one 37 x && is_hex y && is_hex z).
      + destruct H as [<-|[<-|[<-|H]]]; [exists x|exists y|exists z|]; cbn; auto 6.
        destruct (IH s) as (d & Hd & E); [cbn in Hl; lia|exact H|]. exists d. auto 6.
      + destruct H as [<-|H]; [exists x; cbn; auto|]. destruct (IH (y :: z :: s)) as (d & Hd & E); [cbn in *; lia|exact H|]. exists d. split; [right; exact Hd|exact E]. }
  intro s. apply (K (length s)). reflexivity.
Qed.
Lemma join_chars c (l : list pystr) : In c (join (u "/") l) -> c = 47 \/ exists w, In w l /\ In c w.
Proof.
  induction l as [|w l IH]; [intros []|]. destruct l as [|w2 l]; [cbn; eauto|]. intro H.
  change (join (u "/") (w :: w2 :: l)) with (w ++ 47 :: join (u "/") (w2 :: l)) in H.
  apply in_app_or in H as [H|[<-|H]]; [right; exists w; cbn; auto|left; reflexivity|].
  destruct (IH H) as [?|(x & Hx & Hc)]; [auto|]. right. exists x. split; [right; exact Hx|exact Hc].
Qed.
Lemma split_chars c s : forall w, In w (split slash s) -> In c w -> In c s.
Proof.
  induction s as [|x s IH]; intro w; [intros [<-|[]] []|]. cbn [split]. destruct (split_cons slash s) as (y & l & E). rewrite E in *.
  destruct (x =? slash); intros [<-|H] Hc.
  - destruct Hc.
  - right. apply (IH w); assumption.
  - destruct Hc as [<-|Hc]; [left; reflexivity|]. right. apply (IH y); [left; reflexivity|exact Hc].
  - right. apply (IH w); [right; exact H|exact Hc].
Qed.
Lemma split_suffix w t y l : split slash t = y :: l -> exists pre x, split slash (w ++ t) = pre ++ (x ++ y) :: l.
Proof.
  intro E. induction w as [|c w (pre & x & IH)]; [exists [], []; exact E|]. cbn [app split]. rewrite IH. destruct pre as [|z pre]; cbn [app].
  - destruct (c =? slash); [exists [[]], x|exists [], (c :: x)]; reflexivity.
  - destruct (c =? slash); [exists ([] :: z :: pre), x|exists ((c :: z) :: pre), x]; reflexivity.
Qed.
Lemma normalize_path_chars c p : In c (normalize_path p) -> c = 47 \/ exists d, In d p /\ (c = d \/ c = upper_char d).
Proof.
  intro H. rewrite normalize_path_segments in H. apply join_chars in H as [?|(w & Hw & Hc)]; [auto|right].
  unfold normal_segments in Hw. apply in_map_iff in Hw as (w0 & <- & Hw). apply upper_escapes_chars in Hc as (d & Hd & E). exists d. split; [|exact E].
  assert (S : Forall (fun w => forall d, In d w -> In d p) (clean (split slash p))).
  { unfold clean. assert (B : Forall (fun w => forall d, In d w -> In d p) (rev (dots_loop (split slash p) []))).
    { apply Forall_rev, dots_loop_sub; [|constructor]. apply Forall_forall. intros x Hx y Hy. exact (split_chars y p x Hx Hy). }
    set (o := rev _) in *. clearbody o. set (o2 := if leads _ && _ then [] :: o else o).
    assert (H2 : Forall (fun w => forall d, In d w -> In d p) o2) by (unfold o2; destruct (leads _ && _); [constructor; [intros ? []|]|]; exact B). clearbody o2.
    destruct (trails _); [|exact H2]. apply Forall_app. split; [exact H2|]. constructor; [intros ? []|constructor]. }
  rewrite Forall_forall in S. exact (S w0 Hw d Hd).
Qed.
Lemma upper_char_same d c : upper_char d = c -> (c < 65 \/ 90 < c) -> d = c.
Proof. unfold upper_char, is_lower, between. intros <- H. destruct ((97 <=? d) && (d <=? 122)) eqn:E; [|reflexivity]. lia. Qed.
Lemma normal_lacks p : lacks (u "?#") p -> lacks (u "?#") (normalize_path p).
Proof.
  intros H c Hc Hin. apply normalize_path_chars in Hc as [->|(d & Hd & E)]; [destruct Hin as [?|[?|[]]]; discriminate|].
  apply (H d Hd). destruct E as [<-|E]; [exact Hin|]. symmetry in E. apply upper_char_same in E as ->; [exact Hin|].
  destruct Hin as [<-|[<-|[]]]; left; reflexivity.
Qed.
Lemma upper_lacks l p : (forall c, In c l -> c < 65 \/ 90 < c) -> lacks l p -> lacks l (upper_escapes p).
Proof.
  intros Hl H c Hc Hin. apply upper_escapes_chars in Hc as (d & Hd & E). apply (H d Hd). destruct E as [<-|E]; [exact Hin|].
  symmetry in E. apply upper_char_same in E as ->; [exact Hin|]. exact (Hl c Hin).
Qed.
Lemma app_same_length {A} (a b c d : list A) : length a = length c -> a ++ b = c ++ d -> a = c /\ b = d.
Proof.
  revert c. induction a as [|x a IH]; intros [|y c] L E; try discriminate; [auto|]. injection E as -> E. injection L as L. destruct (IH c L E) as [-> ->]. auto.
Qed.
Lemma normal_fixed t : Forall (fun w => ~ dot_segment w) (split slash t) -> upper_escapes t = t -> normalize_path t = t.
Proof.
  intros H E. rewrite normalize_path_segments. unfold normal_segments. rewrite (clean_same _ H), <- upper_escapes_join.
  change (u "/") with [slash]. rewrite split_join. exact E.
Qed.
Lemma normal_tail w c s : c = 47 \/ c = 92 -> normalize_path (w ++ c :: s) = w ++ c :: s -> normalize_path (c :: s) = c :: s.
Proof.
  intros Hc E. apply normal_fixed.
  - pose proof (normal_split_dotless (w ++ c :: s)) as D. rewrite E in D. destruct (split_cons slash s) as (y & l & Ey).
    assert (S : exists z, split slash (c :: s) = z :: (if c =? slash then y :: l else l) /\ ~ dot_segment z).
    { cbn [split]. rewrite Ey. destruct Hc as [->| ->]; [exists []|exists (92 :: y)]; (split; [reflexivity|]); intros [K|K]; discriminate. }
    destruct S as (z & S & Hz). destruct (split_suffix w (c :: s) _ _ S) as (pre & x & S2). rewrite S2 in D. rewrite S.
    apply Forall_app in D as [_ D]. inversion D; subst. constructor; assumption.
  - pose proof (upper_normal (w ++ c :: s)) as U. rewrite E in U. rewrite upper_escapes_app in U; [|destruct Hc as [->| ->]; reflexivity|destruct Hc as [->| ->]; discriminate].
    rewrite upper_escapes_cons by (destruct Hc as [->| ->]; discriminate). apply app_same_length in U; [|apply upper_escapes_len]. apply U.
Qed.

(** ** C55 *)
Section Text.
  Variable auth : pystr -> option authority.
  (** what is assumed of the pattern that takes an authority apart: it takes the
      empty text apart into nothing, and printing and reading again gives back
      the same three parts, without delimiters *)
  Definition auth_ok : Prop := auth [] = Some (Auth [] [] []) /\
    forall s a, lacks [47; 92; 63; 35] s -> auth s = Some a -> auth (auth_text a) = Some a /\ lacks [47; 92; 63; 35] (auth_text a).

  (** the URIs [str] prints faithfully *)
  Definition printable (v : uri) : Prop :=
    (u_scheme v <> [] /\ (u_path v = [] \/ exists r, u_path v = 47 :: r \/ u_path v = 92 :: r)) \/
    (u_scheme v = [] /\ auth_text (u_auth v) = [] /\ forall r, u_path v <> u "//" ++ r).

  Definition some (s : pystr) : option pystr := match s with [] => None | _ => Some s end.
  Lemma text_some s : text_of (some s) = s. Proof. destruct s; reflexivity. Qed.
  Lemma auth_shown a : (if auth_bool a then auth_text a else []) = auth_text a.
  Proof. destruct a as [[|] [|] [|]]; reflexivity. Qed.
  Lemma auth_empty a : auth_text a = [] -> a = Auth [] [] [].
  Proof.
    destruct a as [x y z]. unfold auth_text. cbn. intro E. apply app_eq_nil in E as [E1 E]. apply app_eq_nil in E as [-> E2].
    destruct x as [|x0 x]; [|destruct x; discriminate]. destruct z; [reflexivity|discriminate].
  Qed.
  Lemma uri_text_some v : uri_text v = (match u_scheme v with [] => [] | w => w ++ u "://" end) ++ auth_text (u_auth v) ++ u_path v ++
    query_part (some (u_query v)) ++ hash_part (some (u_frag v)).
  Proof. unfold uri_text. rewrite auth_shown. destruct (u_query v), (u_frag v); reflexivity. Qed.

  (** what a URI read from a text looks like *)
  Definition shape (v : uri) : Prop :=
    (u_scheme v = [] \/ scheme_text (u_scheme v)) /\ normalize_scheme (u_scheme v) = u_scheme v /\
    (exists s, lacks [47; 92; 63; 35] s /\ auth s = Some (u_auth v)) /\
    (u_scheme v <> [] -> normalize_path (u_path v) = u_path v) /\ lacks (u "?#") (u_path v) /\
    (u_scheme v = [] -> forall w r, u_path v = w ++ u ":" ++ r -> ~ scheme_text w) /\
    lacks (u "#") (u_query v) /\ normalize_query (u_query v) = u_query v /\
    lacks [10] (u_frag v) /\ normalize_query (u_frag v) = u_frag v.
  Lemma lower_scheme w : scheme_text w -> scheme_text (normalize_scheme w).
  Proof.
    intros (c & r & -> & Hc & Hr). exists (lower_char c), (normalize_scheme r). split; [reflexivity|].
    assert (L : forall x, letter x -> letter (lower_char x)).
    { intros x. unfold letter, lower_char, is_upper, between. destruct ((65 <=? x) && (x <=? 90)) eqn:E; lia. }
    split; [auto|]. unfold normalize_scheme. rewrite Forall_map. eapply Forall_impl; [|exact Hr]. intros x Hx. cbv beta in *.
    destruct Hx as [Hx|Hx]; [left; auto|right]. unfold lower_char, is_upper, between. destruct ((65 <=? x) && (x <=? 90)) eqn:E; lia.
  Qed.
  Lemma text_shape s v : mk_uri auth s = Ok v -> shape v.
  Proof.
    intro H. destruct (parts_exist s) as (sc & au & p & q & f & t & E & P & J).
    destruct (parts_of sc au p q f t P J) as (E1 & E2 & E3 & E4 & E5). rewrite <- E in *. rewrite (mk_uri_parts auth s), E1, E2, E3, E4, E5 in H.
    destruct (auth (text_of au)) as [a|] eqn:Ea; [|discriminate]. injection H as <-. destruct P as (P1 & P2 & P3 & P4 & P5 & P6 & P7).
    unfold shape. cbn [u_scheme u_auth u_path u_query u_frag].
    split. { destruct sc as [w|]; [right; apply lower_scheme; auto|left; reflexivity]. }
    split; [apply lower_idem|].
    split. { exists (text_of au). split; [|exact Ea]. destruct au as [w|]; [apply P2; reflexivity|intros c []]. }
    split. { destruct (normalize_scheme (text_of sc)); [congruence|]. intros _. apply normalize_path_idem. }
    split. { destruct (normalize_scheme (text_of sc)); [exact P5|apply normal_lacks; exact P5]. }
    split. { intros K w r Ep. rewrite K in Ep. assert (sc = None) as ->.
      { destruct sc as [x|]; [|reflexivity]. destruct (P1 x eq_refl) as (c & x' & -> & _). discriminate. }
      destruct au as [x|]; [|exact (P4 eq_refl eq_refl w r Ep)]. destruct (P2 x eq_refl) as [_ Hp]. intros (c & w' & -> & Hc & _). rewrite Ep in Hp.
      destruct Hp as [Hp|[r' [Hp|Hp]]]; [discriminate| |]; injection Hp as -> _; unfold letter in Hc; lia. }
    split. { apply upper_lacks; [intros c [<-|[]]; left; reflexivity|]. destruct q; [exact (P6 _ eq_refl)|intros c []]. }
    split; [apply upper_escapes_idem|].
    split. { apply upper_lacks; [intros c [<-|[]]; left; reflexivity|]. destruct f; [exact (P7 _ eq_refl)|intros c []]. }
    apply upper_escapes_idem.
  Qed.
  Lemma some_lacks l s : lacks l s -> forall q, some s = Some q -> lacks l q.
  Proof. destruct s; [discriminate|]. intros H q [= <-]. exact H. Qed.

  Lemma prints_back v : auth_ok -> shape v -> printable v -> mk_uri auth (uri_text v) = Ok v.
  Proof.
    intros (A0 & A1) (S1 & S2 & (t & St & Sa) & S4 & S5 & S6 & S7 & S8 & S9 & S10) H. destruct (A1 _ _ St Sa) as [B1 B2].
    destruct v as [sc a p q f]. cbn [u_scheme u_auth u_path u_query u_frag] in *. rewrite uri_text_some. cbn [u_scheme u_auth u_path u_query u_frag].
    destruct H as [[Hs Hp]|(Hs & Ha & Hp)]; cbn [u_scheme u_auth u_path u_query u_frag] in *.
    - destruct S1 as [?|S1]; [congruence|].
      assert (P : proper (Some sc) (Some (auth_text a)) p (some q) (some f)).
      { split; [intros s [= <-]; exact S1|]. split; [intros s [= <-]; auto|]. split; [discriminate|]. split; [discriminate|].
        split; [exact S5|]. split; apply some_lacks; assumption. }
      destruct (parts_of _ _ _ _ _ [] P (or_introl eq_refl)) as (E1 & E2 & E3 & E4 & E5). rewrite app_nil_r in *.
      match goal with |- mk_uri auth ?s = _ => replace s with (compose (Some sc) (Some (auth_text a)) p (some q) (some f)) end.
      + rewrite (mk_uri_parts auth _), E1, E2, E3, E4, E5, !text_some. cbn [text_of]. rewrite B1, S2, S8, S10. destruct sc; [congruence|]. rewrite S4 by discriminate. reflexivity.
      + unfold compose, query_part, hash_part. destruct sc as [|c sc]; [congruence|]. rewrite <- !app_assoc. reflexivity.
    - subst sc. rewrite Ha. apply auth_empty in Ha. subst a.
      assert (P : proper None None p (some q) (some f)).
      { split; [discriminate|]. split; [discriminate|]. split; [auto|]. split; [intros _ _; exact (S6 eq_refl)|].
        split; [exact S5|]. split; apply some_lacks; assumption. }
      destruct (parts_of _ _ _ _ _ [] P (or_introl eq_refl)) as (E1 & E2 & E3 & E4 & E5). rewrite app_nil_r in *.
      match goal with |- mk_uri auth ?s = _ => replace s with (compose None None p (some q) (some f)) end.
      + rewrite (mk_uri_parts auth _), E1, E2, E3, E4, E5, !text_some. cbn [text_of]. rewrite A0, S8, S10. reflexivity.
      + reflexivity.
  Qed.

  Lemma tail_heads q f : heads (u "?#") (query_part q ++ hash_part f).
  Proof. destruct q as [q|]; [right; cbn; eauto|]. destruct f as [f|]; [right; cbn; eauto 8|left; reflexivity]. Qed.
  Lemma take_path p t : lacks (u "?#") p -> heads (u "?#") t -> take_while path_char (p ++ t) = p.
  Proof.
    intros Hp Ht. apply take_app; [apply lacks_path; exact Hp|]. apply (heads_false (u "?#")); [exact Ht|]. intros c [<-|[<-|[]]]; reflexivity.
  Qed.
  Lemma lacks_app l a b : lacks l (a ++ b) <-> lacks l a /\ lacks l b.
  Proof.
    unfold lacks. split.
    - intro H. split; intros c Hc; apply H, in_or_app; auto.
    - intros [Ha Hb] c Hc. apply in_app_or in Hc as [Hc|Hc]; auto.
  Qed.
  (** after "//", an authority swallows everything up to the first delimiter *)
  Lemma drop_auth p t : lacks (u "?#") p -> heads (u "?#") t -> exists a r, p = a ++ r /\ lacks [47; 92; 63; 35] a /\
    (r = [] \/ exists r', r = 47 :: r' \/ r = 92 :: r') /\ drop_while auth_char (p ++ t) = r ++ t.
  Proof.
    intros Hp Ht. induction p as [|c p IH].
    - exists [], []. split; [reflexivity|]. split; [intros c []|]. split; [auto|]. cbn [app].
      apply (drop_app auth_char [] t); [constructor|]. apply (heads_false (u "?#")); [exact Ht|]. intros c [<-|[<-|[]]]; reflexivity.
    - assert (Hp' : lacks (u "?#") p) by (intros x Hx; apply Hp; right; exact Hx). specialize (Hp c (or_introl eq_refl)).
      destruct (IH Hp') as (a & r & -> & Ha & Hr & Ed). destruct (N.eq_dec c 47) as [->|N1]; [|destruct (N.eq_dec c 92) as [->|N2]].
      + exists [], (47 :: a ++ r). split; [reflexivity|]. split; [intros c []|]. split; [right; eauto|reflexivity].
      + exists [], (92 :: a ++ r). split; [reflexivity|]. split; [intros c []|]. split; [right; eauto|reflexivity].
      + exists (c :: a), r. split; [reflexivity|]. split.
        * intros x [<-|Hx]; [|exact (Ha x Hx)]. cbn in Hp |- *. intuition.
        * split; [exact Hr|]. cbn [app drop_while]. replace (auth_char c) with true; [exact Ed|]. symmetry. unfold auth_char. apply negb_true_iff.
          apply not_true_iff_false. rewrite among_iff. cbn in Hp |- *. intuition.
  Qed.

  (** Uri(str(u)) == u, exactly when [u] is printable.  The full claim, for
      every [u], is refuted below. *)
  Theorem C55_exact s v : auth_ok -> mk_uri auth s = Ok v ->
    (exists w, mk_uri auth (uri_text v) = Ok w /\ uri_eq w v = true) <-> printable v.
  Proof.
    intros Hok Hv. apply text_shape in Hv. split.
    2:{ intro H. exists v. split; [exact (prints_back v Hok Hv H)|]. apply uri_eq_iff. reflexivity. }
    intros (w & Hw & E). apply uri_eq_iff in E. subst w.
    destruct Hok as (A0 & A1). destruct Hv as (S1 & S2 & (t & St & Sa) & S4 & S5 & S6 & S7 & S8 & S9 & S10). destruct (A1 _ _ St Sa) as [B1 B2].
    rewrite (mk_uri_parts auth _) in Hw. destruct (auth (raw_auth (uri_text v))) as [a'|] eqn:Ea; [|discriminate].
    destruct v as [sc a p q f]. cbn [u_scheme u_auth u_path u_query u_frag] in *. injection Hw as W1 W2 W3 W4 W5. subst a'.
    rewrite uri_text_some in *. cbn [u_scheme u_auth u_path u_query u_frag] in *. set (Q := query_part (some q) ++ hash_part (some f)) in *.
    assert (HQ : heads (u "?#") Q) by apply tail_heads.
    destruct sc as [|c0 sc].
    - right. cbn [u_scheme u_auth u_path]. split; [reflexivity|]. cbn [app] in *. set (T := auth_text a ++ p ++ Q) in *.
      assert (C : cut_scheme T = None).
      { unfold raw_scheme in W1. destruct (cut_scheme T) as [[x y]|] eqn:C; [|reflexivity]. apply cut_scheme_sound in C as [_ (c & x' & -> & _)]. discriminate. }
      rewrite W1 in W3. unfold raw_auth, raw_path, after_auth, after_scheme in *. rewrite C in *. cbn [rest] in *.
      destruct (auth_text a) as [|c x] eqn:Et.
      + split; [reflexivity|]. intros r ->. unfold T in *. cbn [app] in *. change (u "//") with [47; 47] in *. cbn [app cut_auth rest] in W3.
        change ((47 =? slash) && (47 =? slash)) with true in W3. cbv iota in W3. cbn [rest] in W3.
        assert (L : lacks (u "?#") r) by (intros y Hy; apply S5; right; right; exact Hy).
        destruct (drop_auth r Q L HQ) as (x & r' & -> & _ & _ & Ed). rewrite Ed in W3. rewrite take_path in W3; [|apply lacks_app in L; apply L|exact HQ].
        apply (f_equal (@List.length N)) in W3. cbn in W3. rewrite app_length in W3. lia.
      + exfalso. assert (K : cut_auth T = None).
        { unfold T. apply cut_auth_none. intros r Er. injection Er as -> _. apply (B2 47); cbn; auto. }
        rewrite K in Ea. cbn [part] in Ea. rewrite A0 in Ea. injection Ea as <-. discriminate.
    - left. cbn [u_scheme u_path]. split; [discriminate|]. destruct S1 as [?|S1]; [discriminate|].
      set (T := ((c0 :: sc) ++ u "://") ++ auth_text a ++ p ++ Q) in *.
      assert (C : cut_scheme T = Some (c0 :: sc, u "//" ++ auth_text a ++ p ++ Q)).
      { unfold T. rewrite <- app_assoc. apply (cut_scheme_some (c0 :: sc)). exact S1. }
      unfold raw_scheme in W3. unfold raw_path, after_auth, after_scheme in W3. rewrite C in W3. cbn [part rest] in W3. rewrite S2 in W3.
      change (cut_auth (u "//" ++ auth_text a ++ p ++ Q)) with (Some (take_while auth_char (auth_text a ++ p ++ Q), drop_while auth_char (auth_text a ++ p ++ Q))) in W3.
      cbn [rest] in W3.
      assert (D : drop_while auth_char (auth_text a ++ p ++ Q) = drop_while auth_char (p ++ Q)).
      { apply lacks_auth in B2. clear - B2. induction B2 as [|c x Hc _ IH]; [reflexivity|]. cbn [app drop_while]. rewrite Hc. exact IH. }
      rewrite D in W3. destruct (drop_auth p Q S5 HQ) as (x & r & Ep & Hx & Hr & Ed). rewrite Ed in W3.
      assert (Lr : lacks (u "?#") r) by (rewrite Ep in S5; apply lacks_app in S5; apply S5).
      rewrite (take_path r Q Lr HQ) in W3.
      destruct x as [|y x]; [cbn [app] in Ep; subst r; exact Hr|exfalso].
      assert (Nr : normalize_path r = r).
      { destruct Hr as [->|(r' & Hr)]; [reflexivity|]. specialize (S4 ltac:(discriminate)). rewrite Ep in S4.
        destruct Hr as [->| ->]; apply (normal_tail (y :: x)); auto. }
      rewrite Nr in W3. rewrite <- W3 in Ep. apply (f_equal (@List.length N)) in Ep. cbn in Ep. rewrite app_length in Ep. lia.
  Qed.
  Corollary C55_partial s v : auth_ok -> mk_uri auth s = Ok v -> printable v -> mk_uri auth (uri_text v) = Ok v.
  Proof. intros Hok Hv Hp. exact (prints_back v Hok (text_shape s v Hv) Hp). Qed.
End Text.

(** ** C53: which URIs are absolute *)
Definition url_letter (c : N) : Prop := letter c \/ 48 <= c <= 57 \/ In c (u "._~-!$&'()*+,;=:@").
(** characters RFC 3986 allows in a path: letters and signs, slashes, percent escapes *)
Inductive url_path : pystr -> Prop :=
| url_nil : url_path []
| url_char c s : url_letter c \/ c = 47 -> url_path s -> url_path (c :: s)
| url_escape c d s : hex_digit c -> hex_digit d -> url_path s -> url_path (37 :: c :: d :: s).
Lemma url_letter_iff c : url_letter c <-> pchar c = true.
Proof.
  unfold url_letter, pchar. rewrite letter_iff, !orb_true_iff, among_iff. unfold is_ascii_digit, between. rewrite andb_true_iff, !N.leb_le. tauto.
Qed.
Lemma hex_iff c : hex_digit c <-> is_hex c = true.
Proof. unfold hex_digit, lower_hex, is_hex, is_ascii_digit, between. rewrite !orb_true_iff, !andb_true_iff, !N.leb_le. lia. Qed.
Lemma url_app a b : url_path a -> url_path b -> url_path (a ++ b).
Proof. induction 1; cbn; auto using url_path. Qed.
Lemma url_no_mark c s : url_path s -> In c s -> c <> 63 /\ c <> 10 /\ c <> 35.
Proof.
  assert (L : forall x, url_letter x \/ x = 47 -> x <> 63 /\ x <> 10 /\ x <> 35).
  { intros x [[H|[H|H]]| ->]; [unfold letter in H; lia|lia| |repeat split; discriminate]. cbn in H. repeat split; intros ->; intuition discriminate. }
  assert (X : forall x, hex_digit x -> x <> 63 /\ x <> 10 /\ x <> 35) by (unfold hex_digit, lower_hex; lia).
  induction 1 as [|d s Hd _ IH|d e s Hd He _ IH]; [intros []|intros [<-|H]; auto|]. intros [<-|[<-|[<-|H]]]; auto. repeat split; discriminate.
Qed.
Lemma reads_pchar w : reads pchar_re w <-> (exists c, w = [c] /\ url_letter c) \/ exists c d, w = [37; c; d] /\ hex_digit c /\ hex_digit d.
Proof.
  unfold pchar_re. rewrite reads_alt, reads_cls. split; (intros [H|H]; [left|right]).
  - destruct H as (c & -> & H). exists c. split; [reflexivity|]. apply url_letter_iff; exact H.
  - cbn [seqs fold_right] in H. apply reads_seq in H as (x & y & -> & H1 & H2); [|reflexivity]. apply reads_cls in H1 as (c & -> & H1). apply N.eqb_eq in H1 as ->.
    apply reads_seq in H2 as (x & z & -> & H1 & H2); [|reflexivity]. apply reads_cls in H1 as (c & -> & H1).
    apply reads_seq in H2 as (x & y & -> & H3 & H2); [|reflexivity]. apply reads_cls in H3 as (d & -> & H3). apply reads_eps in H2 as ->.
    exists c, d. split; [reflexivity|]. split; apply hex_iff; assumption.
  - destruct H as (c & -> & H). exists c. split; [reflexivity|]. apply url_letter_iff; exact H.
  - destruct H as (c & d & -> & H1 & H2). cbn [seqs fold_right]. apply reads_seq; [reflexivity|]. exists [37], [c; d]. split; [reflexivity|]. split; [apply reads_cls; eauto|].
    apply reads_seq; [reflexivity|]. exists [c], [d]. split; [reflexivity|]. split; [apply reads_cls; exists c; split; [reflexivity|apply hex_iff; exact H1]|].
    apply reads_seq; [reflexivity|]. exists [d], []. split; [reflexivity|]. split; [apply reads_cls; exists d; split; [reflexivity|apply hex_iff; exact H2]|apply reads_eps; reflexivity].
Qed.
Lemma url_letter_slash c : url_letter c -> c <> 47.
Proof. intros [H|[H|H]] ->; [unfold letter in H; lia|lia|cbn in H; intuition discriminate]. Qed.
Lemma reads_segment w : reads segment_re w <-> url_path w /\ ~ In 47 w.
Proof.
  unfold segment_re. rewrite reads_star by reflexivity. split.
  - intros (ws & -> & H). induction H as [|x ws [Hx _] _ (IH1 & IH2)]; [split; [constructor|intros []]|]. cbn [List.concat].
    apply reads_pchar in Hx as [(c & -> & Hc)|(c & d & -> & Hc & Hd)]; cbn [app].
    + split; [constructor; auto|]. intros [->|K]; [exact (url_letter_slash 47 Hc eq_refl)|exact (IH2 K)].
    + split; [apply url_escape; auto|]. unfold hex_digit, lower_hex in *. intros [K|[->|[->|K]]]; [discriminate|lia|lia|exact (IH2 K)].
  - intros [H Hn]. induction H as [|c s Hc _ IH|c d s Hc Hd _ IH].
    + exists []. split; [reflexivity|constructor].
    + destruct IH as (ws & -> & Hw); [intro; apply Hn; right; assumption|]. exists ([c] :: ws). split; [reflexivity|]. constructor; [|exact Hw].
      split; [|discriminate]. apply reads_pchar. left. exists c. split; [reflexivity|]. destruct Hc as [Hc| ->]; [exact Hc|]. exfalso. apply Hn. left; reflexivity.
    + destruct IH as (ws & -> & Hw); [intro; apply Hn; right; right; right; assumption|]. exists ([37; c; d] :: ws). split; [reflexivity|]. constructor; [|exact Hw].
      split; [|discriminate]. apply reads_pchar. right. eauto.
Qed.
Lemma url_cut s : url_path s -> exists w r, s = w ++ r /\ url_path w /\ ~ In 47 w /\ (r = [] \/ exists r', r = 47 :: r' /\ url_path r').
Proof.
  induction 1 as [|c s Hc Hs (w & r & -> & Hw & Hn & Hr)|c d s Hc Hd Hs (w & r & -> & Hw & Hn & Hr)].
  - exists [], []. repeat split; auto using url_path.
  - destruct Hc as [Hc| ->].
    + exists (c :: w), r. split; [reflexivity|]. split; [constructor; auto|]. split; [|exact Hr]. intros [->|K]; [exact (url_letter_slash 47 Hc eq_refl)|exact (Hn K)].
    + exists [], (47 :: w ++ r). repeat split; auto using url_path. right. eauto.
  - exists (37 :: c :: d :: w), r. split; [reflexivity|]. split; [apply url_escape; auto|]. split; [|exact Hr].
    unfold hex_digit, lower_hex in *. intros [K|[->|[->|K]]]; [discriminate|lia|lia|exact (Hn K)].
Qed.
Definition rooted (p : pystr) : Prop := p = [] \/ exists r, p = 47 :: r.
Lemma reads_abempty p : reads abempty_re p <-> rooted p /\ url_path p.
Proof.
  unfold abempty_re. rewrite reads_star by reflexivity. split.
  - intros (ws & -> & H). induction H as [|x ws [Hx _] _ (_ & IH)]; [split; [left; reflexivity|constructor]|]. cbn [List.concat].
    apply reads_seq in Hx as (a & b & -> & Ha & Hb); [|reflexivity]. apply reads_cls in Ha as (c & -> & Hc). apply N.eqb_eq in Hc as ->.
    apply reads_segment in Hb as [Hb _]. split; [right; cbn; eauto|]. cbn [app]. constructor; [right; reflexivity|]. apply url_app; assumption.
  - intros [Hr Hp]. remember (length p) as n eqn:En. assert (L : (length p <= n)%nat) by lia. clear En. revert p Hr Hp L. induction n as [|n IH]; intros p Hr Hp L.
    + destruct p; [|cbn in L; lia]. exists []. split; [reflexivity|constructor].
    + destruct Hr as [->|[r ->]]; [exists []; split; [reflexivity|constructor]|].
      assert (Hu : url_path r) by (inversion Hp; assumption). destruct (url_cut r Hu) as (w & r' & -> & Hw & Hn & Hr').
      assert (Hu' : url_path r') by (destruct Hr' as [->|(x & -> & ?)]; [constructor|constructor; auto]).
      destruct (IH r') as (ws & -> & Hws).
      * destruct Hr' as [->|(x & -> & _)]; [left; reflexivity|right; eauto].
      * exact Hu'.
      * cbn in L. rewrite app_length in L. lia.
      * exists ((47 :: w) :: ws). split; [reflexivity|]. constructor; [|exact Hws]. split; [|discriminate].
        apply reads_seq; [reflexivity|]. exists [47], w. split; [reflexivity|]. split; [apply reads_cls; exists 47; auto|apply reads_segment; auto].
Qed.

Section Absolute.
  Variable auth : pystr -> option authority.
  Lemma absolute_reads s : (exists cs, re_match absolute_regex s = Some cs) <-> exists w t, s = w ++ t /\ ends t /\ reads absolute_body w.
  Proof. unfold absolute_regex. rewrite (match_reads absolute_body s eq_refl). reflexivity. Qed.
  Lemma base_text v : settled v -> exists b, base_uri auth v = Ok b /\
    uri_text b = (match u_scheme v with [] => [] | w => w ++ u "://" end) ++ auth_text (u_auth v) ++ u_path v.
  Proof.
    intros (S1 & _). destruct v as [sc a p q f]. cbn in S1. unfold base_uri, copy_with. cbn [bind u_scheme u_auth u_path]. eexists. split; [reflexivity|].
    unfold uri_text. cbn [u_scheme u_auth u_path u_query u_frag normalize_query upper_escapes]. rewrite auth_shown, app_nil_r. destruct sc as [|c sc]; [reflexivity|]. rewrite S1 by discriminate. reflexivity.
  Qed.
  Lemma is_absolute_reads v : settled v -> is_absolute auth v = Ok true <->
    exists w t, (match u_scheme v with [] => [] | w => w ++ u "://" end) ++ auth_text (u_auth v) ++ u_path v = w ++ t /\ ends t /\ reads absolute_body w.
  Proof.
    intro S. destruct (base_text v S) as (b & Eb & Et). unfold is_absolute. unfold base_uri in Eb. rewrite Eb. cbn [bind]. rewrite <- Et, <- absolute_reads.
    destruct (re_match absolute_regex (uri_text b)) as [cs|]; split; intro H; eauto; try discriminate. destruct H as [cs H]; discriminate.
  Qed.
  Lemma reads_rootless_head w : reads rootless_re w -> exists c r, w = c :: r /\ c <> 47 /\ c <> 10.
  Proof.
    unfold rootless_re, plus. intro H. apply reads_seq in H as (a & b & -> & H & _); [|reflexivity]. apply reads_seq in H as (x & y & -> & H & _); [|reflexivity].
    apply reads_pchar in H as [(c & -> & Hc)|(c & d & -> & Hc & Hd)]; cbn [app].
    - exists c, (y ++ b). split; [reflexivity|]. split; [exact (url_letter_slash c Hc)|]. intros ->. destruct Hc as [H|[H|H]]; [unfold letter in H; lia|lia|cbn in H; intuition discriminate].
    - eexists; eexists. split; [reflexivity|]. split; discriminate.
  Qed.
  (** With a scheme, absolute means: what follows "scheme://" is an authority
      without delimiters and a path of allowed characters (a final line feed is
      overlooked). *)
  Theorem C53_absolute s v : auth_ok auth -> mk_uri auth s = Ok v -> u_scheme v <> [] ->
    is_absolute auth v = Ok true <->
    exists a p t, auth_text (u_auth v) ++ u_path v = a ++ p ++ t /\ lacks [47; 92; 63; 35] a /\ rooted p /\ url_path p /\ (t = [] \/ t = [10]).
  Proof.
    intros (A0 & A1) Hv Hs. pose proof (settled_text auth s v Hv) as Hset. rewrite (is_absolute_reads v Hset).
    destruct (text_shape auth s v Hv) as (S1 & S2 & (t0 & St & Sa) & S4 & S5 & _). destruct S1 as [?|S1]; [congruence|]. destruct (A1 _ _ St Sa) as [B1 B2].
    set (X := auth_text (u_auth v) ++ u_path v). assert (LX : lacks (u "?#") X).
    { apply lacks_app. split; [|exact S5]. intros c Hc Hin. apply (B2 c Hc). cbn in *. intuition. }
    assert (ET : match u_scheme v with [] => [] | w => w ++ u "://" end ++ X = u_scheme v ++ 58 :: 47 :: 47 :: X).
    { destruct (u_scheme v); [congruence|]. rewrite <- app_assoc. reflexivity. }
    rewrite ET. clear ET. split.
    - intros (w & t & E & Ht & R). unfold absolute_body in R. cbn [seqs fold_right] in R.
      apply reads_seq in R as (w1 & w2 & -> & R1 & R); [|reflexivity]. apply reads_seq in R as (w3 & w4 & -> & R2 & R); [|reflexivity].
      apply reads_cls in R2 as (c & -> & Hc). apply N.eqb_eq in Hc as ->. apply scheme_text_iff in R1.
      assert (E1 : u_scheme v = w1 /\ 47 :: 47 :: X = w4 ++ t).
      { rewrite <- !app_assoc in E. cbn [app] in E. pose proof (cut_scheme_some _ (47 :: 47 :: X) S1) as C1. pose proof (cut_scheme_some _ (w4 ++ t) R1) as C2.
        rewrite E in C1. rewrite C1 in C2. injection C2 as <- ->. auto. }
      destruct E1 as [_ E1]. apply reads_seq in R as (w5 & w6 & -> & R1' & R); [|reflexivity]. apply reads_seq in R as (w7 & w8 & -> & R2 & R3); [|reflexivity].
      apply reads_eps in R3 as ->. rewrite app_nil_r in *.
      assert (Q7 : w7 = [] \/ exists r, w7 = 63 :: r).
      { apply reads_opt in R2 as [R2|R2]; [right|left; exact R2]. apply reads_seq in R2 as (x & y & -> & Hx & _); [|reflexivity]. apply reads_cls in Hx as (c & -> & Hc). apply N.eqb_eq in Hc as ->. cbn. eauto. }
      apply reads_alt in R1' as [R1'|R1'].
      + apply reads_seq in R1' as (x & y & -> & Hx & R1'); [|reflexivity]. apply reads_cls in Hx as (c & -> & Hc). apply N.eqb_eq in Hc as ->.
        apply reads_seq in R1' as (x & z & -> & Hx & R1'); [|reflexivity]. apply reads_cls in Hx as (c & -> & Hc). apply N.eqb_eq in Hc as ->.
        apply reads_seq in R1' as (a & p & -> & Ha & Hp); [|reflexivity]. apply reads_star_cls in Ha. apply lacks_auth in Ha. apply reads_abempty in Hp as [Hp1 Hp2].
        cbn [app] in E1. injection E1 as E1. rewrite <- !app_assoc in E1.
        destruct Q7 as [->|[r ->]].
        * exists a, p, t. split; [exact E1|]. auto.
        * exfalso. apply (LX 63); [rewrite E1; apply in_or_app; right; apply in_or_app; right; left; reflexivity|left; reflexivity].
      + exfalso. apply reads_alt in R1' as [R1'|R1'].
        * apply reads_seq in R1' as (x & y & -> & Hx & R1'); [|reflexivity]. apply reads_cls in Hx as (c & -> & Hc). apply N.eqb_eq in Hc as ->.
          cbn [app] in E1. injection E1 as E1. apply reads_opt in R1' as [R1'| ->].
          { apply reads_rootless_head in R1' as (c & r & -> & Hc & _). cbn [app] in E1. injection E1 as <- _. congruence. }
          { cbn [app] in E1. destruct Q7 as [->|[r ->]]; [|discriminate]. destruct Ht as [->| ->]; discriminate. }
        * apply reads_rootless_head in R1' as (c & r & -> & Hc & _). cbn [app] in E1. injection E1 as <- _. congruence.
    - intros (a & p & t & E & Ha & Hp1 & Hp2 & Ht). exists (u_scheme v ++ 58 :: 47 :: 47 :: a ++ p), t. split; [|split; [exact Ht|]].
      + fold X in E. rewrite E, <- app_assoc. cbn [app]. rewrite <- app_assoc. reflexivity.
      + unfold absolute_body. cbn [seqs fold_right]. apply reads_seq; [reflexivity|]. exists (u_scheme v), (58 :: 47 :: 47 :: a ++ p). split; [reflexivity|].
        split; [apply scheme_text_iff; exact S1|]. apply reads_seq; [reflexivity|]. exists [58], (47 :: 47 :: a ++ p). split; [reflexivity|]. split; [apply reads_cls; exists 58; auto|].
        apply reads_seq; [reflexivity|]. exists (47 :: 47 :: a ++ p), []. split; [rewrite app_nil_r; reflexivity|]. split.
        * apply reads_alt. left. apply reads_seq; [reflexivity|]. exists [47], (47 :: a ++ p). split; [reflexivity|]. split; [apply reads_cls; exists 47; auto|].
          apply reads_seq; [reflexivity|]. exists [47], (a ++ p). split; [reflexivity|]. split; [apply reads_cls; exists 47; auto|].
          apply reads_seq; [reflexivity|]. exists a, p. split; [reflexivity|]. split; [apply reads_star_cls, lacks_auth; exact Ha|]. apply reads_abempty; auto.
        * apply reads_seq; [reflexivity|]. exists [], []. split; [reflexivity|]. split; [apply reads_opt; right; reflexivity|apply reads_eps; reflexivity].
  Qed.
  (** without scheme and authority, never *)
  Theorem C53_relative s v : mk_uri auth s = Ok v -> u_scheme v = [] -> u_auth v = Auth [] [] [] -> is_absolute auth v = Ok false.
  Proof.
    intros Hv Hs Ha. destruct (is_absolute_total auth v) as [[|] E]; [exfalso|exact E]. rewrite (is_absolute_reads v (settled_text auth s v Hv)) in E.
    destruct (text_shape auth s v Hv) as (_ & _ & _ & _ & _ & S6 & _). rewrite Hs, Ha in E. cbn [app auth_text a_user a_host a_port] in E.
    destruct E as (w & t & E & _ & R). unfold absolute_body in R. cbn [seqs fold_right] in R.
    apply reads_seq in R as (w1 & w2 & -> & R1 & R); [|reflexivity]. apply reads_seq in R as (w3 & w4 & -> & R2 & _); [|reflexivity].
    apply reads_cls in R2 as (c & -> & Hc). apply N.eqb_eq in Hc as ->. apply scheme_text_iff in R1. rewrite <- !app_assoc in E.
    exact (S6 Hs w1 (w4 ++ t) E R1).
  Qed.
End Absolute.
