(** C53, C54, C56: resolution, normal paths, equality. *)
From Verif Require Import PyBase PyBaseFacts LeafFacts Regex RegexFacts Uri UriSpec UriFacts UriNorm PropsUri PropsPointer.
Local Open Scope N_scope.
Local Notation length := List.length (only parsing).

Section Resolve.
  Variable auth : pystr -> option authority.

  (** URIs a program can get hold of *)
  Inductive made : uri -> Prop :=
  | made_text s v : mk_uri auth s = Ok v -> made v
  | made_copy v sc au p q f w : made v -> copy_with auth v sc au p q f = Ok w -> made w
  | made_base v w : made v -> base_uri auth v = Ok w -> made w
  | made_resolve v r w : made v -> made r -> resolve auth v r = Ok w -> made w
  | made_resolve_str v s w : made v -> resolve_str auth v s = Ok w -> made w.

  Definition settled (v : uri) : Prop :=
    (u_scheme v <> [] -> normalize_path (u_path v) = u_path v) /\ normalize_scheme (u_scheme v) = u_scheme v /\
    normalize_query (u_query v) = u_query v /\ normalize_query (u_frag v) = u_frag v.
  Lemma path_after_idem sc p : path_after sc (path_after sc p) = path_after sc p.
  Proof. destruct sc; [reflexivity|]. apply normalize_path_idem. Qed.
  Lemma settled_text s v : mk_uri auth s = Ok v -> settled v.
  Proof.
    rewrite mk_uri_parts. destruct (auth (raw_auth s)) as [a|]; [|discriminate]. intros [= <-]. unfold settled. cbn [u_scheme u_path u_query u_frag].
    split; [|split; [apply lower_idem|split; apply upper_escapes_idem]]. destruct (normalize_scheme (raw_scheme s)); [congruence|]. intros _. apply normalize_path_idem.
  Qed.
  Lemma settled_copy v sc au p q f w : settled v -> copy_with auth v sc au p q f = Ok w -> settled w.
  Proof.
    intros (S1 & S2 & S3 & S4) H. unfold copy_with in H. apply bind_Ok in H as (a & _ & H). injection H as <-. unfold settled. cbn [u_scheme u_path u_query u_frag].
    split; [|split; [|split]].
    - set (sc' := match sc with Some s => normalize_scheme s | None => u_scheme v end). set (p' := match p with Some s => s | None => u_path v end).
      destruct sc'; [congruence|]. intros _. apply normalize_path_idem.
    - destruct sc; [apply lower_idem|exact S2].
    - destruct q; [apply upper_escapes_idem|exact S3].
    - destruct f; [apply upper_escapes_idem|exact S4].
  Qed.
  Lemma resolve_copies v r w : resolve auth v r = Ok w ->
    copy_with auth r None None None None None = Ok w \/ exists p q f, copy_with auth v None None p q f = Ok w.
  Proof.
    unfold resolve. intro H. apply bind_Ok in H as (b & _ & H). destruct b; [left; exact H|right].
    destruct (u_path r) as [|c p] eqn:E; [eauto|]. destruct (startswith _ _); eauto.
  Qed.
  Lemma settled_resolve v r w : settled v -> settled r -> resolve auth v r = Ok w -> settled w.
  Proof. intros Hv Hr H. apply resolve_copies in H as [H|(p & q & f & H)]; [exact (settled_copy _ _ _ _ _ _ _ Hr H)|exact (settled_copy _ _ _ _ _ _ _ Hv H)]. Qed.
  Lemma made_settled v : made v -> settled v.
  Proof.
    induction 1 as [s v H|v sc au p q f w _ IH H|v w _ IH H|v r w _ IHv _ IHr H|v s w _ IH H].
    - exact (settled_text _ _ H).
    - exact (settled_copy _ _ _ _ _ _ _ IH H).
    - unfold base_uri in H. exact (settled_copy _ _ _ _ _ _ _ IH H).
    - exact (settled_resolve _ _ _ IHv IHr H).
    - unfold resolve_str in H. apply bind_Ok in H as (r & Hr & H). exact (settled_resolve _ _ _ IH (settled_text _ _ Hr) H).
  Qed.

  (** ** C54 *)
  Theorem C54_dotless v : made v -> u_scheme v <> [] -> dotless (u_path v) /\ escapes_upper (u_path v).
  Proof.
    intros Hm Hs. destruct (made_settled v Hm) as (S1 & _). specialize (S1 Hs). split.
    - intros w Hw. rewrite segments_split in Hw. rewrite <- S1 in Hw. revert w Hw. apply Forall_forall. apply normal_split_dotless.
    - rewrite <- S1, <- upper_normal. apply upper_escapes_upper.
  Qed.
  (** normalising again, which is what a plain copy does, changes nothing *)
  Theorem C54_stable v : made v -> copy_with auth v None None None None None = Ok v.
  Proof.
    intro Hm. destruct (made_settled v Hm) as (S1 & _). destruct v as [sc a p q f]. cbn in *. destruct sc as [|c sc]; [reflexivity|].
    rewrite S1 by discriminate. reflexivity.
  Qed.
  (** dot segments are removed as RFC 3986 says, segment by segment *)
  Theorem C54_normal v p : u_scheme v <> [] -> exists w, copy_with auth v None None (Some p) None None = Ok w /\ normal_path p (u_path w).
  Proof.
    intro Hs. eexists. split; [reflexivity|]. cbn. destruct (u_scheme v); [congruence|]. apply normal_path_iff.
  Qed.

  (** ** C56 *)
  Lemma uri_eq_iff a b : uri_eq a b = true <-> a = b.
  Proof.
    destruct a as [s [x y z] p q f], b as [s' [x' y' z'] p' q' f']. unfold uri_eq, auth_eq. cbn. rewrite !andb_true_iff, !str_eqb_eq. split.
    - intros ((((-> & (-> & ->) & ->) & ->) & ->) & ->). reflexivity.
    - intros [= -> -> -> -> -> -> ->]. auto 10.
  Qed.
  (** equal URIs have the same text, hence the same [repr] and hash, whatever
      [repr] and [hash] of a text are *)
  Theorem C56_hash {R H} (repr : pystr -> R) (hash : R -> H) a b : uri_eq a b = true ->
    uri_text a = uri_text b /\ hash (repr (uri_text a)) = hash (repr (uri_text b)) /\ uri_eq b a = true.
  Proof. intro E. apply uri_eq_iff in E as ->. split; [reflexivity|]. split; [reflexivity|]. apply uri_eq_iff. reflexivity. Qed.
  Theorem C56_base v : made v -> exists b, base_uri auth v = Ok b /\
    u_scheme b = u_scheme v /\ u_auth b = u_auth v /\ u_path b = u_path v /\ u_query b = [] /\ u_frag b = [] /\
    base_uri auth b = Ok b.
  Proof.
    intro Hm. destruct (made_settled v Hm) as (S1 & _). destruct v as [sc a p q f]. cbn in S1. unfold base_uri, copy_with. cbn.
    destruct sc as [|c sc]; [eexists; split; [reflexivity|]; cbn; auto 10|].
    rewrite S1 by discriminate. eexists. split; [reflexivity|]. cbn. rewrite S1 by discriminate. auto 10.
  Qed.
  (** the other relations between equality, text and the store's key *)
  Theorem C56_distinct a b : uri_text a <> uri_text b -> uri_eq a b = false.
  Proof. intro H. destruct (uri_eq a b) eqn:E; [|reflexivity]. apply uri_eq_iff in E as ->. congruence. Qed.
  (** a URI counts as false exactly when its text is empty *)
  Theorem C56_bool v : uri_bool v = false <-> uri_text v = [].
  Proof.
    destruct v as [[|c sc] [[|a us] [|b ho] [|p po]] [|x pa] [|q qu] [|f fr]]; cbn; split; intro H; first [reflexivity|discriminate H|idtac]; try (apply (f_equal (@List.length _)) in H; rewrite ?app_length in H; cbn in H; rewrite ?app_length in H; cbn in H; lia).
  Qed.

  (** ** C53 *)
  Lemma is_absolute_total v : exists b, is_absolute auth v = Ok b.
  Proof. unfold is_absolute, copy_with. cbn. eauto. Qed.
  Lemma upto_last_some c s w : upto_last c s = Some w -> exists t, s = w ++ c :: t /\ ~ In c t.
  Proof.
    revert w. induction s as [|x s IH]; intros w E; [discriminate|]. cbn in E. destruct (upto_last c s) as [w'|] eqn:E1.
    - injection E as <-. destruct (IH w' eq_refl) as (t & -> & Ht). exists t. auto.
    - destruct (N.eqb_spec x c) as [->|]; [|discriminate]. injection E as <-. exists s. split; [reflexivity|]. clear IH.
      induction s as [|y s IH]; [intros []|]. cbn in E1. destruct (upto_last c s); [discriminate|]. destruct (N.eqb_spec y c) as [->|Hn]; [discriminate|].
      intros [K|K]; [congruence|]. exact (IH eq_refl K).
  Qed.
  Lemma upto_last_app c w t : ~ In c t -> upto_last c (w ++ c :: t) = Some w.
  Proof.
    intro Ht. assert (N : upto_last c t = None).
    { induction t as [|y t IH]; [reflexivity|]. cbn. rewrite IH by (intro; apply Ht; right; assumption).
      destruct (N.eqb_spec y c) as [->|]; [exfalso; apply Ht; left; reflexivity|reflexivity]. }
    induction w as [|x w IH]; cbn; [rewrite N, N.eqb_refl; reflexivity|]. rewrite IH. reflexivity.
  Qed.
  (** the path of the result before normalisation *)
  Definition target (base r : uri) (p : pystr) : Prop :=
    (u_path r = [] /\ p = u_path base) \/
    (exists t, u_path r = 47 :: t /\ p = u_path r) \/
    (u_path r <> [] /\ (forall t, u_path r <> 47 :: t) /\
       ((exists dir name, u_path base = dir ++ 47 :: name /\ ~ In 47 name /\ p = dir ++ u "/" ++ u_path r) \/
        (u_path base = [] /\ p = u "/" ++ u_path r))).
  (** Full claim: for every base.  Fails for a base whose path is not empty and
      has no slash ([C53_no_slash_refuted]); and a base without scheme leaves
      dot segments in place ([C53_relative_base_refuted]). *)
  Theorem C53_resolve_partial base r : made base -> made r -> (u_path base = [] \/ In 47 (u_path base)) ->
    exists w, resolve auth base r = Ok w /\
      (is_absolute auth r = Ok true -> w = r) /\
      (is_absolute auth r = Ok false ->
         u_scheme w = u_scheme base /\ u_auth w = u_auth base /\ u_frag w = u_frag r /\
         u_query w = (if str_eqb (u_path r) [] && str_eqb (u_query r) [] then u_query base else u_query r) /\
         exists p, target base r p /\ (u_scheme base <> [] -> normal_path p (u_path w)) /\ (u_scheme base = [] -> u_path w = p)).
  Proof.
    intros Hb Hr Hp. destruct (made_settled _ Hr) as (R1 & R2 & R3 & R4). destruct (made_settled _ Hb) as (B1 & B2 & B3 & B4).
    unfold resolve. destruct (is_absolute_total r) as [[|] E]; rewrite E; cbn [bind].
    - exists r. rewrite (C54_stable r Hr). split; [reflexivity|]. split; [auto|discriminate].
    - assert (NP : forall p, (u_scheme base <> [] -> normal_path p (match u_scheme base with [] => p | _ => normalize_path p end)) /\
                  (u_scheme base = [] -> match u_scheme base with [] => p | _ => normalize_path p end = p)).
      { intro p. destruct (u_scheme base); split; try congruence. intros _. apply normal_path_iff. }
      destruct (u_path r) as [|c pr] eqn:Ep.
      + eexists. split; [reflexivity|]. split; [discriminate|]. intros _. cbn [copy_with bind u_scheme u_auth u_path u_query u_frag].
        split; [reflexivity|]. split; [reflexivity|]. split; [exact R4|]. split.
        * destruct (u_query r) eqn:Eq; [reflexivity|]. exact R3.
        * exists (u_path base). split; [left; auto|]. apply NP.
      + destruct (startswith (u "/") (c :: pr)) eqn:Es; rewrite starts_slash in Es.
        * apply N.eqb_eq in Es. subst c. eexists. split; [reflexivity|]. split; [discriminate|]. intros _. cbn [copy_with bind u_scheme u_auth u_path u_query u_frag].
          split; [reflexivity|]. split; [reflexivity|]. split; [exact R4|]. split; [exact R3|].
          exists (47 :: pr). split; [unfold target; rewrite Ep; right; left; eauto|]. apply NP.
        * apply N.eqb_neq in Es. eexists. split; [reflexivity|]. split; [discriminate|]. intros _. cbn [copy_with bind u_scheme u_auth u_path u_query u_frag].
          split; [reflexivity|]. split; [reflexivity|]. split; [exact R4|]. split; [exact R3|].
          exists (dir_of (u_path base) ++ u "/" ++ c :: pr). split; [|apply NP]. unfold target. rewrite Ep. right; right. split; [discriminate|]. split; [intros t [= K _]; congruence|].
          unfold dir_of. destruct (upto_last slash (u_path base)) as [d|] eqn:Ed.
          { apply upto_last_some in Ed as (t & Et & Ht). left. exists d, t. auto. }
          { right. destruct Hp as [->|Hin]; [auto|]. apply in_split in Hin as (l1 & l2 & El). exfalso.
            assert (K : forall t : pystr, In 47 t -> upto_last 47 t <> None).
            { induction t as [|y t IH]; [intros []|]. intros [->|Hy]; cbn; destruct (upto_last 47 t); try discriminate; try (rewrite N.eqb_refl; discriminate).
              destruct (N.eqb_spec y 47); [discriminate|]. intros _. exact (IH Hy eq_refl). }
            apply (K (u_path base)); [rewrite El; apply in_or_app; right; left; reflexivity|exact Ed]. }
  Qed.
  (** scheme and authority come from the base, and resolution never fails, for every base *)
  Theorem C53_from_base base r : made base -> made r -> exists w, resolve auth base r = Ok w /\
    (is_absolute auth r = Ok true -> w = r) /\
    (is_absolute auth r = Ok false -> u_scheme w = u_scheme base /\ u_auth w = u_auth base /\ u_frag w = u_frag r).
  Proof.
    intros Hb Hr. destruct (made_settled _ Hr) as (R1 & R2 & R3 & R4).
    unfold resolve. destruct (is_absolute_total r) as [[|] E]; rewrite E; cbn [bind].
    - exists r. rewrite (C54_stable r Hr). split; [reflexivity|]. split; [auto|discriminate].
    - destruct (u_path r) as [|c pr] eqn:Ep; [|destruct (startswith (u "/") (c :: pr))];
        (eexists; split; [reflexivity|]; split; [discriminate|]; intros _; cbn; auto).
  Qed.
End Resolve.
