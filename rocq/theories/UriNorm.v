(** Facts about the normalizers of [Uri]. *)
From Verif Require Import PyBase PyBaseFacts LeafFacts Regex Uri UriSpec UriFacts PropsPointer PropsFormats.
Local Open Scope N_scope.
Local Notation length := List.length (only parsing).

Lemma segments_split s : segments s = split slash s.
Proof. induction s as [|c s IH]; [reflexivity|]. cbn [segments split]. rewrite IH. destruct (split_cons slash s) as (w & ws & ->). reflexivity. Qed.
Lemma split_of_join c l : l <> [] -> Forall (fun w => ~ In c w) l -> split c (join [c] l) = l.
Proof.
  intros Hne H. induction H as [|w l Hw H IH]; [congruence|]. destruct l as [|x l]; [apply split_none; exact Hw|].
  change (join [c] (w :: x :: l)) with (w ++ c :: join [c] (x :: l)). rewrite split_app by exact Hw. rewrite IH by discriminate. reflexivity.
Qed.
Lemma endswith_spec p s : endswith p s = true <-> exists a, s = a ++ p.
Proof.
  unfold endswith. rewrite startswith_spec. split; intros [b H].
  - exists (rev b). rewrite <- (rev_involutive s), H, rev_app_distr, rev_involutive. reflexivity.
  - exists (rev b). rewrite H, rev_app_distr. reflexivity.
Qed.

(** ** The loop *)
Lemma dot_segment_dec w : {dot_segment w} + {~ dot_segment w}.
Proof.
  unfold dot_segment. destruct (pystr_eq_dec w (u ".")); [left; auto|]. destruct (pystr_eq_dec w (u "..")); [left; auto|right]. intros [H|H]; contradiction.
Defined.
Lemma not_dot w : ~ dot_segment w -> str_eqb w dot = false /\ str_eqb w dotdot = false.
Proof. intro H. split; apply str_eqb_neq; intros ->; apply H; [left|right]; reflexivity. Qed.
Lemma dots_loop_clean l : forall out, Forall (fun w => ~ dot_segment w) l -> dots_loop l out = rev l ++ out.
Proof.
  induction l as [|w l IH]; intros out H; [reflexivity|]. inversion H as [|? ? Hw Hl]; subst. cbn [dots_loop].
  destruct (not_dot w Hw) as [E1 E2]. rewrite E1, E2. cbn [negb]. rewrite IH by exact Hl. cbn. rewrite <- app_assoc. reflexivity.
Qed.
Lemma dots_loop_dotless l : forall out, Forall (fun w => ~ dot_segment w) out -> Forall (fun w => ~ dot_segment w) (dots_loop l out).
Proof.
  induction l as [|w l IH]; intros out H; [exact H|]. cbn [dots_loop].
  destruct (str_eqb_spec w dot) as [|Hd]; [apply IH; exact H|]. destruct (str_eqb_spec w dotdot) as [|Hdd]; cbn [negb].
  - destruct H as [|x out Hx H]; apply IH; [constructor|exact H].
  - apply IH. constructor; [|exact H]. intros [E|E]; contradiction.
Qed.
Lemma dots_loop_sub (P : pystr -> Prop) l : forall out, Forall P l -> Forall P out -> Forall P (dots_loop l out).
Proof.
  induction l as [|w l IH]; intros out Hl H; [exact H|]. inversion Hl as [|? ? Hw Hl']; subst. cbn [dots_loop].
  destruct (str_eqb w dot); [apply IH; assumption|]. destruct (str_eqb w dotdot); cbn [negb].
  - destruct H as [|x out Hx H]; apply IH; auto.
  - apply IH; auto.
Qed.
Lemma cancels_trans l m n : cancels_to l m -> cancels_to m n -> cancels_to l n.
Proof. induction 1; [auto|]. intro. econstructor; eauto. Qed.
Lemma dots_loop_cancels l : forall out, Forall (fun w => ~ dot_segment w) out -> cancels_to (rev out ++ l) (rev (dots_loop l out)).
Proof.
  induction l as [|w l IH]; intros out H; cbn [dots_loop]; [rewrite app_nil_r; constructor|].
  destruct (str_eqb_spec w dot) as [->|Hd].
  - econstructor; [apply cancel_dot|]. apply IH. exact H.
  - destruct (str_eqb_spec w dotdot) as [->|Hdd]; cbn [negb].
    + destruct H as [|x out Hx H].
      * econstructor; [apply (cancel_root l)|]. apply (IH []). constructor.
      * cbn [rev]. rewrite <- app_assoc. econstructor; [apply (cancel_up (rev out) x l Hx)|]. apply IH. exact H.
    + specialize (IH (w :: out)). cbn [rev] in IH. rewrite <- app_assoc in IH. apply IH. constructor; [|exact H]. intros [E|E]; contradiction.
Qed.
Theorem remove_dots_spec s : dots_removed s (remove_dot_segments s).
Proof.
  exists (rev (dots_loop (split slash s) [])). rewrite segments_split. split; [apply (dots_loop_cancels _ []); constructor|].
  split; [|reflexivity]. intros w Hw. apply in_rev in Hw. revert w Hw. apply Forall_forall. apply dots_loop_dotless. constructor.
Qed.

(** ** On segments *)
Definition leads (l : list pystr) : bool := match l with [] :: _ :: _ => true | _ => false end.
Definition trails (l : list pystr) : bool := match l with [] | [_] => false | _ => str_eqb (last l []) dot || str_eqb (last l []) dotdot end.
Definition clean (l : list pystr) : list pystr :=
  let o := rev (dots_loop l []) in
  let o := if leads l && match o with [] :: _ => false | _ => true end then [] :: o else o in
  if trails l then o ++ [[]] else o.
Lemma starts_slash c s : startswith (u "/") (c :: s) = (47 =? c).
Proof. change ((47 =? c) && true = (47 =? c)). apply andb_true_r. Qed.
Lemma starts_leads l : l <> [] -> Forall (fun w => ~ In slash w) l -> startswith (u "/") (join (u "/") l) = leads l.
Proof.
  intros Hne H. destruct H as [|w l Hw H]; [congruence|]. destruct l as [|x l].
  - cbn [join]. destruct w as [|c w]; [reflexivity|]. rewrite starts_slash. destruct (N.eqb_spec 47 c) as [<-|]; [exfalso; apply Hw; left; reflexivity|reflexivity].
  - change (join (u "/") (w :: x :: l)) with (w ++ slash :: join (u "/") (x :: l)). destruct w as [|c w]; [reflexivity|].
    cbn [app]. rewrite starts_slash. destruct (N.eqb_spec 47 c) as [<-|]; [exfalso; apply Hw; left; reflexivity|reflexivity].
Qed.
Lemma join_snoc l w : l <> [] -> join (u "/") (l ++ [w]) = join (u "/") l ++ slash :: w.
Proof.
  induction l as [|x l IH]; [congruence|]. intros _. destruct l as [|y l]; [reflexivity|].
  change ((x :: y :: l) ++ [w]) with (x :: (y :: l) ++ [w]). change (join (u "/") (x :: y :: l)) with (x ++ slash :: join (u "/") (y :: l)).
  rewrite <- app_assoc. change ((slash :: join (u "/") (y :: l)) ++ slash :: w) with (slash :: (join (u "/") (y :: l) ++ slash :: w)).
  rewrite <- IH by discriminate. reflexivity.
Qed.
Lemma last_cut a b w d : ~ In slash w -> ~ In slash d -> a ++ slash :: w = b ++ slash :: d -> w = d.
Proof.
  intros Hw Hd E. apply (f_equal (@rev N)) in E. rewrite !rev_app_distr in E. cbn [rev] in E. rewrite <- !app_assoc in E. cbn [app] in E.
  assert (K : forall x y p q, ~ In slash x -> ~ In slash y -> x ++ slash :: p = y ++ slash :: q -> x = y).
  { clear. induction x as [|c x IH]; intros [|e y] p q Hx Hy E; try reflexivity; cbn in E.
    - injection E as <- _. exfalso. apply Hy. left; reflexivity.
    - injection E as -> _. exfalso. apply Hx. left; reflexivity.
    - injection E as -> E. f_equal. apply (IH y p q); [|intro; apply Hy; right; assumption|exact E]. intro; apply Hx; right; assumption. }
  apply K in E; [|rewrite <- in_rev; assumption..]. apply (f_equal (@rev N)) in E. rewrite !rev_involutive in E. exact E.
Qed.
Lemma ends_segment l d : l <> [] -> Forall (fun w => ~ In slash w) l -> ~ In slash d ->
  endswith (slash :: d) (join (u "/") l) = match l with [] | [_] => false | _ => str_eqb (last l []) d end.
Proof.
  intros Hne H Hd. destruct l as [|w l] using rev_ind; [congruence|]. clear IHl. apply Forall_app in H as [H Hw]. inversion Hw as [|? ? Hw' _]; subst.
  destruct l as [|x l].
  - cbn [app join]. destruct (endswith (slash :: d) w) eqn:E; [|reflexivity]. apply endswith_spec in E as [a ->]. exfalso. apply Hw'.
    apply in_or_app. right. left. reflexivity.
  - rewrite join_snoc by discriminate. rewrite last_last. destruct (str_eqb_spec w d) as [->|Hn].
    + replace (match (x :: l) ++ [d] with [] | [_] => false | _ => true end) with true by (destruct l; reflexivity).
      apply endswith_spec. eauto.
    + replace (match (x :: l) ++ [w] with [] | [_] => false | _ => false end) with false by (destruct l; reflexivity).
      destruct (endswith (slash :: d) _) eqn:E; [|reflexivity]. apply endswith_spec in E as [a E]. exfalso. apply Hn.
      exact (last_cut _ _ _ _ Hw' Hd E).
Qed.
Lemma split_fine s : split slash s <> [] /\ Forall (fun w => ~ In slash w) (split slash s).
Proof.
  split; [destruct (split_cons slash s) as (w & ws & ->); discriminate|]. apply Forall_forall. intros w. apply split_no_sep.
Qed.
Lemma remove_dots_clean l : l <> [] -> Forall (fun w => ~ In slash w) l -> remove_dot_segments (join (u "/") l) = join (u "/") (clean l).
Proof.
  intros Hne H. unfold remove_dot_segments, clean. rewrite (split_of_join slash l Hne H : split slash (join (u "/") l) = l), (starts_leads l Hne H).
  change (u "/.") with (slash :: dot). change (u "/..") with (slash :: dotdot).
  rewrite !(ends_segment l _ Hne H); [|cbn; intuition discriminate..].
  replace (match l with [] | [_] => false | _ => str_eqb (last l []) dot end || match l with [] | [_] => false | _ => str_eqb (last l []) dotdot end)
    with (trails l) by (destruct l as [|x [|y l]]; reflexivity). reflexivity.
Qed.
Lemma clean_noslash l : Forall (fun w => ~ In slash w) l -> Forall (fun w => ~ In slash w) (clean l).
Proof.
  intro H. unfold clean. set (o := rev (dots_loop l [])).
  assert (Ho : Forall (fun w => ~ In slash w) o) by (apply Forall_rev, dots_loop_sub; [exact H|constructor]). clearbody o.
  set (o2 := if leads l && _ then [] :: o else o).
  assert (H2 : Forall (fun w => ~ In slash w) o2) by (unfold o2; destruct (leads l && _); [constructor; [intros []|]|]; exact Ho). clearbody o2.
  destruct (trails l); [|exact H2]. apply Forall_app. split; [exact H2|]. constructor; [intros []|constructor].
Qed.
Lemma nil_not_dot : ~ dot_segment []. Proof. intros [H|H]; discriminate. Qed.
Lemma clean_dotless l : Forall (fun w => ~ dot_segment w) (clean l).
Proof.
  unfold clean. set (o := rev (dots_loop l [])).
  assert (Ho : Forall (fun w => ~ dot_segment w) o) by (apply Forall_rev, dots_loop_dotless; constructor). clearbody o.
  set (o2 := if leads l && _ then [] :: o else o).
  assert (H2 : Forall (fun w => ~ dot_segment w) o2) by (unfold o2; destruct (leads l && _); [constructor; [apply nil_not_dot|]|]; exact Ho). clearbody o2.
  destruct (trails l); [|exact H2]. apply Forall_app. split; [exact H2|]. constructor; [apply nil_not_dot|constructor].
Qed.
Lemma last_Forall {A} (P : A -> Prop) (l : list A) d : l <> [] -> Forall P l -> P (last l d).
Proof.
  intros Hne H. induction H as [|x l Hx H IH]; [congruence|]. destruct l as [|y l]; [exact Hx|]. apply IH. discriminate.
Qed.
Lemma clean_same l : Forall (fun w => ~ dot_segment w) l -> clean l = l.
Proof.
  intro H. unfold clean. rewrite (dots_loop_clean l [] H), app_nil_r, rev_involutive.
  replace (leads l && match l with [] :: _ => false | _ => true end) with false by (destruct l as [|[|] [|]]; reflexivity).
  replace (trails l) with false; [reflexivity|]. symmetry. destruct l as [|x [|y l]]; try reflexivity. unfold trails.
  destruct (not_dot _ (last_Forall _ (x :: y :: l) [] ltac:(discriminate) H)) as [E1 E2]. rewrite E1, E2. reflexivity.
Qed.
Lemma clean_segments l : Forall (fun w => ~ In slash w) l -> split slash (join (u "/") (clean l)) = match clean l with [] => [[]] | c => c end.
Proof.
  intro H. pose proof (clean_noslash l H) as Hc. destruct (clean l) as [|w c]; [reflexivity|]. change (u "/") with [slash].
  apply split_of_join; [discriminate|exact Hc].
Qed.

(** ** Percent escapes *)
Lemma upper_step c a b s : upper_escapes (c :: a :: b :: s) =
  if one 37 c && is_hex a && is_hex b then c :: upper_char a :: upper_char b :: upper_escapes s else c :: upper_escapes (a :: b :: s).
Proof. reflexivity. Qed.
Lemma upper_escapes_len : forall s, length (upper_escapes s) = length s.
Proof.
  assert (G : forall n s, (length s <= n)%nat -> length (upper_escapes s) = length s).
  { induction n as [|n IH]; intros [|c s] Hl; try reflexivity; [cbn in Hl; lia|]. cbn in Hl.
    destruct s as [|a [|b s]]; try reflexivity. cbn in Hl.
    rewrite upper_step. destruct (one 37 c && is_hex a && is_hex b).
    - cbn [length]. rewrite IH by lia. reflexivity.
    - cbn [length]. f_equal. rewrite (IH (a :: b :: s)) by (cbn; lia). reflexivity. }
  intro s. exact (G _ s (le_n _)).
Qed.
Lemma upper_escapes_cons c s : c <> 37 -> upper_escapes (c :: s) = c :: upper_escapes s.
Proof.
  intro H. destruct s as [|a [|b s]]; try reflexivity. rewrite upper_step. unfold one.
  destruct (N.eqb_spec c 37); [contradiction|]. reflexivity.
Qed.
Lemma upper_escapes_app p : is_hex p = false -> p <> 37 -> forall w s, upper_escapes (w ++ p :: s) = upper_escapes w ++ p :: upper_escapes s.
Proof.
  intros Hp Hp2.
  assert (G : forall n w s, (length w <= n)%nat -> upper_escapes (w ++ p :: s) = upper_escapes w ++ p :: upper_escapes s).
  { induction n as [|n IH]; intros [|c w] s Hl; try (cbn in Hl; lia); cbn [app]; try (rewrite upper_escapes_cons by exact Hp2; reflexivity).
    cbn in Hl. destruct w as [|a [|b w]].
    - cbn [app]. destruct s as [|x s]; [reflexivity|]. rewrite upper_step, Hp, andb_false_r. cbn [andb].
      rewrite upper_escapes_cons by exact Hp2. reflexivity.
    - cbn [app]. rewrite upper_step, Hp, andb_false_r. specialize (IH [a] s ltac:(cbn in *; lia)). cbn [app] in IH. rewrite IH. reflexivity.
    - cbn [app]. rewrite !(upper_step c a b). destruct (one 37 c && is_hex a && is_hex b).
      + cbn in Hl. rewrite IH by lia. reflexivity.
      + specialize (IH (a :: b :: w) s ltac:(cbn in *; lia)). cbn [app] in IH. rewrite IH. reflexivity. }
  intros w s. exact (G _ w s (le_n _)).
Qed.
Lemma upper_escapes_join l : upper_escapes (join (u "/") l) = join (u "/") (map upper_escapes l).
Proof.
  induction l as [|w l IH]; [reflexivity|]. destruct l as [|x l]; [reflexivity|].
  change (join (u "/") (w :: x :: l)) with (w ++ slash :: join (u "/") (x :: l)). rewrite upper_escapes_app by (reflexivity || discriminate).
  rewrite IH. reflexivity.
Qed.
Lemma upper_char_hex x : is_hex x = true -> is_hex (upper_char x) = true /\ upper_char (upper_char x) = upper_char x /\ upper_char x <> slash.
Proof.
  unfold is_hex, upper_char, is_ascii_digit, is_lower, between, slash. intro H.
  destruct ((97 <=? x) && (x <=? 122)) eqn:E.
  - destruct ((97 <=? x - 32) && (x - 32 <=? 122)) eqn:E2; lia.
  - rewrite E. lia.
Qed.
Lemma upper_escapes_idem : forall s, upper_escapes (upper_escapes s) = upper_escapes s.
Proof.
  assert (G : forall n s, (length s <= n)%nat -> upper_escapes (upper_escapes s) = upper_escapes s).
  { induction n as [|n IH]; intros [|c s] Hl; try reflexivity; [cbn in Hl; lia|]. cbn in Hl.
    destruct s as [|a [|b s]]; try reflexivity.
    destruct (N.eqb_spec c 37) as [->|Hc]; [|rewrite !upper_escapes_cons by exact Hc; rewrite IH by lia; reflexivity].
    rewrite !upper_step. change (one 37 37) with true. cbn [andb].
    destruct (is_hex a && is_hex b) eqn:E.
    - apply andb_true_iff in E as [Ea Eb]. destruct (upper_char_hex a Ea) as (Ha & Ha2 & _). destruct (upper_char_hex b Eb) as (Hb & Hb2 & _).
      rewrite upper_step, Ha, Hb, Ha2, Hb2. change (one 37 37) with true. cbn [andb]. cbn in Hl. rewrite IH by lia. reflexivity.
    - set (r := upper_escapes (a :: b :: s)).
      assert (Hr : upper_escapes r = r) by (apply IH; cbn in *; lia).
      assert (Hh : forall x y q, r = x :: y :: q -> is_hex x && is_hex y = false).
      { intros x y q Er. unfold r in Er. destruct s as [|e s]; [|rewrite upper_step in Er].
        - injection Er as <- <- _. exact E.
        - destruct (one 37 a && is_hex b && is_hex e) eqn:E2.
          + injection Er as <- _ _. apply andb_true_iff in E2 as [E2 _]. apply andb_true_iff in E2 as [E2 _]. apply N.eqb_eq in E2 as ->. reflexivity.
          + pose proof (f_equal (hd 0) Er) as Eh. apply (f_equal (@tl N)) in Er. cbn [hd tl] in Eh, Er. subst x. destruct (is_hex a) eqn:Ea; [|reflexivity]. cbn [andb] in *.
            destruct s as [|g s]; [injection Er as <- _; exact E|]. rewrite upper_step in Er.
            destruct (one 37 b && is_hex e && is_hex g) eqn:E3; injection Er as <- _; exact E. }
      destruct r as [|x [|y q]] eqn:Er; try reflexivity.
      rewrite upper_step. change (one 37 37) with true. cbn [andb]. rewrite (Hh x y q eq_refl), Hr. reflexivity. }
  intro s. exact (G _ s (le_n _)).
Qed.
Lemma upper_escapes_short w : (length w <= 2)%nat -> upper_escapes w = w.
Proof. destruct w as [|a [|b [|c w]]]; try reflexivity. cbn. lia. Qed.
Lemma upper_escapes_dot w : str_eqb (upper_escapes w) dot = str_eqb w dot /\ str_eqb (upper_escapes w) dotdot = str_eqb w dotdot.
Proof.
  destruct (Nat.leb_spec (length w) 2) as [H|H]; [rewrite upper_escapes_short by exact H; auto|].
  assert (K : forall a d, (length d <= 2)%nat -> length a = length w -> str_eqb a d = false).
  { intros a d Hd Ha. apply str_eqb_neq. intros ->. lia. }
  rewrite !K; try (cbn; lia); rewrite ?upper_escapes_len; auto.
Qed.
Lemma upper_escapes_noslash w : ~ In slash w -> ~ In slash (upper_escapes w).
Proof.
  assert (G : forall n w, (length w <= n)%nat -> ~ In slash w -> ~ In slash (upper_escapes w)).
  { induction n as [|n IH]; intros [|c s] Hl H; try exact H; [cbn in Hl; lia|]. cbn in Hl.
    destruct s as [|a [|b s]]; try exact H. rewrite upper_step. destruct (one 37 c && is_hex a && is_hex b) eqn:E.
    - apply andb_true_iff in E as [E Eb]. apply andb_true_iff in E as [_ Ea].
      destruct (upper_char_hex a Ea) as (_ & _ & Ha). destruct (upper_char_hex b Eb) as (_ & _ & Hb). cbn [In].
      intros [K|[K|[K|K]]]; [apply H; left; exact K|congruence|congruence|]. revert K. apply IH; [cbn in Hl; lia|].
      intro K. apply H. right. right. right. exact K.
    - cbn [In]. intros [K|K]; [apply H; left; exact K|]. revert K. apply IH; [cbn in *; lia|].
      intro K. apply H. right. exact K. }
  exact (G _ w (le_n _)).
Qed.
Lemma dots_loop_upper l : forall out, dots_loop (map upper_escapes l) (map upper_escapes out) = map upper_escapes (dots_loop l out).
Proof.
  induction l as [|w l IH]; intro out; [reflexivity|]. cbn [map dots_loop]. destruct (upper_escapes_dot w) as [E1 E2]. rewrite E1, E2.
  destruct (str_eqb w dot); [apply IH|]. destruct (str_eqb w dotdot); cbn [negb]; [|apply (IH (w :: out))].
  destruct out as [|x out]; [apply (IH [])|apply IH].
Qed.
Lemma upper_escapes_nil w : upper_escapes w = [] -> w = [].
Proof. intro H. pose proof (upper_escapes_len w) as E. rewrite H in E. destruct w; [reflexivity|discriminate]. Qed.
Lemma clean_upper l : clean (map upper_escapes l) = map upper_escapes (clean l).
Proof.
  unfold clean. rewrite (dots_loop_upper l [] : dots_loop (map upper_escapes l) [] = _), <- map_rev. set (o := rev (dots_loop l [])). clearbody o.
  assert (N : forall w, match upper_escapes w with [] => true | _ => false end = match w with [] => true | _ => false end).
  { intros [|c w]; [reflexivity|]. destruct (upper_escapes (c :: w)) eqn:E; [apply upper_escapes_nil in E; discriminate|reflexivity]. }
  assert (L : leads (map upper_escapes l) = leads l).
  { destruct l as [|w [|x l]]; try reflexivity; cbn [map leads].
    - destruct (upper_escapes w); [|]; destruct w; reflexivity.
    - specialize (N w). destruct (upper_escapes w), w; congruence. }
  assert (M : match map upper_escapes o with [] :: _ => false | _ => true end = match o with [] :: _ => false | _ => true end).
  { destruct o as [|w o]; [reflexivity|]. cbn [map]. specialize (N w). destruct (upper_escapes w), w; congruence. }
  assert (T : trails (map upper_escapes l) = trails l).
  { destruct l as [|w [|x l]]; try reflexivity. unfold trails. cbn [map]. change (upper_escapes w :: upper_escapes x :: map upper_escapes l) with (map upper_escapes (w :: x :: l)).
    replace (last (map upper_escapes (w :: x :: l)) []) with (upper_escapes (last (w :: x :: l) [])).
    - destruct (upper_escapes_dot (last (w :: x :: l) [])) as [E1 E2]. rewrite E1, E2. reflexivity.
    - generalize (w :: x :: l). intro m. induction m as [|y m IH]; [reflexivity|]. destruct m as [|z m]; [reflexivity|]. exact IH. }
  rewrite L, M, T. destruct (leads l && _), (trails l); cbn [map]; rewrite ?map_app; reflexivity.
Qed.
Lemma upper_split s : upper_escapes s = join (u "/") (map upper_escapes (split slash s)).
Proof. rewrite <- upper_escapes_join. change (u "/") with [slash]. rewrite split_join. reflexivity. Qed.
Definition normal_segments (s : pystr) : list pystr := map upper_escapes (clean (split slash s)).
Lemma map_fine l : l <> [] -> Forall (fun w => ~ In slash w) l -> map upper_escapes l <> [] /\ Forall (fun w => ~ In slash w) (map upper_escapes l).
Proof.
  intros Hne H. split; [destruct l; [congruence|discriminate]|]. apply Forall_map. eapply Forall_impl; [|exact H]. intros w. apply upper_escapes_noslash.
Qed.
Lemma normalize_path_segments s : normalize_path s = join (u "/") (normal_segments s).
Proof.
  unfold normal_segments. destruct s as [|c s]; [reflexivity|]. unfold normalize_path. rewrite upper_split. destruct (split_fine (c :: s)) as [H1 H2].
  destruct (map_fine _ H1 H2) as [H3 H4]. rewrite (remove_dots_clean _ H3 H4), clean_upper. reflexivity.
Qed.
Lemma normal_split s : split slash (normalize_path s) = match normal_segments s with [] => [[]] | c => c end.
Proof.
  rewrite normalize_path_segments. destruct (split_fine s) as [H1 H2]. pose proof (clean_noslash _ H2) as Hc. unfold normal_segments.
  destruct (clean (split slash s)) as [|w c]; [reflexivity|].
  change (split slash (join [slash] (map upper_escapes (w :: c))) = map upper_escapes (w :: c)).
  apply split_of_join; [discriminate|]. apply Forall_map. eapply Forall_impl; [|exact Hc]. intros x. apply upper_escapes_noslash.
Qed.
Lemma normal_dotless s : Forall (fun w => ~ dot_segment w) (normal_segments s).
Proof.
  apply Forall_map. eapply Forall_impl; [|apply clean_dotless]. intros w Hw. cbv beta in *.
  destruct (not_dot w Hw) as [E1 E2]. destruct (upper_escapes_dot w) as [E3 E4]. rewrite E1 in E3. rewrite E2 in E4. apply str_eqb_neq in E3, E4.
  intros [K|K]; contradiction.
Qed.
Lemma normal_split_dotless s : Forall (fun w => ~ dot_segment w) (split slash (normalize_path s)).
Proof.
  rewrite normal_split. pose proof (normal_dotless s) as H. destruct (normal_segments s); [constructor; [apply nil_not_dot|constructor]|exact H].
Qed.
Lemma upper_normal s : upper_escapes (normalize_path s) = normalize_path s.
Proof.
  rewrite normalize_path_segments, upper_escapes_join. unfold normal_segments. rewrite map_map. f_equal. apply map_ext. intro. apply upper_escapes_idem.
Qed.
Theorem normalize_path_idem s : normalize_path (normalize_path s) = normalize_path s.
Proof.
  assert (K : forall t, Forall (fun w => ~ dot_segment w) (split slash t) -> upper_escapes t = t -> normalize_path t = t).
  { intros t H E. rewrite normalize_path_segments. unfold normal_segments. rewrite (clean_same _ H), <- upper_escapes_join.
    change (u "/") with [slash]. rewrite split_join. exact E. }
  apply K; [apply normal_split_dotless|apply upper_normal].
Qed.
Lemma upper_escapes_upper s : escapes_upper (upper_escapes s).
Proof.
  intros a c d b E Hc Hd. pose proof (upper_escapes_idem s) as I. rewrite E in I. clear E s.
  assert (is_hex_iff : forall x, hex_digit x <-> is_hex x = true).
  { intro x. unfold hex_digit, lower_hex, is_hex, is_ascii_digit, between. rewrite !orb_true_iff, !andb_true_iff, !N.leb_le. lia. }
  assert (K : forall n a, (length a <= n)%nat -> upper_escapes (a ++ 37 :: c :: d :: b) = a ++ 37 :: c :: d :: b -> upper_char c = c /\ upper_char d = d).
  { induction n as [|n IH]; intros [|x w] Hl I0; try (cbn in Hl; lia).
    1,2: cbn [app] in I0; rewrite upper_step in I0; apply is_hex_iff in Hc, Hd; rewrite Hc, Hd in I0; change (one 37 37) with true in I0; cbn [andb] in I0;
       injection I0 as E1 E2 _; auto.
    cbn in Hl. cbn [app] in I0.
    destruct w as [|y [|z w]].
    - cbn [app] in I0. rewrite upper_step in I0. change (is_hex 37) with false in I0. rewrite andb_false_r in I0. cbn [andb] in I0. injection I0 as I0. apply (IH []); [cbn in *; lia|exact I0].
    - cbn [app] in I0. rewrite upper_step in I0. change (is_hex 37) with false in I0. rewrite andb_false_r in I0. injection I0 as I0.
      apply (IH [y]); [cbn in *; lia|]. cbn [app]. exact I0.
    - cbn [app] in I0. rewrite upper_step in I0. destruct (one 37 x && is_hex y && is_hex z).
      + injection I0 as _ _ I0. apply (IH w); [cbn in Hl; lia|exact I0].
      + injection I0 as I0. apply (IH (y :: z :: w)); [cbn in *; lia|]. cbn [app]. exact I0. }
  destruct (K _ a (le_n _) I) as [E1 E2]. unfold upper_char, is_lower, between in E1, E2. unfold lower_hex. 
  assert (Z : forall x, (if (97 <=? x) && (x <=? 122) then x - 32 else x) = x -> ~ (97 <= x <= 102)).
  { intros x Hx Hr. destruct ((97 <=? x) && (x <=? 122)) eqn:F; [lia|]. apply andb_false_iff in F as [F|F]; apply N.leb_gt in F; lia. }
  split; apply Z; assumption.
Qed.
Lemma lower_idem s : normalize_scheme (normalize_scheme s) = normalize_scheme s.
Proof.
  unfold normalize_scheme. rewrite map_map. apply map_ext. intro x. unfold lower_char, is_upper, between.
  destruct ((65 <=? x) && (x <=? 90)) eqn:E; [|rewrite E; reflexivity].
  destruct ((65 <=? x + 32) && (x + 32 <=? 90)) eqn:E2; lia.
Qed.
