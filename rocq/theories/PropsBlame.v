(** Property C33 in full: every rejection comes from one keyword of one schema
    object, applied to the value at the reported place, whose demand that value
    does not meet. *)
From Verif Require Import PyBase PyBaseFacts PyVal Errors Validators Keywords Spec LeafFacts Mono RunFacts KeywordFacts Master Claims RejectFacts OrderFacts PropsComposite PropsErrors.
From Coq Require Import QArith ZifyBool.
Local Open Scope Z_scope.
Local Notation length := List.length (only parsing).

Section Blame.
  Context {node : Type} (view : node -> res (nview node)) (strx : node -> pystr) (E : env).
  Variable voc : list akw.
  Notation Accepts := (Accepts view strx E voc).
  Notation Rejects := (Rejects view strx E voc).

  (** ** Specification *)
  (** schema object [n] has members [items]; its keyword [k], known to the
      vocabulary, has the operand [o] with value [x] *)
  Definition operand (n : node) (items : list (pystr * node)) (k : akw) (o : node) (x : nval node) : Prop :=
    (exists w, view n = Ok w /\ nv_val w = NObj items) /\
    In k voc /\ dget (kw_key k) items = Some o /\ (exists w, view o = Ok w /\ nv_val w = x).

  (** [hands c n v q m x]: holding [v], at place [c], against schema [n] holds
      [x], at place [q] below, against schema [m], and passes its complaint on *)
  Inductive hands (c : ctx) (n : node) : pv -> list pystr -> node -> pv -> Prop :=
  | to_branch k items o l m v : k = KwAllOf \/ k = KwAnyOf \/ k = KwOneOf ->
      operand n items k o (NArr l) -> In m l -> hands c n v [] m v
  | to_then items i y m x v : operand n items KwIf i y -> operand n items KwThen m x ->
      Accepts i v c -> hands c n v [] m v
  | to_else items i y m x v : operand n items KwIf i y -> operand n items KwElse m x ->
      Rejects i v c -> hands c n v [] m v
  | to_dependent items o table key m d : operand n items KwDependentSchemas o (NObj table) ->
      In (key, m) table -> In key (dkeys d) -> hands c n (VDict d) [] m (VDict d)
  | to_name items m x key y d : operand n items KwPropertyNames m x ->
      In (key, y) d -> hands c n (VDict d) [key] m (VStr key)
  | to_property items o props key m y d : operand n items KwProperties o (NObj props) ->
      dget key props = Some m -> In (key, y) d -> hands c n (VDict d) [key] m y
  | to_pattern items o pats p m key y d : operand n items KwPatternProperties o (NObj pats) ->
      In (p, m) pats -> re_search E p key = true -> ~ declared view voc items key ->
      In (key, y) d -> hands c n (VDict d) [key] m y
  | to_additional items m x key y d : operand n items KwAdditionalProperties m x -> x <> NBool true ->
      ~ declared view voc items key -> ~ pattern_matched view E voc items key ->
      In (key, y) d -> hands c n (VDict d) [key] m y
  | to_unevaluated items m key y d : operand n items KwUnevaluatedProperties m (NBool false) ->
      ~ declared view voc items key -> ~ pattern_matched view E voc items key -> ~ additional_restricts view voc items ->
      In (key, y) d -> hands c n (VDict d) [key] m y
  | to_item items m x i y l : operand n items KwItems m x -> (forall ms, x <> NArr ms) -> x <> NBool true ->
      nth_error l i = Some y -> hands c n (VList l) [nat_str i] m y
  | to_position k items o ms m i y l : k = KwItems \/ k = KwPrefixItems -> operand n items k o (NArr ms) ->
      nth_error ms i = Some m -> nth_error l i = Some y -> hands c n (VList l) [nat_str i] m y
  | to_missing k items o ms m i l : k = KwItems \/ k = KwPrefixItems -> operand n items k o (NArr ms) ->
      nth_error ms i = Some m -> nth_error l i = None -> hands c n (VList l) [nat_str i] m VNone
  | to_rest items o ms m w i y l : operand n items KwItems o (NArr ms) ->
      dget (u "additionalItems") items = Some m -> view m = Ok w -> nv_val w <> NBool true ->
      (length ms <= i)%nat -> nth_error l i = Some y -> hands c n (VList l) [nat_str i] m y.

  (** any number of such steps *)
  Inductive held (c : ctx) (n : node) (v : pv) : list pystr -> node -> pv -> Prop :=
  | held_here : held c n v [] n v
  | held_on q m x p m' y : hands c n v q m x -> held (c ++ q) m x p m' y -> held c n v (q ++ p) m' y.

  (** the complaint [e] is the one keyword [k] with operand value [x] makes of
      [y], and carries the parameters of that keyword *)
  Definition complaint (items : list (pystr * node)) (k : akw) (x : nval node) (y : pv) (e : vkind) : Prop :=
    match k, x, e with
    | KwType, NStr s, KType ts => ts = [s]
    | KwType, NArr l, KType ts => ts = map (item_str view strx) l
    | KwEnum, NArr _, KEnum => True
    | KwConst, _, KConst => True
    | KwMaximum, NNum d, KMaximum d' | KwExclusiveMaximum, NNum d, KMaximum d' => d' = d
    | KwMinimum, NNum d, KMinimum d' | KwExclusiveMinimum, NNum d, KMinimum d' => d' = d
    | KwMultipleOf, NNum d, KMultipleOf d' => d' = d
    | KwMinLength, NNum d, KMinLength z | KwMaxLength, NNum d, KMaxLength z
    | KwMinItems, NNum d, KMinItems z | KwMaxItems, NNum d, KMaxItems z
    | KwMinProperties, NNum d, KMinProps z | KwMaxProperties, NNum d, KMaxProps z => z = dec_int d
    | KwFormat, NStr s, KFormat f | KwPattern, NStr s, KFormat f => f = s
    | KwRequired, NArr l, KRequired p => (exists m, In m l /\ p = item_str view strx m) /\ ~ has_name y p
    | KwDependentRequired, NObj table, KDependent p q =>
        exists m names d, In (p, m) table /\ iter_strs view strx m = Ok names /\ In q names /\
          y = VDict d /\ In p (dkeys d) /\ ~ In q (dkeys d)
    | KwContains, NObj _, KMinContains z =>
        int_member view items (u "minContains") z \/ (dget (u "minContains") items = None /\ z = 1)
    | KwContains, NObj _, KMaxContains z => int_member view items (u "maxContains") z
    | KwUniqueItems, NBool true, KUnique => True
    | KwOneOf, NArr _, KOneOf => True
    | KwNot, NObj _, KNot => True
    | KwItems, _, KType ts | KwPrefixItems, _, KType ts => ts = [u "array"] /\ forall l, y <> VList l
    | _, _, _ => False
    end.

  (** the path the error carries, for a value at [c]: that place, except that
      [uniqueItems] glues the index of the first repeated item to it and an
      array keyword meeting something else leaves it out *)
  Definition path_text (k : akw) (e : vkind) (c : ctx) (y : pv) (p : pystr) : Prop :=
    match k, e with
    | KwUniqueItems, _ => exists l i, iterable y l /\ first_repeat l i /\ p = dotted c ++ nat_str i
    | KwItems, KType _ | KwPrefixItems, KType _ => p = []
    | _, _ => p = dotted c
    end.

  (** schema [n] itself complains about [y] at place [c] *)
  Inductive accuses (c : ctx) (n : node) (y : pv) : verr -> Prop :=
  | by_false w : view n = Ok w -> nv_val w = NBool false -> accuses c n y (VErr KFail (dotted c))
  | by_keyword items k o x e p : operand n items k o x ->
      ~ demands view strx E voc Accepts Rejects items k o x y c ->
      complaint items k x y e -> path_text k e c y p ->
      accuses c n y (VErr e p).

  (** ** What a validator object passes on, and what it says itself *)
  Definition vhands (rec : node -> pv -> ctx -> res unit) (c : ctx) (o : vobj node node) (v : pv) (q : list pystr) (m : node) (x : pv) : Prop :=
    match o with
    | VAllOf l | VAnyOf l | VOneOf l => q = [] /\ x = v /\ In m l
    | VCond k => q = [] /\ x = v /\
        ((exists i, cv_if k = Some i /\ rec i v c = Ok tt /\ cv_then k = Some m) \/
         (exists i e, cv_if k = Some i /\ rec i v c = Raise (EValid e) /\ cv_else k = Some m))
    | VDepSchemas t => q = [] /\ x = v /\ exists d key, v = VDict d /\ In key (dkeys d) /\ In (key, m) t
    | VObject ob => exists d key y, v = VDict d /\ q = [key] /\ In (key, y) d /\
        ((ov_names ob = Some m /\ x = VStr key) \/
         (x = y /\
          (dget key (ov_data ob) = Some m \/
           (dget key (ov_data ob) = None /\
            ((exists pats p, ov_pat ob = Some pats /\ In (p, m) pats /\ re_search E p key = true) \/
             (~ matched E ob key /\ ov_addl ob = Some (SLazy m)))))))
    | VArray it pre => exists l i, v = VList l /\ q = [nat_str i] /\
        ((exists ps, pre = Some ps /\ nth_error ps i = Some m /\
            (nth_error l i = Some x \/ nth_error l i = None /\ x = VNone)) \/
         (it = Some m /\ nth_error l i = Some x /\ (length (match pre with Some ps => ps | None => [] end) <= i)%nat))
    | _ => False
    end.
  Definition vsays (c : ctx) (o : vobj node node) (v : pv) (e : vkind) (p : pystr) : Prop :=
    match o with
    | VFail => e = KFail /\ p = dotted c
    | VType ts => e = KType ts /\ p = dotted c
    | VEnum _ => e = KEnum /\ p = dotted c
    | VConst _ => e = KConst /\ p = dotted c
    | VMaximum d _ => e = KMaximum d /\ p = dotted c
    | VMinimum d _ => e = KMinimum d /\ p = dotted c
    | VMultipleOf d => e = KMultipleOf d /\ p = dotted c
    | VMinLength z => e = KMinLength z /\ p = dotted c
    | VMaxLength z => e = KMaxLength z /\ p = dotted c
    | VMinItems z => e = KMinItems z /\ p = dotted c
    | VMaxItems z => e = KMaxItems z /\ p = dotted c
    | VMinProps z => e = KMinProps z /\ p = dotted c
    | VMaxProps z => e = KMaxProps z /\ p = dotted c
    | VFormat s | VPattern s => e = KFormat s /\ p = dotted c
    | VRequired names => exists name, In name names /\ ~ has_name v name /\ e = KRequired name /\ p = dotted c
    | VDepRequired t => exists d key names name, v = VDict d /\ In (key, names) t /\ In key (dkeys d) /\ In name names /\
        ~ In name (dkeys d) /\ e = KDependent key name /\ p = dotted c
    | VObject ob => exists d key y, v = VDict d /\ In (key, y) d /\ dget key (ov_data ob) = None /\ ~ matched E ob key /\
        (ov_addl ob = Some SFail \/ (ov_addl ob = None /\ ov_uneval ob = true)) /\
        e = KFail /\ p = dotted (c ++ [key])
    | VContains _ mn mx => ((e = KMinContains mn) \/ (exists z, mx = Some z /\ e = KMaxContains z)) /\ p = dotted c
    | VUnique => e = KUnique /\ exists l i, iterable v l /\ first_repeat l i /\ p = dotted c ++ nat_str i
    | VOneOf _ => e = KOneOf /\ p = dotted c
    | VNot _ => e = KNot /\ p = dotted c
    | VArray _ _ => e = KType [u "array"] /\ p = [] /\ forall l, v <> VList l
    | _ => False
    end.

  Section Fixed.
    Hypothesis Hquiet : quiet_env E.
    Hypothesis Hview : forall n e, view n <> Raise (EValid e).
    Variable rec : node -> pv -> ctx -> res unit.

    Lemma prefix_hands lf ps vals i c e : prefix_loop rec lf ps vals i c = Raise (EValid e) ->
      exists j m x, nth_error ps j = Some m /\ (nth_error vals j = Some x \/ nth_error vals j = None /\ x = VNone) /\
        rec m x (c ++ [nat_str j]) = Raise (EValid e).
    Proof.
      revert i; induction lf as [|lf IH]; intros i; cbn [prefix_loop]; [discriminate|]. intro H.
      destruct (nth_error ps i) as [p|] eqn:Hp; [|discriminate].
      destruct (nth_error vals i) as [x|] eqn:Hx; unfold ctx_add in H.
      - destruct (rec p x (c ++ [nat_str i])) as [[]|e'|] eqn:Hr; cbn [bind] in H; [exact (IH _ H)| |discriminate].
        injection H as ->. exists i, p, x. auto.
      - destruct (rec p VNone (c ++ [nat_str i])) as [[]|e'|] eqn:Hr; cbn [bind] in H; [exact (IH _ H)| |discriminate].
        injection H as ->. exists i, p, VNone. auto.
    Qed.
    Lemma items_hands n vals i c e : items_loop rec n vals i c = Raise (EValid e) ->
      exists j x, nth_error vals j = Some x /\ rec n x (c ++ [nat_str (i + j)]) = Raise (EValid e).
    Proof. intro H. exact (items_reject rec n vals i c e H). Qed.
    Lemma anyof_hands l v c last e : anyof_loop rec l v c last = Raise (EValid e) ->
      last = Some e \/ exists m, In m l /\ rec m v c = Raise (EValid e).
    Proof.
      revert last; induction l as [|n l IH]; intros last; cbn [anyof_loop].
      - destruct last as [e'|]; [|discriminate]. intros [= <-]. left. reflexivity.
      - destruct (try_valid (rec n v c)) as [[e'|]|e'|] eqn:Ht; cbn [bind]; try discriminate.
        + apply try_some in Ht. intro H. destruct (IH _ H) as [[= ->]|(m & Hm & Hr)]; right; [exists n|exists m]; simpl; auto.
        + intros [= ->]. exfalso. exact (try_raise _ _ Ht).
    Qed.
    Lemma oneof_hands l v c k last e : oneof_loop rec l v c k last = Raise (EValid e) ->
      last = Some e \/ e = VErr KOneOf (dotted c) \/ exists m, In m l /\ rec m v c = Raise (EValid e).
    Proof.
      revert k last; induction l as [|n l IH]; intros k last; cbn [oneof_loop].
      - destruct k as [|[|k]]; [destruct last as [e'|]; [|discriminate]; intros [= <-]; left; reflexivity|discriminate|].
        intro H. apply raise_verr_is in H. rewrite dotted_path in H. auto.
      - destruct (try_valid (rec n v c)) as [[e'|]|e'|] eqn:Ht; cbn [bind]; try discriminate.
        + apply try_some in Ht. intro H. destruct (IH _ _ H) as [[= ->]|[->|(m & Hm & Hr)]]; right; [right; exists n|left|right; exists m]; simpl; auto.
        + intro H. destruct (IH _ _ H) as [->|[->|(m & Hm & Hr)]]; [left|right; left|right; right; exists m]; simpl; auto.
        + intros [= ->]. exfalso. exact (try_raise _ _ Ht).
    Qed.
    Lemma member_hands ob c key x e : member_validate E rec ob c (key, x) = Raise (EValid e) ->
      (exists m, ov_names ob = Some m /\ rec m (VStr key) (c ++ [key]) = Raise (EValid e)) \/
      (exists m, dget key (ov_data ob) = Some m /\ rec m x (c ++ [key]) = Raise (EValid e)) \/
      (dget key (ov_data ob) = None /\
        ((exists m pats p, ov_pat ob = Some pats /\ In (p, m) pats /\ re_search E p key = true /\ rec m x (c ++ [key]) = Raise (EValid e)) \/
         (~ matched E ob key /\
           ((exists m, ov_addl ob = Some (SLazy m) /\ rec m x (c ++ [key]) = Raise (EValid e)) \/
            ((ov_addl ob = Some SFail \/ (ov_addl ob = None /\ ov_uneval ob = true)) /\ e = VErr KFail (dotted (c ++ [key]))))))).
    Proof.
      unfold member_validate, ctx_add. intro H.
      destruct (ov_names ob) as [s|].
      1: destruct (rec s (VStr key) (c ++ [key])) as [[]|e'|] eqn:Hr; cbn [bind] in H; [| |discriminate].
      2: { injection H as ->. left. exists s. auto. }
      all: right; destruct (dget key (ov_data ob)) as [n|] eqn:Hd; [left; exists n; auto|right; split; [reflexivity|]].
      all: cbn [bind] in H;
        destruct (match ov_pat ob with Some pats => pattern_loop E rec pats key x c false | None => Ok false end) as [b|e'|] eqn:Hl;
        cbn [bind] in H; [| |discriminate].
      all: try (left; injection H as ->; destruct (ov_pat ob) as [pats|]; [|discriminate];
          apply pattern_loop_reject in Hl as (p & n & Hin & Hs & Hr'); exists n, pats, p; auto; fail).
      all: right; destruct b; [discriminate|].
      all: split; [intros (pats & p & n & Hp & Hin & Hs); rewrite Hp in Hl; apply pattern_loop_flag in Hl;
          assert (Hex : existsb (fun pn => re_search E (fst pn) key) pats = true) by (apply existsb_exists; exists (p, n); auto);
          rewrite Hex in Hl; discriminate|].
      all: destruct (ov_addl ob) as [[|n]|]; cbn [run_sub] in H;
        [right; split; [left; reflexivity|]; apply raise_verr_is in H; rewrite dotted_path in H; exact H
        |left; exists n; auto
        |destruct (ov_uneval ob); [|discriminate]; right; split; [right; auto|]; apply raise_verr_is in H; rewrite dotted_path in H; exact H].
    Qed.

    Lemma run_says lf o v c e : run_vobj view E rec lf o v c = Raise (EValid e) ->
      (exists q m x, vhands rec c o v q m x /\ rec m x (c ++ q) = Raise (EValid e)) \/
      vsays c o v (ve_kind e) (ve_path e).
    Proof.
      intro H.
      assert (Hcmp : forall (m : res bool) k, (forall x, m <> Raise (EValid x)) ->
                (b <- m ;; if b then raise_verr k (ctx_path c) else Ok tt) = Raise (EValid e) -> e = VErr k (dotted c)).
      { intros m k Hm Hr. apply (bind_if_raise m true) in Hr as [_ ->]; [|exact Hm]. rewrite dotted_path. reflexivity. }
      assert (Hmin : forall k n, min_len_validate k n v c = Raise (EValid e) -> e = VErr k (dotted c)).
      { intros k n Hr. unfold min_len_validate in Hr. destruct (py_len v) as [s|x|] eqn:Hs; cbn [bind] in Hr; try discriminate.
        - destruct (s >=? n); [discriminate|]. apply raise_verr_is in Hr. rewrite dotted_path in Hr. exact Hr.
        - injection Hr as ->. destruct v; discriminate. }
      assert (Hmax : forall k n, max_len_validate k n v c = Raise (EValid e) -> e = VErr k (dotted c)).
      { intros k n Hr. unfold max_len_validate in Hr. destruct (py_len v) as [s|x|] eqn:Hs; cbn [bind] in Hr; try discriminate.
        - destruct (s <=? n); [discriminate|]. apply raise_verr_is in Hr. rewrite dotted_path in Hr. exact Hr.
        - injection Hr as ->. destruct v; discriminate. }
      destruct o; cbn [run_vobj vhands vsays] in *;
        try (right; first [rewrite (Hmin _ _ H)|rewrite (Hmax _ _ H)]; split; reflexivity).
      - right. apply raise_verr_is in H. rewrite dotted_path in H. subst e. auto.
      - right. unfold type_validate in H. destruct (str_mem (type_name v) expected); [discriminate|].
        destruct (_ && _); [discriminate|]. apply raise_verr_is in H. rewrite dotted_path in H. subst e. auto.
      - right. unfold enum_validate in H. destruct (is_bool v && negb (existsb is_nbool expected)).
        + apply raise_verr_is in H. rewrite dotted_path in H. subst e. auto.
        + destruct (if existsb is_nbool expected && py_eq v (VInt 1) || py_eq v (VInt 0)
                    then enum_tweak_loop view expected v else enum_in view expected v) as [[|]|x|] eqn:Hx; cbn [bind] in H; try discriminate.
          * apply raise_verr_is in H. rewrite dotted_path in H. subst e. auto.
          * injection H as ->. exfalso. destruct (_ || _); [eapply (tweak_quiet view Hview), Hx|eapply (enum_in_quiet view Hview), Hx].
      - right. unfold const_validate in H. destruct (_ && _).
        + apply raise_verr_is in H. rewrite dotted_path in H. subst e. auto.
        + destruct (eq_raw view expected v) as [[|]|x|] eqn:Hx; cbn [bind] in H; try discriminate.
          * apply raise_verr_is in H. rewrite dotted_path in H. subst e. auto.
          * injection H as ->. exfalso. eapply (eq_raw_quiet view Hview), Hx.
      - right. unfold maximum_validate in H. destruct exclusive; apply Hcmp in H; try (intro; apply cmp_quiet); subst e; auto.
      - right. unfold minimum_validate in H. destruct exclusive; apply Hcmp in H; try (intro; apply cmp_quiet); subst e; auto.
      - right. unfold multiple_of_validate in H. destruct (dec_of_value E v) as [q|x|] eqn:Hd; cbn [bind] in H; try discriminate.
        + unfold dec_rem_is_zero in H. cbv zeta in H. destruct (_ =? 0); [discriminate|]. destruct (_ <=? _); [discriminate|].
          cbn [bind] in H. destruct (_ =? 0); [discriminate|]. apply raise_verr_is in H. rewrite dotted_path in H. subst e. auto.
        + injection H as ->. exfalso. destruct v; try discriminate. exact (proj2 Hquiet _ _ Hd).
      - right. unfold format_validate in H. destruct (fmt E name) as [test|] eqn:Hf; [|discriminate].
        destruct (test v) as [[|]|x|] eqn:Ht; cbn [bind] in H; try discriminate.
        + apply raise_verr_is in H. rewrite dotted_path in H. subst e. auto.
        + injection H as ->. exfalso. exact (proj1 Hquiet _ _ _ _ Hf Ht).
      - right. unfold pattern_validate in H. destruct v as [| | | | |s| |]; try discriminate.
        destruct (re_search E p s); [discriminate|]. apply raise_verr_is in H. rewrite dotted_path in H. subst e. auto.
      - right. unfold required_validate in H. apply for_each_raise_in in H as (name & Hin & H).
        destruct (py_contains name v) as [[|]|x|] eqn:Hc; cbn [bind] in H; try discriminate.
        + apply raise_verr_is in H. rewrite dotted_path in H. subst e. exists name. split; [exact Hin|]. split; [|auto].
          intro Hn. apply py_contains_ok in Hn. congruence.
        + injection H as ->. destruct v; discriminate.
      - unfold object_validate in H. destruct v as [| | | | | | |d]; try discriminate.
        apply for_each_raise_in in H as ([key x] & Hin & H).
        destruct (member_hands _ _ _ _ _ H) as [(m & Hn & Hr)|[(m & Hd & Hr)|(Hd & [(m & pats & p & Hp & Hpm & Hs & Hr)|(Hm & [(m & Ha & Hr)|(Ha & ->)])])]].
        5: { right. exists d, key, x. auto 10. }
        all: left; exists [key], m; eexists; (split; [|exact Hr]); exists d, key, x.
        + auto 10.
        + auto 10.
        + split; [reflexivity|]. split; [reflexivity|]. split; [exact Hin|]. right. split; [reflexivity|]. right. split; [exact Hd|].
          left. exists pats, p. auto.
        + auto 10.
      - right. unfold dep_required_validate in H. destruct v as [| | | | | | |d]; try discriminate.
        apply for_each_raise_in in H as ([key its] & Hin & H).
        destruct (dmem key d) eqn:Hk; [|discriminate]. apply for_each_raise_in in H as (item & Hi & H).
        destruct (dmem item d) eqn:Hd; [discriminate|]. apply raise_verr_is in H. rewrite dotted_path in H. subst e.
        exists d, key, its, item. apply dmem_In in Hk. apply dmem_false in Hd. auto 10.
      - left. unfold dep_schemas_validate in H. destruct v as [| | | | | | |d]; try discriminate.
        apply for_each_raise_in in H as ([key n] & Hin & H).
        destruct (dmem key d) eqn:Hk; [|discriminate]. apply dmem_In in Hk.
        exists [], n, (VDict d). rewrite app_nil_r. split; [|exact H]. split; [reflexivity|]. split; [reflexivity|].
        exists d, key. auto.
      - unfold array_validate in H. destruct v as [| | | | | |vals|].
        7: { left. match type of H with bind ?m _ = _ => destruct m as [i|x|] eqn:Hp end; cbn [bind] in H; [| |discriminate].
             - destruct items as [n|]; [|discriminate]. apply items_hands in H as (j & x & Hx & Hr).
               exists [nat_str (i + j)], n, x. split; [|exact Hr]. exists vals, (i + j)%nat.
               split; [reflexivity|]. split; [reflexivity|]. right. split; [reflexivity|].
               split; [rewrite <- nth_error_skipn; exact Hx|].
               destruct prefix as [[|p0 ps]|]; simpl; [lia| |lia].
               apply prefix_loop_ok1 in Hp as [-> _]; simpl; lia.
             - injection H as ->. destruct prefix as [[|p0 ps]|]; try discriminate.
               apply prefix_hands in Hp as (j & m & x & Hm & Hx & Hr). exists [nat_str j], m, x. split; [|exact Hr].
               exists vals, j. split; [reflexivity|]. split; [reflexivity|]. left. exists (p0 :: ps). auto. }
        all: right; apply raise_verr_is in H; subst e; split; [reflexivity|]; split; [reflexivity|]; discriminate.
      - right. unfold contains_validate in H. destruct (py_iter v) as [l|x|] eqn:Hi; cbn [bind] in H; try discriminate.
        2: { injection H as ->. destruct v; discriminate. }
        destruct (count_valid rec c0 l) as [k|x|] eqn:Hc; cbn [bind] in H; try discriminate.
        2: { injection H as ->. exfalso. exact (count_raise rec _ _ _ Hc). }
        destruct (k <? mn); [apply raise_verr_is in H; rewrite dotted_path in H; subst e; auto|].
        destruct mx as [m|]; [|discriminate]. destruct (negb (m =? 0) && (k >? m)); [|discriminate].
        apply raise_verr_is in H; rewrite dotted_path in H; subst e. split; [|reflexivity]. right. eauto.
      - right. unfold unique_validate in H. destruct (py_iter v) as [l|x|] eqn:Hi; cbn [bind] in H; try discriminate.
        2: { injection H as ->. destruct v; discriminate. }
        apply py_iter_ok in Hi. apply unique_loop_raise in H as (pre & y & post & -> & -> & (s & [[]|Hsp] & Hse) & Hd & _ & Hh).
        assert (Hu : forall x, In x (pre ++ [y]) -> unstructured x) by (intros x Hx; apply unstructured_hashable, Hh, Hx).
        split; [reflexivity|]. eexists. exists (length pre). split; [exact Hi|]. rewrite dotted_path. split; [|reflexivity].
        apply In_nth_error in Hsp as [j Hj]. exists j, s, y.
        assert (Hlt : (j < length pre)%nat) by (apply nth_error_Some; congruence).
        split; [exact Hlt|]. split; [rewrite nth_error_app1 by exact Hlt; exact Hj|].
        split; [rewrite nth_error_app2 by lia; simpl; rewrite Nat.sub_diag; reflexivity|].
        split; [apply equal_values_eq; [apply Hu, in_or_app; left; eapply nth_error_In, Hj|apply Hu, in_or_app; right; left; reflexivity|exact Hse]|].
        apply all_different_distinct in Hd; [|intros x Hx; apply Hu, in_or_app; left; exact Hx].
        simpl. rewrite firstn_app, Nat.sub_diag, firstn_all. simpl. rewrite app_nil_r. exact Hd.
      - left. apply for_each_raise_in in H as (n & Hn & H). exists [], n, v. rewrite app_nil_r. auto.
      - left. apply anyof_hands in H as [H|(m & Hm & H)]; [discriminate|]. exists [], m, v. rewrite app_nil_r. auto.
      - apply oneof_hands in H as [H|[->|(m & Hm & H)]]; [discriminate|right; auto|].
        left. exists [], m, v. rewrite app_nil_r. auto.
      - right. unfold not_validate in H. destruct (try_valid (rec c0 v c)) as [[x|]|x|] eqn:Ht; cbn [bind] in H; try discriminate.
        + apply raise_verr_is in H. rewrite dotted_path in H. subst e. auto.
        + injection H as ->. exfalso. exact (try_raise _ _ Ht).
      - left. unfold cond_validate in H. destruct (cv_if c0) as [i|] eqn:Hi; [|discriminate].
        destruct (try_valid (rec i v c)) as [[x|]|x|] eqn:Ht; cbn [bind] in H; try discriminate.
        + apply try_some in Ht. destruct (cv_else c0) as [m|] eqn:Hm; [|discriminate]. exists [], m, v. rewrite app_nil_r.
          split; [|exact H]. split; [reflexivity|]. split; [reflexivity|]. right. eauto.
        + apply try_none in Ht. destruct (cv_then c0) as [m|] eqn:Hm; [|discriminate]. exists [], m, v. rewrite app_nil_r.
          split; [|exact H]. split; [reflexivity|]. split; [reflexivity|]. left. eauto.
        + injection H as ->. exfalso. exact (try_raise _ _ Ht).
    Qed.
  End Fixed.

  (** ** From validator objects back to keywords *)
  Section Object.
    Hypothesis Hwf : wf_view view.
    Variable fuel : nat.
    Notation rec := (validate view strx E voc fuel).
    Variables (n : node) (wn : nview node) (items : list (pystr * node)).
    Hypothesis Hn : view n = Ok wn.
    Hypothesis Hitems : nv_val wn = NObj items.

    Lemma operand_of k m w : In k voc -> dget (kw_key k) items = Some m -> view m = Ok w -> operand n items k m (nv_val w).
    Proof. intros Hk Hm Hw. split; [eauto|]. split; [exact Hk|]. split; [exact Hm|eauto]. Qed.

    (** the validator object a keyword with one of its own gets *)
    Lemma own_form k m w o : is_own k = true ->
      dget (kw_key k) items = Some m -> view m = Ok w -> own_result view strx E items k = Some o ->
      match k, nv_val w with
      | KwAllOf, NArr l => o = VAllOf l
      | KwAnyOf, NArr l => o = VAnyOf l
      | KwOneOf, NArr l => o = VOneOf l
      | KwConst, x => o = VConst x
      | KwContains, NObj _ => exists mn mx, opt_bound view items (u "minContains") = Ok mn /\ opt_bound view items (u "maxContains") = Ok mx /\
          o = VContains m (match mn with Some z => z | None => 1 end) mx
      | KwDependentRequired, NObj t => exists l, map_res (fun '(key, x) => s <- iter_strs view strx x ;; Ok (key, s)) t = Ok l /\ o = VDepRequired l
      | KwDependentSchemas, NObj t => o = VDepSchemas t
      | KwEnum, NArr _ => exists xs, o = VEnum xs
      | KwExclusiveMaximum, NNum d => exists ex, o = VMaximum d ex
      | KwMaximum, NNum d => exists ex, o = VMaximum d ex
      | KwExclusiveMinimum, NNum d => exists ex, o = VMinimum d ex
      | KwMinimum, NNum d => exists ex, o = VMinimum d ex
      | KwFormat, NStr f => o = VFormat f
      | KwPattern, NStr f => o = VPattern f
      | KwItems, NArr l => exists it, o = VArray it (Some l) /\
          (forall na, it = Some na -> exists wa, dget (u "additionalItems") items = Some na /\ view na = Ok wa /\ nv_val wa <> NBool true)
      | KwItems, _ => o = VArray (if is_true w then None else Some m) None
      | KwPrefixItems, NArr l => o = VArray None (Some l)
      | KwMaxItems, NNum d => o = VMaxItems (dec_int d)
      | KwMinItems, NNum d => o = VMinItems (dec_int d)
      | KwMaxLength, NNum d => o = VMaxLength (dec_int d)
      | KwMinLength, NNum d => o = VMinLength (dec_int d)
      | KwMaxProperties, NNum d => o = VMaxProps (dec_int d)
      | KwMinProperties, NNum d => o = VMinProps (dec_int d)
      | KwMultipleOf, NNum d => o = VMultipleOf d
      | KwNot, NObj _ => o = VNot m
      | KwRequired, NArr l => o = VRequired (map (item_str view strx) l)
      | KwType, NStr t => o = VType [t]
      | KwType, NArr l => o = VType (map (item_str view strx) l)
      | KwUniqueItems, NBool true => o = VUnique
      | _, _ => False
      end.
    Proof.
      intros Hk Hm Hw Ho.
      unfold own_result, apply, opnd, opnd_node in Ho. rewrite Hm in Ho. cbn [bind] in Ho. rewrite Hw in Ho. cbn [bind] in Ho.
      destruct k; try discriminate Hk; clear Hk;
        unfold as_arr, as_num, as_str, as_obj, put in Ho;
        repeat match type of Ho with
        | context [match nv_val w with _ => _ end] => destruct (nv_val w) eqn:?; cbn [bind] in Ho; try discriminate Ho
        | context [if nv_ref w then _ else _] => destruct (nv_ref w); cbn [bind] in Ho; try discriminate Ho
        | match bind ?r _ with _ => _ end = _ => destruct r eqn:?; cbn [bind] in Ho; try discriminate Ho
        | match (if ?b then _ else _) with _ => _ end = _ => destruct b eqn:?; cbn [bind] in Ho; try discriminate Ho
        | match (match ?r with _ => _ end) with _ => _ end = _ => destruct r eqn:?; cbn [bind] in Ho; try discriminate Ho
        end;
        cbn [dget dset fst snd] in Ho; try rewrite str_eqb_refl in Ho; try discriminate Ho; injection Ho as <-; eauto.
      all: try (cbn [dget] in Heqr; injection Heqr as <- <-; reflexivity).
      - cbn [dget] in Heqr. injection Heqr as <- <-. eexists. split; [reflexivity|]. intros na Hna.
        destruct (is_true a0) eqn:Ht; [discriminate|]. injection Hna as ->.
        destruct (dget (u "additionalItems") items) as [na'|] eqn:Hna; [|discriminate].
        injection Heqr1 as ->. exists a0. split; [reflexivity|]. split; [exact Heqr0|].
        intro Hx. unfold is_true in Ht. rewrite Hx in Ht. discriminate.
      - cbn [dget] in Heqr. injection Heqr as <- <-. eexists. split; [reflexivity|]. discriminate.
    Qed.

    (** the steps of a keyword with a validator of its own *)
    Lemma own_hands k m w o c v q m' x : is_own k = true -> In k voc ->
      dget (kw_key k) items = Some m -> view m = Ok w -> own_result view strx E items k = Some o ->
      vhands rec c o v q m' x -> hands c n v q m' x.
    Proof.
      intros Hk Hv Hm Hw Ho Hh. pose proof (operand_of k m w Hv Hm Hw) as Hop.
      pose proof (own_form k m w o Hk Hm Hw Ho) as Hf.
      assert (Harr : forall it l, (k = KwItems \/ k = KwPrefixItems) -> o = VArray it (Some l) -> nv_val w = NArr l ->
                (forall na, it = Some na -> k = KwItems /\
                   exists wa, dget (u "additionalItems") items = Some na /\ view na = Ok wa /\ nv_val wa <> NBool true) ->
                hands c n v q m' x).
      { intros it l Hki -> Hl Hit. rewrite Hl in Hop. cbn [vhands] in Hh.
        destruct Hh as (vals & i & -> & -> & [(ps & [= <-] & Hi & [Hx|[Hx ->]])|(-> & Hx & Hle)]).
        - eapply to_position; eassumption.
        - eapply to_missing; eassumption.
        - destruct (Hit _ eq_refl) as (-> & wa & Ha & Hwa & Hne). eapply to_rest; eassumption. }
      assert (Hone : k = KwItems -> o = VArray (if is_true w then None else Some m) None ->
                (forall ms, nv_val w <> NArr ms) -> hands c n v q m' x).
      { intros -> -> Hna. cbn [vhands] in Hh.
        destruct Hh as (vals & i & -> & -> & [(ps & [=] & _)|(Hit & Hx & Hle)]).
        destruct (is_true w) eqn:Ht; [discriminate|]. injection Hit as <-. eapply to_item; try eassumption.
        intro Hx'. unfold is_true in Ht. rewrite Hx' in Ht. discriminate. }
      destruct k; try discriminate Hk; destruct (nv_val w) as [|b| | |l|t] eqn:Hx; try contradiction Hf;
        try (destruct b; try contradiction Hf);
        repeat match type of Hf with exists _, _ => destruct Hf as [? Hf] | _ /\ _ => let H := fresh in destruct Hf as [H Hf] end;
        subst o; cbn [vhands] in Hh; try contradiction Hh;
        try (apply Hone; [reflexivity|reflexivity|discriminate]).
      - destruct Hh as (-> & -> & Hin). eapply to_branch; [|exact Hop|exact Hin]; auto.
      - destruct Hh as (-> & -> & Hin). eapply to_branch; [|exact Hop|exact Hin]; auto.
      - destruct Hh as (-> & -> & d & key & -> & Hk' & Hin). eapply to_dependent; eassumption.
      - eapply Harr; [left; reflexivity|reflexivity|reflexivity|]. intros na Hna. split; [reflexivity|]. apply Hf, Hna.
      - destruct Hh as (-> & -> & Hin). eapply to_branch; [|exact Hop|exact Hin]; auto.
      - eapply Harr; [right; reflexivity|reflexivity|reflexivity|]. discriminate.
    Qed.

    Lemma map_pairs_in (t : list (pystr * node)) l key names : map_res (fun '(key, x) => s <- iter_strs view strx x ;; Ok (key, s)) t = Ok l ->
      In (key, names) l -> exists m, In (key, m) t /\ iter_strs view strx m = Ok names.
    Proof.
      revert l; induction t as [|[k m] t IH]; intros l; cbn [map_res].
      - intros [= <-] [].
      - intro H. apply bind_Ok in H as ([k' s] & H1 & H). apply bind_Ok in H1 as (s' & Hs & H1). injection H1 as <- <-.
        apply bind_Ok in H as (l' & Hl & H). injection H as <-. intros [[= <- <-]|Hin]; [exists m; simpl; auto|].
        destruct (IH l' Hl Hin) as (m' & Hm & Hi). exists m'. simpl. auto.
    Qed.

    Lemma accept_not_reject : forall n v c e, Accepts n v c -> rec n v c <> Raise (EValid e).
    Proof. intros n0 v c e Ha Hr. eapply accepts_not_rejects; [exact Ha|]. exists fuel, e. exact Hr. Qed.
    Lemma reject_not_accept : forall n v c, Rejects n v c -> rec n v c <> Ok tt.
    Proof. intros n0 v c Hr Ha. eapply accepts_not_rejects; [|exact Hr]. exists fuel. exact Ha. Qed.

    (** the complaints of a keyword with a validator of its own *)
    Lemma own_accuses k m w o c v e p lf : is_own k = true -> In k voc ->
      dget (kw_key k) items = Some m -> view m = Ok w -> own_result view strx E items k = Some o ->
      applies view strx E items k ->
      run_vobj view E rec lf o v c = Raise (EValid (VErr e p)) ->
      vsays c o v e p -> accuses c n v (VErr e p).
    Proof.
      intros Hk Hv Hm Hw Ho Hap Hrun Hs.
      assert (Hnot : ~ demands view strx E voc Accepts Rejects items k m (nv_val w) v c).
      { intro Hd. apply (own_demands view strx E voc Accepts Rejects items k m w v c Hk Hm Hw Hap) with (o := o) in Hd; [|exact Ho].
        exact (reject_sound view E rec Accepts Rejects accept_not_reject reject_not_accept lf o v c _ Hrun Hd). }
      apply by_keyword with (items := items) (k := k) (o := m) (x := nv_val w);
        [exact (operand_of k m w Hv Hm Hw)|exact Hnot| |]; clear Hnot Hrun;
        pose proof (own_form k m w o Hk Hm Hw Ho) as Hf;
        (destruct k; try discriminate Hk; destruct (nv_val w) as [|b| | |l|t] eqn:Hx; try contradiction Hf;
        try (destruct b; try contradiction Hf);
        repeat match type of Hf with exists _, _ => destruct Hf as [? Hf] | _ /\ _ => let H := fresh in destruct Hf as [H Hf] end;
        try (subst o; cbn [vsays] in Hs; try contradiction Hs);
        try (destruct Hs as [-> ->]; cbn [complaint path_text]; auto; fail)).
      all: try (destruct Hs as (-> & -> & Hnl); cbn [complaint path_text]; auto; fail).
      all: try (destruct Hs as (-> & Hu); cbn [complaint path_text]; auto; fail).
      - destruct Hs as [He ->]. destruct (opt_bound_iff view items _ _ H) as [H1 H2]. destruct (opt_bound_iff view items _ _ H0) as [H3 H4].
        destruct He as [->|(z & -> & ->)]; cbn [complaint]; [|apply H3; reflexivity].
        destruct x as [z|]; [left; apply H1; reflexivity|right]. split; [apply H2; reflexivity|reflexivity].
      - destruct Hs as (d & key & names & name & -> & Hin & Hkey & Hname & Hno & -> & ->). cbn [complaint].
        destruct (map_pairs_in _ _ _ _ H Hin) as (m' & Hm' & Hi). exists m', names, d. auto 10.
      - destruct Hs as (name & Hin & Hno & -> & ->). cbn [complaint]. split; [|exact Hno].
        apply in_map_iff in Hin as (m' & <- & Hin). eauto.
      - destruct Hs as [He ->]. destruct He as [->|(z & -> & ->)]; reflexivity.
      - destruct Hs as (d & key & names & name & -> & Hin & Hkey & Hname & Hno & -> & ->). reflexivity.
      - destruct Hs as (name & Hin & Hno & -> & ->). reflexivity.
    Qed.

    Hypothesis Happ : Forall (applies view strx E items) (actives items voc).
    Notation done := (rev (actives items voc)).
    Notation O := (objv_of view items done).

    Lemma done_operand k : akw_mem k done = true -> exists m w, dget (kw_key k) items = Some m /\ view m = Ok w /\ operand n items k m (nv_val w).
    Proof.
      intro Hk. destruct (applies_view view strx E items k (done_applies view strx E voc items Happ k Hk)) as (m & w & Hm & Hw).
      exists m, w. split; [exact Hm|]. split; [exact Hw|]. apply operand_of; [|exact Hm|exact Hw]. apply done_mem in Hk. tauto.
    Qed.
    Lemma undeclared key : dget key (ov_data O) = None -> ~ declared view voc items key.
    Proof.
      intros Hd Hdec. apply (O_data view strx E voc Accepts Rejects items Happ) in Hdec. apply dget_None in Hd. contradiction.
    Qed.
    Lemma unmatched key : ~ matched E O key -> ~ pattern_matched view E voc items key.
    Proof. intros Hm Hp. apply Hm. apply (O_matched view strx E voc Accepts Rejects items Happ). exact Hp. Qed.

    Lemma fam_hands c v q m' x : vhands rec c (VObject O) v q m' x -> hands c n v q m' x.
    Proof.
      cbn [vhands]. intros (d & key & y & -> & -> & Hin & [[Hn' ->]|(-> & [Hd|(Hd & [(pats & p & Hp & Hpm & Hs)|(Hm & Ha)])])]).
      - cbn [objv_of ov_names] in Hn'. destruct (akw_mem KwPropertyNames done) eqn:Hk; [|discriminate].
        destruct (done_operand _ Hk) as (m & w & Hm & Hw & Hop). unfold onode in Hn'. rewrite Hm in Hn'. injection Hn' as <-.
        eapply to_name; eassumption.
      - cbn [objv_of ov_data] in Hd. destruct (akw_mem KwProperties done) eqn:Hk; [|discriminate].
        destruct (done_operand _ Hk) as (m & w & Hm & Hw & Hop). unfold oview in Hd. rewrite Hm, Hw in Hd.
        destruct (nv_val w) as [| | | | |props]; try discriminate. eapply to_property; eassumption.
      - apply (O_pat view strx E voc Accepts Rejects items Happ) in Hp as (Hv & m & w & Hm & Hw & Hx).
        eapply to_pattern; [|exact Hpm|exact Hs|exact (undeclared key Hd)|exact Hin].
        rewrite <- Hx. exact (operand_of KwPatternProperties m w Hv Hm Hw).
      - cbn [objv_of ov_addl] in Ha. destruct (akw_mem KwAdditionalProperties done) eqn:Hk; [|discriminate].
        destruct (done_operand _ Hk) as (m & w & Hm' & Hw & Hop). unfold oview, onode in Ha. rewrite Hm', Hw in Ha.
        eapply to_additional with (x := nv_val w); [| |exact (undeclared key Hd)|exact (unmatched key Hm)|exact Hin].
        + destruct (nv_val w) as [|[]| | | |]; try discriminate. simpl in Ha. injection Ha as <-. exact Hop.
        + intro Ht. rewrite Ht in Ha. discriminate.
    Qed.
    Lemma fam_says c v e p : vsays c (VObject O) v e p ->
      exists q m y, hands c n v q m y /\ accuses (c ++ q) m y (VErr e p).
    Proof.
      cbn [vsays]. intros (d & key & y & -> & Hin & Hd & Hm & Hf & -> & ->).
      cbn [objv_of ov_addl ov_uneval] in Hf. destruct Hf as [Ha|[Ha Hu]].
      - destruct (akw_mem KwAdditionalProperties done) eqn:Hk; [|discriminate].
        destruct (done_operand _ Hk) as (m & w & Hm' & Hw & Hop). unfold oview, onode in Ha. rewrite Hm', Hw in Ha.
        exists [key], m, y. split.
        + eapply to_additional with (x := nv_val w); [exact Hop| |exact (undeclared key Hd)|exact (unmatched key Hm)|exact Hin].
          intro Ht. rewrite Ht in Ha. discriminate.
        + eapply by_false; [exact Hw|]. destruct (nv_val w) as [|[]| | | |]; try discriminate. reflexivity.
      - destruct (akw_mem KwUnevaluatedProperties done) eqn:Hk; [|discriminate].
        destruct (done_operand _ Hk) as (m & w & Hm' & Hw & Hop). unfold oview in Hu. rewrite Hm', Hw in Hu.
        assert (Hb : nv_val w = NBool false) by (destruct (nv_val w) as [|[]| | | |]; try discriminate; reflexivity).
        rewrite Hb in Hop. exists [key], m, y. split; [|eapply by_false; [exact Hw|exact Hb]].
        eapply to_unevaluated; [exact Hop|exact (undeclared key Hd)|exact (unmatched key Hm)| |exact Hin].
        intros (Hv & m2 & w2 & Hm2 & Hw2 & Hne).
        pose proof (proj2 (done_mem_voc strx voc Accepts Rejects items KwAdditionalProperties m2 Hm2) Hv) as Hk2. rewrite Hk2 in Ha.
        destruct (applies_fam view strx E items KwAdditionalProperties eq_refl (done_applies view strx E voc items Happ _ Hk2))
          as (m3 & w3 & Hm3 & Hw3 & Hx3). cbn [kw_key] in Hm3.
        unfold oview, onode in Ha. cbn [kw_key] in Ha. rewrite Hm3, Hw3 in Ha.
        rewrite Hm2 in Hm3. injection Hm3 as <-. rewrite Hw2 in Hw3. injection Hw3 as <-.
        destruct (nv_val w2) as [|[]| | | |]; try contradiction; try discriminate; congruence.
    Qed.
    Lemma cond_hands c v q m' x : vhands rec c (VCond (condv_of items done)) v q m' x -> hands c n v q m' x.
    Proof.
      cbn [vhands condv_of cv_if cv_then cv_else].
      intros (-> & -> & [(i & Hi & Hr & Ht)|(i & e & Hi & Hr & Ht)]).
      - destruct (akw_mem KwIf done) eqn:Hk; [|discriminate]. destruct (akw_mem KwThen done) eqn:Hk'; [|discriminate].
        destruct (done_operand _ Hk) as (m & w & Hm & Hw & Hop). destruct (done_operand _ Hk') as (m2 & w2 & Hm2 & Hw2 & Hop2).
        unfold onode in *. rewrite Hm in Hi. injection Hi as <-. rewrite Hm2 in Ht. injection Ht as <-.
        eapply to_then; [exact Hop|exact Hop2|]. exists fuel. exact Hr.
      - destruct (akw_mem KwIf done) eqn:Hk; [|discriminate]. destruct (akw_mem KwElse done) eqn:Hk'; [|discriminate].
        destruct (done_operand _ Hk) as (m & w & Hm & Hw & Hop). destruct (done_operand _ Hk') as (m2 & w2 & Hm2 & Hw2 & Hop2).
        unfold onode in *. rewrite Hm in Hi. injection Hi as <-. rewrite Hm2 in Ht. injection Ht as <-.
        eapply to_else; [exact Hop|exact Hop2|]. exists fuel, e. exact Hr.
    Qed.
  End Object.

  Lemma run_kws_plain w l : forall d d', (forall items, nv_val w <> NObj items) -> run_kws view strx E w l d = Ok d' -> d' = d.
  Proof.
    induction l as [|k l IH]; intros d d' Hw; cbn [run_kws]; [intros [= <-]; reflexivity|].
    intro H. apply bind_Ok in H as (d1 & H1 & H). unfold step_kw in H1. apply bind_Ok in H1 as (b & _ & H1).
    destruct b; [destruct (nv_val w) as [| | | | |it]; try discriminate; destruct (Hw it eq_refl)|]. injection H1 as <-. exact (IH _ _ Hw H).
  Qed.

  (** ** Every rejection *)
  Hypothesis Hquiet : quiet_env E.
  Hypothesis Hview : forall n e, view n <> Raise (EValid e).
  Hypothesis Hwf : wf_view view.

  Lemma validate_blamed fuel : forall n v c e, validate view strx E voc fuel n v c = Raise (EValid e) ->
    exists p m y, held c n v p m y /\ accuses (c ++ p) m y e.
  Proof.
    induction fuel as [|f IH]; intros n v c e; cbn [validate]; [discriminate|].
    destruct (compile view strx E voc n) as [d|x|] eqn:Hc; cbn [bind]; [| |discriminate].
    2: { intros [= ->]. exfalso. exact (compile_quiet view strx E voc Hview n e Hc). }
    intro H. apply for_each_raise_in in H as ([key o] & Hin & H). cbn [snd] in H.
    assert (Hstep : forall q m x, hands c n v q m x -> (exists p m' y, held (c ++ q) m x p m' y /\ accuses (c ++ q ++ p) m' y e) ->
              exists p m y, held c n v p m y /\ accuses (c ++ p) m y e).
    { intros q m x Hh (p & m' & y & Hheld & Hac). exists (q ++ p), m', y. split; [eapply held_on; eassumption|exact Hac]. }
    assert (Hgo : forall q m x, hands c n v q m x -> validate view strx E voc f m x (c ++ q) = Raise (EValid e) ->
              exists p m y, held c n v p m y /\ accuses (c ++ p) m y e).
    { intros q m x Hh Hr. destruct (IH _ _ _ _ Hr) as (p & m' & y & Hheld & Hac). apply (Hstep q m x Hh).
      exists p, m', y. rewrite app_assoc. auto. }
    assert (Hhere : accuses c n v e -> exists p m y, held c n v p m y /\ accuses (c ++ p) m y e).
    { intro Ha. exists [], n, v. rewrite app_nil_r. split; [constructor|exact Ha]. }
    pose proof (run_says Hquiet Hview (validate view strx E voc f) f o v c e H) as Hsay.
    unfold compile in Hc. destruct (view n) as [w|x|] eqn:Hn; cbn [bind] in Hc; try discriminate.
    destruct (nv_val w) as [|b| | | |items] eqn:Hw.
    2: { injection Hc as <-. destruct b; [destruct Hin|]. destruct Hin as [[= <- <-]|[]]. destruct Hsay as [(q & m & x & [] & _)|[Hk Hp]].
         apply Hhere. destruct e as [k p]. cbn in Hk, Hp. subst k p. eapply by_false; eassumption. }
    5: { assert (Hwfi : wf_operands view items) by (intros k n' w' m _ H1 H2; exact (Hwf n' w' m H1 H2)).
         assert (Hc' : compile view strx E voc n = Ok d) by (unfold compile; rewrite Hn; cbn [bind]; rewrite Hw; exact Hc).
         destruct (compile_inv view strx E items Hwfi w Hw voc n d Hn Hc') as [[Hnd Hexp] Happ].
         apply (In_dget _ _ _ Hnd) in Hin. rewrite Hexp in Hin. unfold expected in Hin.
         destruct e as [k0 p0]. cbn [ve_kind ve_path] in Hsay.
         destruct (str_eqb key (u "properties")) eqn:H1; [|destruct (str_eqb key (u "if")) eqn:H2].
         - destruct (existsb is_fam _); [|discriminate]. injection Hin as <-.
           destruct Hsay as [(q & m & x & Hh & Hr)|Hs].
           + eapply Hgo; [|exact Hr]. eapply fam_hands; eassumption.
           + destruct (fam_says n w items Hn Hw Happ c v k0 p0 Hs) as (q & m & y & Hh & Ha).
             apply (Hstep q m y Hh). exists [], m, y. rewrite app_nil_r. split; [constructor|exact Ha].
         - destruct (existsb is_cond _); [|discriminate]. injection Hin as <-.
           destruct Hsay as [(q & m & x & Hh & Hr)|[]].
           eapply Hgo; [|exact Hr]. eapply cond_hands; eassumption.
         - destruct (find _ _) as [k|] eqn:Hf; [|discriminate].
           apply find_some in Hf as [Hin' Hkey]. apply filter_In in Hin' as [Hin' Hk].
           apply akw_mem_In in Hin'. pose proof (done_applies view strx E voc items Happ k Hin') as Hap.
           destruct (applies_view view strx E items k Hap) as (m & w' & Hm & Hw').
           assert (Hv : In k voc) by (apply done_mem in Hin'; tauto).
           destruct Hsay as [(q & m' & x & Hh & Hr)|Hs].
           + eapply Hgo; [|exact Hr]. eapply own_hands; eassumption.
           + apply Hhere. eapply own_accuses; eassumption. }
    all: exfalso; apply run_kws_plain in Hc; [subst d; destruct Hin|rewrite Hw; discriminate].
  Qed.

  (** *** C87 *)
  (** every rejection, of every schema, value and vocabulary *)
  Theorem C87_blame n v c e : Outcome view strx E voc n v c (Raise (EValid e)) ->
    exists p m y, held c n v p m y /\ accuses (c ++ p) m y e.
  Proof. intros [_ [f H]]. exact (validate_blamed f n v c e H). Qed.

  (** the place is one that exists in the value, unless a member name or a
      missing array position was examined *)
  Lemma held_looked c n v p m y : held c n v p m y -> looked voc v p y.
  Proof.
    induction 1 as [c n v|c n v q m x p m' y Hh _ IH]; [constructor|].
    destruct Hh as [k items o l m v Hk Hop Hin|items i z m x v H1 H2 Ha|items i z m x v H1 H2 Ha|items o t key m d Hop Hin Hk
      |items m x key z d Hop Hin|items o props key m z d Hop Hk Hin|items o pats q m key z d Hop Hp Hs Hn Hin
      |items m x key z d Hop Hne Hn1 Hn2 Hin|items m key z d Hop Hn1 Hn2 Hn3 Hin|items m x i z l Hop Hn1 Hn2 Hi
      |k items o ms m i z l Hk Hop Hm Hi|k items o ms m i l Hk Hop Hm Hi|items o ms m w i z l Hop Hm Hw Hne Hle Hi]; cbn [app];
      try exact IH;
      try (eapply looked_member; eassumption); try (eapply looked_item; eassumption).
    - eapply looked_name; [|exact Hin|exact IH]. destruct Hop as (_ & Hv & _). exact Hv.
    - apply looked_absent; [|apply nth_error_None; exact Hi|exact IH].
      destruct Hop as (_ & Hv & _). destruct Hk as [-> | ->]; auto.
  Qed.
End Blame.

(** ** A rejection deep inside: an [anyOf] branch, an array item, a member *)
From Verif Require Import ScalarFacts PropsScalar ExBase.
Definition blame_schema : jt :=
  jobj [("properties", jobj [("list", jobj [("items", jobj [("anyOf", TArr [jobj [("type", jstr "string")]; jobj [("maximum", jnum 3)]])])])])]%string.
Definition blame_value : pv := jdict [("list", VList [VInt 1; VInt 7])]%string.
Local Ltac op := split; [eexists; split; reflexivity|split; [apply all_keywords_all|split; [reflexivity|eexists; split; reflexivity]]].
Example C87_some :
  (forall strx E, Outcome tview strx E all_keywords blame_schema blame_value [] (Raise (EValid (VErr (KMaximum (Dec 3 0)) (u "list.1"))))) /\
  (forall strx E, held tview strx E all_keywords [] blame_schema blame_value [u "list"; u "1"] (jobj [("maximum", jnum 3)]%string) (VInt 7)).
Proof.
  split.
  - intros. split; [discriminate|exists 8%nat; vm_compute; reflexivity].
  - intros strx E.
    refine (held_on tview strx E all_keywords _ _ _ [u "list"] (jobj [("items", jobj [("anyOf", TArr [jobj [("type", jstr "string")]; jobj [("maximum", jnum 3)]])])]%string) (VList [VInt 1; VInt 7]) [u "1"] _ _ _ _).
    { eapply to_property; [op|reflexivity|left; reflexivity]. }
    refine (held_on tview strx E all_keywords _ _ _ [u "1"] (jobj [("anyOf", TArr [jobj [("type", jstr "string")]; jobj [("maximum", jnum 3)]])]%string) (VInt 7) [] _ _ _ _).
    { change [u "1"] with [nat_str 1]. eapply to_item; [op|discriminate|discriminate|reflexivity]. }
    refine (held_on tview strx E all_keywords _ _ _ [] (jobj [("maximum", jnum 3)]%string) (VInt 7) [] _ _ _ _); [|constructor].
    eapply (to_branch _ _ _ _ _ _ KwAnyOf); [auto|op|right; left; reflexivity].
Qed.
Print Assumptions C87_blame.
