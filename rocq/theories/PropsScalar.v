(** Properties C04-C13 and C28: schemas whose keywords look at one value. *)
From Verif Require Import PyBase PyBaseFacts PyVal Errors Validators Keywords Spec LeafFacts Mono RunFacts KeywordFacts Master Claims ScalarFacts.
From Coq Require Import QArith Qabs ZifyBool.
Local Open Scope Z_scope.

(** the seven JSON type names *)
Definition type_names : list pystr :=
  [u "string"; u "integer"; u "number"; u "boolean"; u "array"; u "object"; u "null"].

(** [v] carries the number whose decimal text is [d]: an [int], a [Decimal] or a [float] *)
Definition carries (v : pv) (d : dec) : Prop :=
  match v with
  | VInt z => d = Dec z 0
  | VDec d' => d = d'
  | VFloat f => d = frepr f
  | _ => False
  end.
(** ... and this decimal text denotes exactly the carried number *)
Definition exactly (v : pv) (d : dec) : Prop := exists q, value_is v q /\ (dec_q d == q)%Q.

(** the six counting keywords, the values they count and the error they raise *)
Definition counts (k : akw) (v : pv) : Prop :=
  match k, v with
  | KwMinLength, VStr _ | KwMaxLength, VStr _ => True
  | KwMinItems, VList _ | KwMaxItems, VList _ => True
  | KwMinProperties, VDict _ | KwMaxProperties, VDict _ => True
  | _, _ => False
  end.
Definition is_lower (k : akw) : bool :=
  match k with KwMinLength | KwMinItems | KwMinProperties => true | _ => false end.
Definition count_error (k : akw) (z : Z) : vkind :=
  match k with
  | KwMinLength => KMinLength z | KwMaxLength => KMaxLength z
  | KwMinItems => KMinItems z | KwMaxItems => KMaxItems z
  | KwMinProperties => KMinProps z | _ => KMaxProps z
  end.

(** JSON types of an operand that a keyword cannot use *)
Definition unsupported {node} (k : akw) (x : nval node) : bool :=
  match k with
  | KwType => match x with NStr _ | NArr _ => false | _ => true end
  | KwConst => match x with NArr _ | NObj _ => true | _ => false end
  | KwEnum | KwAllOf | KwAnyOf | KwOneOf | KwPrefixItems | KwRequired =>
      match x with NArr _ => false | _ => true end
  | KwMaximum | KwMinimum | KwMultipleOf | KwMinLength | KwMaxLength | KwMinItems | KwMaxItems
  | KwMinProperties | KwMaxProperties => match x with NNum _ => false | _ => true end
  | KwExclusiveMaximum | KwExclusiveMinimum =>
      match x with NNum _ | NBool _ => false | _ => true end
  | KwFormat | KwPattern => match x with NStr _ => false | _ => true end
  | KwContains | KwDependentRequired | KwDependentSchemas | KwElse | KwIf | KwThen | KwNot
  | KwPatternProperties | KwProperties | KwPropertyNames => match x with NObj _ => false | _ => true end
  | KwAdditionalProperties => match x with NObj _ | NBool _ => false | _ => true end
  | KwUnevaluatedProperties | KwUniqueItems => match x with NBool _ => false | _ => true end
  | KwItems => match x with NArr _ | NObj _ | NBool _ => false | _ => true end
  end.

Section Props.
  Context {node : Type} (view : node -> res (nview node)) (strx : node -> pystr) (E : env).
  Variable voc : list akw.
  Hypothesis Hwf : wf_view view.
  Notation Accepts := (Accepts view strx E voc).
  Notation Outcome := (Outcome view strx E voc).
  Notation RejectsWith := (RejectsWith view strx E voc).
  Notation obj_at := (obj_at view).
  Notation val_at := (val_at view).
  Notation lone := (lone voc).

  (** a one-keyword schema compiled to a leaf validator [o]; [res] is its result *)
  Lemma leaf_accepts n items k m o v c (r : res unit) : obj_at n items -> lone items k m -> is_own k = true ->
    apply view strx E k items [] = Ok (put k o []) ->
    (forall rec lf, run_vobj view E rec lf o v c = r) ->
    Accepts n v c <-> r = Ok tt.
  Proof.
    intros Hn Hl Hk Ha Hr. split.
    - intros [[|f] H]; [discriminate|].
      rewrite (lone_validate view strx E voc Hwf n items k m o f v c Hn Hl Hk Ha), Hr in H. exact H.
    - intros ->. exists 1%nat. rewrite (lone_validate view strx E voc Hwf n items k m o 0 v c Hn Hl Hk Ha). apply Hr.
  Qed.
  Lemma leaf_rejects n items k m o v c kind : obj_at n items -> lone items k m -> is_own k = true ->
    apply view strx E k items [] = Ok (put k o []) ->
    (forall rec lf, run_vobj view E rec lf o v c = raise_verr kind (ctx_path c)) ->
    plain c -> RejectsWith n v c kind c.
  Proof.
    intros Hn Hl Hk Ha Hr Hc.
    apply (lone_leaf view strx E voc Hwf n items k m o v c _ Hn Hl Hk Ha); [|discriminate].
    intros rec lf. rewrite Hr. apply raise_at, Hc.
  Qed.

  (** ** C04: type *)
  Theorem C04_type n items m ts v c :
    obj_at n items -> lone items KwType m -> type_operand view m ts -> incl ts type_names ->
    (Accepts n v c <-> exists t, In t ts /\ has_type v t) /\
    (~ (exists t, In t ts /\ has_type v t) -> plain c -> RejectsWith n v c (KType ts) c).
  Proof.
    intros Hn Hl Hts Hinc. pose proof Hl as (_ & Hm & _).
    assert (Hb : forallb (fun t => str_mem t valid_types) ts = true).
    { apply forallb_forall. intros t Ht. apply str_mem_In. exact (Hinc t Ht). }
    assert (Ha : apply view strx E KwType items [] = Ok (put KwType (VType ts) [])).
    { destruct Hts as [(s & Hs & ->)|(l & Hs & Hf)]; unfold Claims.val_at in Hs.
      - kw_apply Hm Hs. rewrite Hb. reflexivity.
      - kw_apply Hm Hs. rewrite (names_item_str view strx l ts Hf), Hb. reflexivity. }
    split.
    - rewrite (leaf_accepts n items KwType m (VType ts) v c (type_validate ts v c) Hn Hl eq_refl Ha (fun _ _ => eq_refl)).
      apply type_validate_ok.
    - intros Hno Hc. apply (leaf_rejects n items KwType m (VType ts) v c (KType ts) Hn Hl eq_refl Ha); [|exact Hc].
      intros rec lf. apply type_raise, Hno.
  Qed.

  (** ** C05: enum of scalars *)
  Theorem C05_enum n items m l xs v c :
    obj_at n items -> lone items KwEnum m -> val_at m (NArr l) ->
    Forall2 val_at l xs -> Forall scalar xs ->
    (Accepts n v c <-> exists x, In x xs /\ same_scalar x v) /\
    (~ (exists x, In x xs /\ same_scalar x v) -> plain c -> RejectsWith n v c KEnum c).
  Proof.
    intros Hn Hl Hx Hf Hs. pose proof Hl as (_ & Hm & _). unfold Claims.val_at in Hx.
    assert (Ha : apply view strx E KwEnum items [] = Ok (put KwEnum (VEnum xs) [])).
    { kw_apply Hm Hx. rewrite (enum_items_at view l xs Hf). reflexivity. }
    assert (Hiff : enum_validate view xs v c = Ok tt <-> exists x, In x xs /\ same_scalar x v).
    { rewrite enum_validate_ok. apply enum_scalars. apply Forall_forall, Hs. }
    split.
    - rewrite (leaf_accepts n items KwEnum m (VEnum xs) v c (enum_validate view xs v c) Hn Hl eq_refl Ha (fun _ _ => eq_refl)).
      exact Hiff.
    - intros Hno Hc. apply (leaf_rejects n items KwEnum m (VEnum xs) v c KEnum Hn Hl eq_refl Ha); [|exact Hc].
      intros rec lf. destruct (enum_scalar_total view xs v c Hs) as [H|H]; [exfalso; tauto|exact H].
  Qed.

  (** ** C06: const *)
  Theorem C06_const n items m x v c :
    obj_at n items -> lone items KwConst m -> val_at m x -> scalar x ->
    (Accepts n v c <-> same_scalar x v) /\
    (~ same_scalar x v -> plain c -> RejectsWith n v c KConst c).
  Proof.
    intros Hn Hl Hx Hs. pose proof Hl as (_ & Hm & _). unfold Claims.val_at in Hx.
    assert (Ha : apply view strx E KwConst items [] = Ok (put KwConst (VConst x) [])).
    { kw_apply Hm Hx. destruct x; try contradiction; reflexivity. }
    pose proof (const_validate_ok view x v c Hs) as Hiff.
    split.
    - rewrite (leaf_accepts n items KwConst m (VConst x) v c (const_validate view x v c) Hn Hl eq_refl Ha (fun _ _ => eq_refl)).
      exact Hiff.
    - intros Hno Hc. apply (leaf_rejects n items KwConst m (VConst x) v c KConst Hn Hl eq_refl Ha); [|exact Hc].
      intros rec lf. destruct (const_scalar_total view x v c Hs) as [H|H]; [exfalso; tauto|exact H].
  Qed.

  (** ** C08: numeric bounds *)
  (** no vocabulary keyword other than these occurs in the schema *)
  Definition only (items : list (pystr * node)) (ks : list akw) : Prop :=
    forall k, In k voc -> In (kw_key k) (dkeys items) -> In k ks.
  (** the legacy boolean [exclusive...] member: absent ([false]) or a boolean *)
  Definition legacy_flag (items : list (pystr * node)) (key : pystr) (b : bool) : Prop :=
    (dget key items = None /\ b = false) \/ (exists m, dget key items = Some m /\ val_at m (NBool b)).

  Lemma legacy_exclusive items key b : legacy_flag items key b -> exclusive_flag view items key = Ok b.
  Proof.
    unfold exclusive_flag, opnd, dmem. intros [[-> ->]|(m & Hm & Hv)]; [reflexivity|].
    unfold Claims.val_at in Hv. rewrite Hm. rewrite Hv. reflexivity.
  Qed.
  Lemma sole_accepts n k o v c (r : res unit) :
    compile view strx E voc n = Ok [(kw_key k, o)] ->
    (forall rec lf, run_vobj view E rec lf o v c = r) ->
    (Accepts n v c <-> r = Ok tt) /\ (r <> OutOfFuel -> Outcome n v c r).
  Proof.
    intros Hc Hr.
    assert (Hv : forall f, validate view strx E voc (S f) n v c = r).
    { intro f. cbn [validate]. rewrite Hc. cbn [bind]. rewrite for_each_one. apply Hr. }
    split; [split|].
    - intros [[|f] H]; [discriminate|]. rewrite Hv in H. exact H.
    - intros ->. exists 1%nat. apply Hv.
    - intro Hne. split; [exact Hne|]. exists 1%nat. apply Hv.
  Qed.
  Lemma maximum_compile n items m d b :
    obj_at n items -> In KwMaximum voc -> only items [KwMaximum; KwExclusiveMaximum] ->
    dget (u "maximum") items = Some m -> val_at m (NNum d) -> legacy_flag items (u "exclusiveMaximum") b ->
    compile view strx E voc n = Ok [(u "maximum", VMaximum d b)].
  Proof.
    intros Hn Hv Ho Hm Hx Hfl. unfold Claims.val_at in Hx.
    apply (sole_compile view strx E voc Hwf n items KwMaximum m (VMaximum d b) Hn Hv Hm); [|reflexivity|].
    - intros k' Hk' Hin. destruct (Ho k' Hk' Hin) as [<-|[<-|[]]]; [left; reflexivity|right].
      split; [reflexivity|]. destruct Hfl as [[H0 _]|(m' & Hm' & Hv')].
      + apply dget_None in H0. contradiction.
      + unfold Claims.val_at in Hv'. change (u "exclusiveMaximum") with (kw_key KwExclusiveMaximum) in Hm'.
        kw_apply Hm' Hv'. unfold dmem. rewrite Hm. reflexivity.
    - change (u "maximum") with (kw_key KwMaximum) in Hm. kw_apply Hm Hx.
      rewrite (legacy_exclusive items _ b Hfl). reflexivity.
  Qed.
  Lemma minimum_compile n items m d b :
    obj_at n items -> In KwMinimum voc -> only items [KwMinimum; KwExclusiveMinimum] ->
    dget (u "minimum") items = Some m -> val_at m (NNum d) -> legacy_flag items (u "exclusiveMinimum") b ->
    compile view strx E voc n = Ok [(u "minimum", VMinimum d b)].
  Proof.
    intros Hn Hv Ho Hm Hx Hfl. unfold Claims.val_at in Hx.
    apply (sole_compile view strx E voc Hwf n items KwMinimum m (VMinimum d b) Hn Hv Hm); [|reflexivity|].
    - intros k' Hk' Hin. destruct (Ho k' Hk' Hin) as [<-|[<-|[]]]; [left; reflexivity|right].
      split; [reflexivity|]. destruct Hfl as [[H0 _]|(m' & Hm' & Hv')].
      + apply dget_None in H0. contradiction.
      + unfold Claims.val_at in Hv'. change (u "exclusiveMinimum") with (kw_key KwExclusiveMinimum) in Hm'.
        kw_apply Hm' Hv'. unfold dmem. rewrite Hm. reflexivity.
    - change (u "minimum") with (kw_key KwMinimum) in Hm. kw_apply Hm Hx.
      rewrite (legacy_exclusive items _ b Hfl). reflexivity.
  Qed.

  (** [q] respects the upper / lower bound [d], strictly or not *)
  Definition below (strict : bool) (q d : Q) : Prop := if strict then (q < d)%Q else (q <= d)%Q.

  Lemma max_ok_below d b v q c : value_is v q ->
    maximum_validate d b v c = Ok tt <-> below b q (dec_q d).
  Proof.
    intro Hq. rewrite maximum_validate_ok. unfold below. split.
    - intros (q' & Hq' & H1 & H2). rewrite value_is_num in *. rewrite Hq in Hq'. injection Hq' as <-.
      destruct b; auto.
    - intro H. exists q. split; [exact Hq|]. destruct b; split; auto; try discriminate.
      apply Qlt_le_weak, H.
  Qed.
  Lemma min_ok_below d b v q c : value_is v q ->
    minimum_validate d b v c = Ok tt <-> below b (dec_q d) q.
  Proof.
    intro Hq. rewrite minimum_validate_ok. unfold below. split.
    - intros (q' & Hq' & H1 & H2). rewrite value_is_num in *. rewrite Hq in Hq'. injection Hq' as <-.
      destruct b; auto.
    - intro H. exists q. split; [exact Hq|]. destruct b; split; auto; try discriminate.
      apply Qlt_le_weak, H.
  Qed.
  Lemma max_claim n k d b v q c :
    compile view strx E voc n = Ok [(kw_key k, VMaximum d b)] -> value_is v q ->
    (Accepts n v c <-> below b q (dec_q d)) /\
    (~ below b q (dec_q d) -> plain c -> RejectsWith n v c (KMaximum d) c).
  Proof.
    intros Hco Hq.
    destruct (sole_accepts n k (VMaximum d b) v c (maximum_validate d b v c) Hco (fun _ _ => eq_refl)) as [Hiff Hout].
    pose proof (max_ok_below d b v q c Hq) as Hb. split; [rewrite Hiff; exact Hb|].
    intros Hno Hc. destruct (maximum_total d b v q c Hq) as [H|H]; [exfalso; tauto|].
    rewrite H, raise_at in Hout by exact Hc. apply Hout. discriminate.
  Qed.
  Lemma min_claim n k d b v q c :
    compile view strx E voc n = Ok [(kw_key k, VMinimum d b)] -> value_is v q ->
    (Accepts n v c <-> below b (dec_q d) q) /\
    (~ below b (dec_q d) q -> plain c -> RejectsWith n v c (KMinimum d) c).
  Proof.
    intros Hco Hq.
    destruct (sole_accepts n k (VMinimum d b) v c (minimum_validate d b v c) Hco (fun _ _ => eq_refl)) as [Hiff Hout].
    pose proof (min_ok_below d b v q c Hq) as Hb. split; [rewrite Hiff; exact Hb|].
    intros Hno Hc. destruct (minimum_total d b v q c Hq) as [H|H]; [exfalso; tauto|].
    rewrite H, raise_at in Hout by exact Hc. apply Hout. discriminate.
  Qed.

  Theorem C08_maximum n items m d b v q c :
    obj_at n items -> In KwMaximum voc -> only items [KwMaximum; KwExclusiveMaximum] ->
    dget (u "maximum") items = Some m -> val_at m (NNum d) -> legacy_flag items (u "exclusiveMaximum") b ->
    value_is v q ->
    (Accepts n v c <-> below b q (dec_q d)) /\
    (~ below b q (dec_q d) -> plain c -> RejectsWith n v c (KMaximum d) c).
  Proof.
    intros Hn Hv Ho Hm Hx Hfl Hq. apply (max_claim n KwMaximum); [|exact Hq].
    exact (maximum_compile n items m d b Hn Hv Ho Hm Hx Hfl).
  Qed.
  Theorem C08_minimum n items m d b v q c :
    obj_at n items -> In KwMinimum voc -> only items [KwMinimum; KwExclusiveMinimum] ->
    dget (u "minimum") items = Some m -> val_at m (NNum d) -> legacy_flag items (u "exclusiveMinimum") b ->
    value_is v q ->
    (Accepts n v c <-> below b (dec_q d) q) /\
    (~ below b (dec_q d) q -> plain c -> RejectsWith n v c (KMinimum d) c).
  Proof.
    intros Hn Hv Ho Hm Hx Hfl Hq. apply (min_claim n KwMinimum); [|exact Hq].
    exact (minimum_compile n items m d b Hn Hv Ho Hm Hx Hfl).
  Qed.
  Theorem C08_exclusive_maximum n items m d v q c :
    obj_at n items -> lone items KwExclusiveMaximum m -> val_at m (NNum d) -> value_is v q ->
    (Accepts n v c <-> (q < dec_q d)%Q) /\
    (~ (q < dec_q d)%Q -> plain c -> RejectsWith n v c (KMaximum d) c).
  Proof.
    intros Hn Hl Hx Hq. pose proof Hl as (_ & Hm & _). unfold Claims.val_at in Hx.
    apply (max_claim n KwExclusiveMaximum d true); [|exact Hq].
    apply (lone_compile view strx E voc Hwf n items _ m _ Hn Hl eq_refl). kw_apply Hm Hx. reflexivity.
  Qed.
  Theorem C08_exclusive_minimum n items m d v q c :
    obj_at n items -> lone items KwExclusiveMinimum m -> val_at m (NNum d) -> value_is v q ->
    (Accepts n v c <-> (dec_q d < q)%Q) /\
    (~ (dec_q d < q)%Q -> plain c -> RejectsWith n v c (KMinimum d) c).
  Proof.
    intros Hn Hl Hx Hq. pose proof Hl as (_ & Hm & _). unfold Claims.val_at in Hx.
    apply (min_claim n KwExclusiveMinimum d true); [|exact Hq].
    apply (lone_compile view strx E voc Hwf n items _ m _ Hn Hl eq_refl). kw_apply Hm Hx. reflexivity.
  Qed.

  (** ** C09: both bounds numeric. The exact behaviour: an exclusive bound equal
      to 1 is taken for the legacy [true] and makes the inclusive bound strict. *)
  Theorem C09_both_maxima n items mi me M X v q c :
    obj_at n items -> In KwMaximum voc -> In KwExclusiveMaximum voc ->
    only items [KwMaximum; KwExclusiveMaximum] ->
    dget (u "maximum") items = Some mi -> val_at mi (NNum M) ->
    dget (u "exclusiveMaximum") items = Some me -> val_at me (NNum X) ->
    value_is v q ->
    Accepts n v c <->
    (q <= dec_q M)%Q /\ (q < dec_q X)%Q /\ ((dec_q X == 1)%Q -> (q < dec_q M)%Q).
  Proof.
    intros (w & Hw & Hi) Hv1 Hv2 Ho Hmi HM Hme HX Hq. unfold Claims.val_at in HM, HX.
    assert (Hwfi : wf_operands view items) by (intros k0 n' w' m0 _ H1 H2; exact (Hwf n' w' m0 H1 H2)).
    assert (Hsf : strict_flag view items (u "exclusiveMaximum") <-> (dec_q X == 1)%Q).
    { split.
      - intros (n0 & w0 & H1 & H2 & H3). rewrite Hme in H1. injection H1 as <-. rewrite HX in H2. injection H2 as <-.
        destruct H3 as [H3|(d & H3 & H4)]; [discriminate|]. injection H3 as <-. exact H4.
      - intro H. exists me, (NView (NNum X) false). split; [exact Hme|]. split; [exact HX|]. right. exists X. auto. }
    rewrite (accepts_object view strx E voc Hwf n w items v c Hw Hi). split.
    - intros [_ H].
      pose proof (H KwMaximum mi _ Hv1 Hmi HM) as H1. pose proof (H KwExclusiveMaximum me _ Hv2 Hme HX) as H2.
      simpl in H1, H2. destruct H1 as (q1 & E1 & A1 & B1), H2 as (q2 & E2 & A2).
      rewrite value_is_num in *. rewrite Hq in E1, E2. injection E1 as <-. injection E2 as <-.
      rewrite Hsf in B1. auto.
    - intros (H1 & H2 & H3). split.
      + apply (compile_ok_iff view strx E items Hwfi w Hi voc n Hw). split.
        * apply Forall_forall. intros k Hk. apply filter_In in Hk as [Hk1 Hk2]. apply dmem_In in Hk2.
          destruct (Ho k Hk1 Hk2) as [<-|[<-|[]]]; unfold applies.
          -- change (u "maximum") with (kw_key KwMaximum) in Hmi. kw_apply Hmi HM.
             unfold exclusive_flag, dmem, opnd. rewrite Hme, HX. cbn [bind]. eauto.
          -- change (u "exclusiveMaximum") with (kw_key KwExclusiveMaximum) in Hme. kw_apply Hme HX. eauto.
        * intros (l1 & l2 & Heq & Hin & _).
          assert (Hin' : In KwItems (actives items voc)) by (rewrite Heq; apply in_or_app; left; exact Hin).
          apply filter_In in Hin' as [Hk1 Hk2]. apply dmem_In in Hk2.
          destruct (Ho KwItems Hk1 Hk2) as [?|[?|[]]]; discriminate.
      + intros k m w' Hk Hm Hmw.
        assert (Hk2 : In (kw_key k) (dkeys items)) by (apply dget_In, (in_map fst) in Hm; exact Hm).
        destruct (Ho k Hk Hk2) as [<-|[<-|[]]].
        * change (kw_key KwMaximum) with (u "maximum") in Hm. rewrite Hmi in Hm. injection Hm as <-.
          rewrite HM in Hmw. injection Hmw as <-. simpl. exists q. rewrite Hsf. auto.
        * change (kw_key KwExclusiveMaximum) with (u "exclusiveMaximum") in Hm.
          rewrite Hme in Hm. injection Hm as <-.
          rewrite HX in Hmw. injection Hmw as <-. simpl. exists q. auto.
  Qed.
  Theorem C09_both_minima n items mi me M X v q c :
    obj_at n items -> In KwMinimum voc -> In KwExclusiveMinimum voc ->
    only items [KwMinimum; KwExclusiveMinimum] ->
    dget (u "minimum") items = Some mi -> val_at mi (NNum M) ->
    dget (u "exclusiveMinimum") items = Some me -> val_at me (NNum X) ->
    value_is v q ->
    Accepts n v c <->
    (dec_q M <= q)%Q /\ (dec_q X < q)%Q /\ ((dec_q X == 1)%Q -> (dec_q M < q)%Q).
  Proof.
    intros (w & Hw & Hi) Hv1 Hv2 Ho Hmi HM Hme HX Hq. unfold Claims.val_at in HM, HX.
    assert (Hwfi : wf_operands view items) by (intros k0 n' w' m0 _ H1 H2; exact (Hwf n' w' m0 H1 H2)).
    assert (Hsf : strict_flag view items (u "exclusiveMinimum") <-> (dec_q X == 1)%Q).
    { split.
      - intros (n0 & w0 & H1 & H2 & H3). rewrite Hme in H1. injection H1 as <-. rewrite HX in H2. injection H2 as <-.
        destruct H3 as [H3|(d & H3 & H4)]; [discriminate|]. injection H3 as <-. exact H4.
      - intro H. exists me, (NView (NNum X) false). split; [exact Hme|]. split; [exact HX|]. right. exists X. auto. }
    rewrite (accepts_object view strx E voc Hwf n w items v c Hw Hi). split.
    - intros [_ H].
      pose proof (H KwMinimum mi _ Hv1 Hmi HM) as H1. pose proof (H KwExclusiveMinimum me _ Hv2 Hme HX) as H2.
      simpl in H1, H2. destruct H1 as (q1 & E1 & A1 & B1), H2 as (q2 & E2 & A2).
      rewrite value_is_num in *. rewrite Hq in E1, E2. injection E1 as <-. injection E2 as <-.
      rewrite Hsf in B1. auto.
    - intros (H1 & H2 & H3). split.
      + apply (compile_ok_iff view strx E items Hwfi w Hi voc n Hw). split.
        * apply Forall_forall. intros k Hk. apply filter_In in Hk as [Hk1 Hk2]. apply dmem_In in Hk2.
          destruct (Ho k Hk1 Hk2) as [<-|[<-|[]]]; unfold applies.
          -- change (u "minimum") with (kw_key KwMinimum) in Hmi. kw_apply Hmi HM.
             unfold exclusive_flag, dmem, opnd. rewrite Hme, HX. cbn [bind]. eauto.
          -- change (u "exclusiveMinimum") with (kw_key KwExclusiveMinimum) in Hme. kw_apply Hme HX. eauto.
        * intros (l1 & l2 & Heq & Hin & _).
          assert (Hin' : In KwItems (actives items voc)) by (rewrite Heq; apply in_or_app; left; exact Hin).
          apply filter_In in Hin' as [Hk1 Hk2]. apply dmem_In in Hk2.
          destruct (Ho KwItems Hk1 Hk2) as [?|[?|[]]]; discriminate.
      + intros k m w' Hk Hm Hmw.
        assert (Hk2 : In (kw_key k) (dkeys items)) by (apply dget_In, (in_map fst) in Hm; exact Hm).
        destruct (Ho k Hk Hk2) as [<-|[<-|[]]].
        * change (kw_key KwMinimum) with (u "minimum") in Hm. rewrite Hmi in Hm. injection Hm as <-.
          rewrite HM in Hmw. injection Hmw as <-. simpl. exists q. rewrite Hsf. auto.
        * change (kw_key KwExclusiveMinimum) with (u "exclusiveMinimum") in Hm.
          rewrite Hme in Hm. injection Hm as <-.
          rewrite HX in Hmw. injection Hmw as <-. simpl. exists q. auto.
  Qed.
  (** The property itself holds when the exclusive bound is not 1. *)
  Theorem C09_both_bounds_partial n items mi me M X v q c (kI kX : akw) :
    (kI = KwMaximum /\ kX = KwExclusiveMaximum) \/ (kI = KwMinimum /\ kX = KwExclusiveMinimum) ->
    obj_at n items -> In kI voc -> In kX voc -> only items [kI; kX] ->
    dget (kw_key kI) items = Some mi -> val_at mi (NNum M) ->
    dget (kw_key kX) items = Some me -> val_at me (NNum X) ->
    value_is v q -> ~ (dec_q X == 1)%Q ->
    Accepts n v c <->
    match kI with
    | KwMaximum => (q <= dec_q M /\ q < dec_q X)%Q
    | _ => (dec_q M <= q /\ dec_q X < q)%Q
    end.
  Proof.
    intros [[-> ->]|[-> ->]] Hn H1 H2 Ho Hmi HM Hme HX Hq Hne.
    - rewrite (C09_both_maxima n items mi me M X v q c Hn H1 H2 Ho Hmi HM Hme HX Hq). tauto.
    - rewrite (C09_both_minima n items mi me M X v q c Hn H1 H2 Ho Hmi HM Hme HX Hq). tauto.
  Qed.

  (** ** C10: multipleOf *)
  Definition multiple_of (x d : Q) : Prop := exists z, (x == inject_Z z * d)%Q.
  Lemma multiple_apply items m d : dget (kw_key KwMultipleOf) items = Some m -> val_at m (NNum d) ->
    apply view strx E KwMultipleOf items [] = Ok (put KwMultipleOf (VMultipleOf d) []).
  Proof. intros Hm Hx. unfold Claims.val_at in Hx. kw_apply Hm Hx. reflexivity. Qed.

  Theorem C10_multiple_of n items m d v x c :
    obj_at n items -> lone items KwMultipleOf m -> val_at m (NNum d) -> carries v x ->
    (~ (dec_q d == 0)%Q -> (Qabs (dec_q x) < inject_Z (10 ^ 28) * Qabs (dec_q d))%Q ->
       (Accepts n v c <-> multiple_of (dec_q x) (dec_q d)) /\
       (~ multiple_of (dec_q x) (dec_q d) -> plain c -> RejectsWith n v c (KMultipleOf d) c)) /\
    ((dec_q d == 0)%Q \/ (inject_Z (10 ^ 28) * Qabs (dec_q d) <= Qabs (dec_q x))%Q ->
       Outcome n v c (Raise EDecimal)).
  Proof.
    intros Hn Hl Hx Hv. pose proof Hl as (_ & Hm & _).
    pose proof (multiple_apply items m d Hm Hx) as Ha.
    assert (Hd : dec_of_value E v = Ok x) by (destruct v; simpl in *; try contradiction; congruence).
    split.
    - intros Hd0 Hlt.
      assert (Hrun : forall b, dec_rem_is_zero x d = Ok b ->
                forall (rec : node -> pv -> ctx -> res unit) lf, run_vobj view E rec lf (VMultipleOf d) v c =
                               (if b then Ok tt else raise_verr (KMultipleOf d) (ctx_path c))).
      { intros b Hb rec lf. simpl. unfold multiple_of_validate. rewrite Hd. cbn [bind]. rewrite Hb. reflexivity. }
      assert (Htot : exists b, dec_rem_is_zero x d = Ok b).
      { apply dec_rem_total; assumption. }
      destruct Htot as [b Hb].
      assert (Hmul : b = true <-> multiple_of (dec_q x) (dec_q d)).
      { split.
        - intros ->. apply dec_rem_ok in Hb as (z & Hz & _ & _). exists z. exact Hz.
        - intros [z Hz]. assert (dec_rem_is_zero x d = Ok true).
          { apply dec_rem_ok. exists z. split; [exact Hz|]. split; [|exact Hd0].
            rewrite Hz, Qabs_Qmult in Hlt.
            apply (proj1 (Qmult_lt_r _ _ _ (Qabs_pos_lt _ Hd0))) in Hlt.
            rewrite Zabs_Qabs' in Hlt. rewrite <- Zlt_Qlt in Hlt. exact Hlt. }
          congruence. }
      split.
      + rewrite (leaf_accepts n items _ m (VMultipleOf d) v c _ Hn Hl eq_refl Ha (Hrun b Hb)).
        rewrite <- Hmul. apply if_raise_ok.
      + intros Hno Hc. apply (leaf_rejects n items _ m (VMultipleOf d) v c (KMultipleOf d) Hn Hl eq_refl Ha); [|exact Hc].
        intros rec lf. rewrite (Hrun b Hb). destruct b; [exfalso; apply Hno, Hmul; reflexivity|reflexivity].
    - intro Hbad. apply (lone_leaf view strx E voc Hwf n items _ m (VMultipleOf d) v c _ Hn Hl eq_refl Ha); [|discriminate].
      intros rec lf. simpl. unfold multiple_of_validate. rewrite Hd. cbn [bind].
      rewrite (dec_rem_raise x d Hbad). reflexivity.
  Qed.

  (** ** C11: counts *)
  Theorem C11_counts n items k m d z s v c :
    obj_at n items -> lone items k m -> val_at m (NNum d) ->
    counts k v -> int_part (dec_q d) z -> size_is v s ->
    let ok := if is_lower k then z <= s else s <= z in
    (Accepts n v c <-> ok) /\ (~ ok -> plain c -> RejectsWith n v c (count_error k z) c).
  Proof.
    intros Hn Hl Hx Hc Hz Hs ok. pose proof Hl as (_ & Hm & _). unfold Claims.val_at in Hx.
    assert (Hzd : dec_int d = z) by (eapply int_part_fun; [apply dec_int_part|exact Hz]). subst z.
    assert (Hlen : py_len v = Ok s) by (apply py_len_size, Hs).
    assert (H : exists o, is_own k = true /\ apply view strx E k items [] = Ok (put k o []) /\
              forall (rec : node -> pv -> ctx -> res unit) lf, run_vobj view E rec lf o v c =
                 if (if is_lower k then s >=? dec_int d else s <=? dec_int d) then Ok tt
                 else raise_verr (count_error k (dec_int d)) (ctx_path c)).
    { destruct k; try contradiction; destruct v; try contradiction;
        (eexists; split; [reflexivity|]; split; [kw_apply Hm Hx; reflexivity|]);
        intros rec lf; cbn [run_vobj is_lower count_error];
        unfold min_len_validate, max_len_validate; rewrite Hlen; reflexivity. }
    destruct H as (o & Hk & Ha & Hr).
    assert (Hb : (if is_lower k then s >=? dec_int d else s <=? dec_int d) = true <-> ok).
    { unfold ok. destruct (is_lower k); lia. }
    split.
    - rewrite (leaf_accepts n items k m o v c _ Hn Hl Hk Ha Hr). rewrite if_raise_ok. exact Hb.
    - intros Hno Hcp. apply (leaf_rejects n items k m o v c _ Hn Hl Hk Ha); [|exact Hcp].
      intros rec lf. rewrite Hr. destruct (if is_lower k then _ else _) eqn:Hq; [exfalso; tauto|reflexivity].
  Qed.

  (** ** C12: required *)
  Theorem C12_required n items m names d c :
    obj_at n items -> lone items KwRequired m -> names_at view m names ->
    (Accepts n (VDict d) c <-> forall name, In name names -> In name (dkeys d)) /\
    (forall before name after, names = before ++ name :: after ->
       (forall x, In x before -> In x (dkeys d)) -> ~ In name (dkeys d) ->
       plain c -> RejectsWith n (VDict d) c (KRequired name) c).
  Proof.
    intros Hn Hl (l & Hx & Hf). pose proof Hl as (_ & Hm & _). unfold Claims.val_at in Hx.
    assert (Ha : apply view strx E KwRequired items [] = Ok (put KwRequired (VRequired names) [])).
    { kw_apply Hm Hx. rewrite (names_item_str view strx l names Hf). reflexivity. }
    split.
    - rewrite (leaf_accepts n items _ m (VRequired names) (VDict d) c (required_validate names (VDict d) c) Hn Hl eq_refl Ha (fun _ _ => eq_refl)).
      apply required_ok.
    - intros before name after -> Hb Hno Hc.
      apply (leaf_rejects n items _ m _ (VDict d) c (KRequired name) Hn Hl eq_refl Ha); [|exact Hc].
      intros rec lf. simpl. unfold required_validate. rewrite raise_at by exact Hc.
      apply for_each_first.
      + apply Forall_forall. intros x Hin. simpl. rewrite (proj2 (dmem_In x d) (Hb x Hin)). reflexivity.
      + simpl. rewrite (proj2 (dmem_false name d) Hno). apply raise_at, Hc.
  Qed.

  (** ** C13: dependentRequired *)
  Definition depends_at (m : node) (table : list (pystr * list pystr)) : Prop :=
    exists it, val_at m (NObj it) /\
      Forall2 (fun kn kt => fst kn = fst kt /\ names_at view (snd kn) (snd kt)) it table.
  Lemma depends_apply items m table : dget (kw_key KwDependentRequired) items = Some m -> depends_at m table ->
    apply view strx E KwDependentRequired items [] = Ok (put KwDependentRequired (VDepRequired table) []).
  Proof.
    intros Hm (it & Hx & Hf). unfold Claims.val_at in Hx. kw_apply Hm Hx.
    assert (Hmap : map_res (fun '(key, x) => s <- iter_strs view strx x ;; Ok (key, s)) it = Ok table).
    { clear Hm Hx. induction Hf as [|[k1 x1] [k2 t2] it tb [H1 H2] Hf IH]; [reflexivity|]. simpl in H1, H2. subst k2.
      destruct H2 as (l & Hl & Hn). unfold Claims.val_at in Hl.
      cbn [map_res]. unfold iter_strs at 1. rewrite Hl. cbn [bind nv_ref nv_val].
      rewrite (names_item_str view strx l t2 Hn). rewrite IH. reflexivity. }
    rewrite Hmap. reflexivity.
  Qed.
  Theorem C13_dependent_required n items m table v c :
    obj_at n items -> lone items KwDependentRequired m -> depends_at m table ->
    (Accepts n v c <->
       forall d, v = VDict d -> forall key names name, In (key, names) table -> In key (dkeys d) ->
         In name names -> In name (dkeys d)) /\
    (plain c -> Accepts n v c \/
       exists d key names name, v = VDict d /\ In (key, names) table /\ In key (dkeys d) /\
         In name names /\ ~ In name (dkeys d) /\ RejectsWith n v c (KDependent key name) c).
  Proof.
    intros Hn Hl Ht. pose proof Hl as (_ & Hm & _).
    pose proof (depends_apply items m table Hm Ht) as Ha.
    assert (Hacc : Accepts n v c <-> dep_required_validate table v c = Ok tt).
    { apply (leaf_accepts n items _ m (VDepRequired table) v c _ Hn Hl eq_refl Ha). reflexivity. }
    split.
    - rewrite Hacc, dep_required_ok. destruct v; split; intro H; try exact I; try (intros; discriminate).
      + intros d' Hd key names name. injection Hd as <-. intros H1 H2 H3. exact (H key names H1 H2 name H3).
      + intros key names H1 H2 name H3. exact (H d eq_refl key names name H1 H2 H3).
    - intro Hc. rewrite Hacc. destruct (dep_required_validate table v c) as [[]|e|] eqn:Hr; [left; reflexivity| |].
      + right. unfold dep_required_validate in Hr. destruct v as [| | | | | | |d]; try discriminate.
        pose proof Hr as Hr0.
        apply for_each_Raise in Hr as (l1 & [key names] & l2 & -> & _ & Hk).
        destruct (dmem key d) eqn:Hmem; [|discriminate]. apply dmem_In in Hmem.
        apply for_each_Raise in Hk as (n1 & name & n2 & -> & _ & Hna).
        destruct (dmem name d) eqn:Hmem2; [discriminate|]. apply dmem_false in Hmem2.
        exists d, key, (n1 ++ name :: n2), name. split; [reflexivity|].
        split; [apply in_or_app; right; left; reflexivity|]. split; [exact Hmem|].
        split; [apply in_or_app; right; left; reflexivity|]. split; [exact Hmem2|].
        rewrite raise_at in Hna by exact Hc. injection Hna as <-.
        apply (lone_leaf view strx E voc Hwf n items _ m _ (VDict d) c _ Hn Hl eq_refl Ha); [|discriminate].
        intros rec lf. exact Hr0.
      + exfalso. unfold dep_required_validate in Hr. destruct v as [| | | | | | |d]; try discriminate.
        revert Hr. induction table as [|[key names] tb IH] in |- *; [discriminate|]. cbn [for_each].
        assert (Hin : (if dmem key d then
                  for_each (fun item => if dmem item d then Ok tt else raise_verr (KDependent key item) (ctx_path c)) names
                else Ok tt) <> OutOfFuel).
        { destruct (dmem key d); [|discriminate]. induction names as [|x xs IHn]; [discriminate|]. cbn [for_each].
          destruct (dmem x d); [exact IHn|]. rewrite raise_at by exact Hc. discriminate. }
        destruct (if dmem key d then _ else _) as [[]| |]; [exact IH|discriminate|congruence].
  Qed.

  (** ** C07: a number accepts itself *)
  Theorem C07_number_accepts_itself_partial n items k m d v c :
    obj_at n items -> lone items k m -> carries v d -> exactly v d ->
    (k = KwConst \/ k = KwMinimum \/ k = KwMaximum) /\ val_at m (NNum d) \/
    (k = KwEnum /\ exists l xs, val_at m (NArr l) /\ Forall2 val_at l xs /\ Forall scalar xs /\ In (NNum d) xs) ->
    (k = KwMinimum -> dget (u "exclusiveMinimum") items = None) ->
    (k = KwMaximum -> dget (u "exclusiveMaximum") items = None) ->
    Accepts n v c.
  Proof.
    intros Hn Hl Hca (q & Hq & He) Hk Hmi Hma.
    assert (Hsame : same_scalar (NNum d : nval node) v).
    { unfold value_is in Hq. destruct v; try contradiction; simpl in Hq; subst q; exact He. }
    pose proof Hl as (Hv & Hm & Hu).
    destruct Hk as [[[->|[->| ->]] Hx]|(-> & l & xs & Hx & Hf & Hs & Hin)].
    - apply (C06_const n items m (NNum d) v c Hn Hl Hx I). exact Hsame.
    - apply (C08_minimum n items m d false v q c Hn Hv); try assumption.
      + intros k Hk1 Hk2. left. symmetry. auto.
      + left. auto.
      + simpl. rewrite He. apply Qle_refl.
    - apply (C08_maximum n items m d false v q c Hn Hv); try assumption.
      + intros k Hk1 Hk2. left. symmetry. auto.
      + left. auto.
      + simpl. rewrite He. apply Qle_refl.
    - apply (C05_enum n items m l xs v c Hn Hl Hx Hf Hs). exists (NNum d). auto.
  Qed.
  (** ints and Decimals always qualify; a float qualifies for [const] only if its
      decimal text denotes exactly its value *)
  Theorem C07_exact_carriers v d : carries v d -> (forall f, v <> VFloat f) -> exactly v d.
  Proof.
    destruct v; simpl; intros Hc Hf; try contradiction; subst d.
    - exists (inject_Z z). split; [reflexivity|]. unfold dec_q, scaled. simpl. rewrite Z.mul_1_r. reflexivity.
    - exfalso. exact (Hf f eq_refl).
    - eexists. split; [reflexivity|]. reflexivity.
  Qed.
  Theorem C07_float_const n items m f c :
    obj_at n items -> lone items KwConst m -> val_at m (NNum (frepr f)) ->
    Accepts n (VFloat f) c <-> (dec_q (frepr f) == float_q f)%Q.
  Proof.
    intros Hn Hl Hx. rewrite (proj1 (C06_const n items m (NNum (frepr f)) (VFloat f) c Hn Hl Hx I)). reflexivity.
  Qed.

  (** ** C28: malformed operands *)
  Theorem C28_malformed_operand n items voc1 k voc2 m w v c :
    voc = voc1 ++ k :: voc2 ->
    obj_at n items -> dget (kw_key k) items = Some m -> view m = Ok w -> unsupported k (nv_val w) = true ->
    (exists d, compile view strx E voc1 n = Ok d) ->
    Outcome n v c (Raise ESchemaParse) /\
    forall fuel, validate view strx E voc (S fuel) n v c = Raise ESchemaParse.
  Proof.
    intros Hvoc (w0 & Hw & Hi) Hm Hmw Hbad [d Hd].
    assert (Hcomp : compile view strx E voc n = Raise ESchemaParse).
    { unfold compile in *. rewrite Hw in *. cbn [bind] in *. rewrite Hi in *. rewrite Hvoc.
      revert Hd. generalize (@nil (pystr * vobj node node)) as d0.
      induction voc1 as [|k1 v1 IH] in |- *; intros d0 Hd.
      - simpl in Hd. injection Hd as ->. cbn [app run_kws]. unfold step_kw, can_apply. rewrite Hi. cbn [bind].
        unfold dmem. rewrite Hm.
        assert (Hap : apply view strx E k items d = Raise ESchemaParse).
        { unfold apply, opnd, opnd_node. rewrite Hm. cbn [bind]. rewrite Hmw. cbn [bind].
          unfold as_num, as_str, as_arr, as_obj.
          destruct k, (nv_val w); try discriminate Hbad; reflexivity. }
        rewrite Hap. reflexivity.
      - cbn [app run_kws] in *. destruct (step_kw view strx E w0 k1 d0) as [d1| |]; try discriminate.
        cbn [bind] in *. apply IH, Hd. }
    assert (Hval : forall fuel, validate view strx E voc (S fuel) n v c = Raise ESchemaParse).
    { intro fuel. cbn [validate]. rewrite Hcomp. reflexivity. }
    split; [split; [discriminate|exists 1%nat; apply Hval]|exact Hval].
  Qed.
End Props.
