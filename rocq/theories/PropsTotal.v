(** Properties C34 and C35: on schemas whose keywords are guarded by [type],
    [validate] either returns or raises [ValidationError]. *)
From Verif Require Import PyBase PyBaseFacts PyVal Errors Validators Keywords Spec LeafFacts Mono RunFacts KeywordFacts Master Claims RejectFacts OrderFacts PropsComposite PropsErrors ScalarFacts PropsScalar.
From Coq Require Import QArith Qabs ZifyBool.
Local Open Scope Z_scope.

(** ** Runs that end in a result or a [ValidationError] *)
Definition decided {A} (r : res A) : Prop := (exists x, r = Ok x) \/ (exists e, r = Raise (EValid e)).
Definition settles {A} (m : nat -> res A) : Prop := exists r, decided r /\ ev (fun f => m f = r).

Lemma settles_const {A} (r : res A) : decided r -> settles (fun _ => r).
Proof. intro H. exists r. split; [exact H|]. apply ev_all. reflexivity. Qed.
Lemma settles_ok {A} (x : A) : settles (fun _ => Ok x).
Proof. apply settles_const. left; eauto. Qed.
Lemma settles_bind {A B} (m : nat -> res A) (k : nat -> A -> res B) :
  settles m -> (forall x, ev (fun f => m f = Ok x) -> settles (fun f => k f x)) -> settles (fun f => bind (m f) (k f)).
Proof.
  intros (r & Hr & Hm) Hk. destruct Hr as [[x ->]|[e ->]].
  - destruct (Hk x Hm) as (r' & Hr' & Hk'). exists r'. split; [exact Hr'|].
    eapply ev_impl; [|exact (ev_and _ _ Hm Hk')]. intros f [H1 H2]. cbn beta in H1, H2. rewrite H1. exact H2.
  - exists (Raise (EValid e)). split; [right; eauto|]. eapply ev_impl; [|exact Hm]. intros f H. cbn beta in H. rewrite H. reflexivity.
Qed.
Lemma settles_try m : settles m -> settles (fun f => try_valid (m f)).
Proof.
  intros (r & Hr & Hm). destruct Hr as [[[] ->]|[e ->]].
  - exists (Ok None). split; [left; eauto|]. eapply ev_impl; [|exact Hm]. intros f H. cbn beta in H. rewrite H. reflexivity.
  - exists (Ok (Some e)). split; [left; eauto|]. eapply ev_impl; [|exact Hm]. intros f H. cbn beta in H. rewrite H. reflexivity.
Qed.
Lemma settles_for_each {A} (g : nat -> A -> res unit) l : (forall x, In x l -> settles (fun f => g f x)) ->
  settles (fun f => for_each (g f) l).
Proof.
  induction l as [|x l IH]; intro H; cbn [for_each]; [apply settles_ok|].
  apply (settles_bind (fun f => g f x) (fun f _ => for_each (g f) l)).
  - apply H. left; reflexivity.
  - intros _ _. apply IH. intros y Hy. apply H. right; exact Hy.
Qed.
Lemma settles_raise {A} k c : plain c -> settles (fun _ : nat => @raise_verr A k (ctx_path c)).
Proof. intro Hc. apply settles_const. right. eexists. apply raise_at, Hc. Qed.
Lemma settles_unique c l : plain c -> (forall x, In x l -> hashable x = true) -> forall seen i, settles (fun _ : nat => unique_loop seen i l c).
Proof.
  intros Hc H. induction l as [|x l IH]; intros seen i; cbn [unique_loop]; [apply settles_ok|]. rewrite (H x (or_introl eq_refl)).
  destruct (existsb _ seen); [|apply IH; intros y Hy; apply H; right; exact Hy]. apply settles_const. right. eexists. apply raise_plain, plain_text_app; [rewrite dotted_path; apply plain_dotted, Hc|apply plain_nat_str].
Qed.
Lemma settles_ext {A} (m m' : nat -> res A) : (forall f, m f = m' f) -> settles m -> settles m'.
Proof. intros He (r & Hr & Hm). exists r. split; [exact Hr|]. eapply ev_impl; [|exact Hm]. intros f H. cbn beta in H. congruence. Qed.

(** an instance all of whose member names are free of curly braces *)
Definition plain_names (v : pv) : Prop := forall p y, leads v p y -> plain p.
Lemma plain_names_member d k x : plain_names (VDict d) -> In (k, x) d -> plain_text k /\ plain_names x.
Proof.
  intros H Hin. split.
  - specialize (H [k] x (leads_member d k x [] x Hin (leads_here x))). inversion H; assumption.
  - intros p y Hp. specialize (H (k :: p) y (leads_member d k x p y Hin Hp)). inversion H; assumption.
Qed.
Lemma plain_names_item l x : plain_names (VList l) -> In x l -> plain_names x.
Proof.
  intros H Hin p y Hp. apply In_nth_error in Hin as [i Hi].
  specialize (H (nat_str i :: p) y (leads_item l i x p y Hi Hp)). inversion H; assumption.
Qed.
Lemma plain_names_scalar v : (forall l, v <> VList l) -> (forall d, v <> VDict d) -> plain_names v.
Proof. intros H1 H2 p y H. inversion H; subst; [constructor|exfalso; eapply H2; reflexivity|exfalso; eapply H1; reflexivity]. Qed.

Section Total.
  Context {node : Type} (view : node -> res (nview node)) (strx : node -> pystr) (E : env).
  Variable voc : list akw.
  Hypothesis Hwf : wf_view view.

  (** the schema's [type] allows only these types *)
  Definition only_types (items : list (pystr * node)) (cls : list pystr) : Prop :=
    exists m, dget (u "type") items = Some m /\
      ((exists s, val_at view m (NStr s) /\ In s cls) \/
       (exists l, val_at view m (NArr l) /\ forall x, In x l -> exists s, val_at view x (NStr s) /\ In s cls)).
  Definition numeric (m : node) : Prop := exists d, val_at view m (NNum d).
  Definition number_types := [u "integer"; u "number"; u "boolean"].
  Definition sized_types := [u "string"; u "array"; u "object"].

  Variable G : node -> Prop.          (* the schema nodes in play *)
  Variable rk : node -> nat.          (* decreases along the keywords that stay on the same value *)

  (** keyword [k] of schema [n] has a usable operand [m] and is guarded by [type]
      when it only works on some types *)
  Definition well_used (n : node) (items : list (pystr * node)) (k : akw) (m : node) : Prop :=
    let below s := G s /\ (rk s < rk n)%nat in
    match k with
    | KwType => only_types items valid_types
    | KwEnum => exists l, val_at view m (NArr l) /\ forall x, In x l -> exists y, val_at view x y /\ scalar y
    | KwConst => exists y, val_at view m y /\ scalar y
    | KwMinimum => numeric m /\ only_types items number_types /\
        forall x, dget (u "exclusiveMinimum") items = Some x -> exists y, val_at view x y
    | KwMaximum => numeric m /\ only_types items number_types /\
        forall x, dget (u "exclusiveMaximum") items = Some x -> exists y, val_at view x y
    | KwExclusiveMinimum => (numeric m /\ only_types items number_types) \/
        ((exists b, val_at view m (NBool b)) /\ In (u "minimum") (dkeys items))
    | KwExclusiveMaximum => (numeric m /\ only_types items number_types) \/
        ((exists b, val_at view m (NBool b)) /\ In (u "maximum") (dkeys items))
    | KwMinLength | KwMaxLength | KwMinItems | KwMaxItems | KwMinProperties | KwMaxProperties =>
        numeric m /\ only_types items sized_types
    | KwFormat => only_types items [u "string"] /\
        exists f test, val_at view m (NStr f) /\ fmt E f = Some test /\ forall s, exists b, test (VStr s) = Ok b
    | KwPattern => only_types items [u "string"] /\ exists p, val_at view m (NStr p) /\ re_ok E p = true
    | KwRequired => only_types items sized_types /\ exists l, val_at view m (NArr l)
    | KwDependentRequired => exists table, obj_at view m table /\
        forall key x, In (key, x) table -> exists l, val_at view x (NArr l)
    | KwDependentSchemas => exists table, obj_at view m table /\ forall key s, In (key, s) table -> below s
    | KwProperties => exists table, obj_at view m table /\ forall key s, In (key, s) table -> G s
    | KwPatternProperties => exists table, obj_at view m table /\
        forall p s, In (p, s) table -> re_ok E p = true /\ G s
    | KwAdditionalProperties => (exists b, val_at view m (NBool b)) \/ ((exists it, obj_at view m it) /\ G m)
    | KwUnevaluatedProperties => exists b, val_at view m (NBool b)
    | KwPropertyNames => (exists it, obj_at view m it) /\ G m
    | KwItems => only_types items [u "array"] /\
        ((exists b, val_at view m (NBool b)) \/ (exists it, obj_at view m it)) /\ G m
    | KwContains => only_types items [u "array"] /\ (exists it, obj_at view m it) /\ G m /\
        (forall x, dget (u "minContains") items = Some x -> numeric x) /\
        (forall x, dget (u "maxContains") items = Some x -> numeric x)
    | KwUniqueItems => val_at view m (NBool false) \/ (val_at view m (NBool true) /\ only_types items [u "array"])
    | KwAllOf => exists l, val_at view m (NArr l) /\ forall s, In s l -> below s
    | KwAnyOf | KwOneOf => exists l, val_at view m (NArr l) /\ l <> [] /\ forall s, In s l -> below s
    | KwNot | KwThen | KwElse => (exists it, obj_at view m it) /\ below m
    | KwIf => (exists it, obj_at view m it) /\ below m /\ In KwElse voc /\ In (u "else") (dkeys items)
    | KwMultipleOf => (exists d, val_at view m (NNum d) /\ ~ (dec_q d == 0)%Q) /\ only_types items [u "integer"; u "number"]
    | KwPrefixItems => False
    end.

  (** every schema in play is a boolean, or an object all of whose keywords are well used *)
  Definition well_typed : Prop :=
    forall n, G n ->
      (exists w b, view n = Ok w /\ nv_val w = NBool b) \/
      (exists items, obj_at view n items /\
         forall k m, In k voc -> dget (kw_key k) items = Some m -> well_used n items k m).

  (** [multipleOf]: [Decimal] divides with 28 digits, so no number in the value may
      be 10^28 times the operand (or more) *)
  Definition quotients_fit (v : pv) : Prop :=
    forall p y x n items m d, leads v p y -> carries y x -> G n -> obj_at view n items ->
      dget (kw_key KwMultipleOf) items = Some m -> val_at view m (NNum d) ->
      (Qabs (dec_q x) < inject_Z (10 ^ 28) * Qabs (dec_q d))%Q.
  Lemma fit_member d k x : quotients_fit (VDict d) -> In (k, x) d -> quotients_fit x.
  Proof. intros H I p y z n items m q Hp. exact (H (k :: p) y z n items m q (leads_member d k x p y I Hp)). Qed.
  Lemma fit_item l x : quotients_fit (VList l) -> In x l -> quotients_fit x.
  Proof. intros H I p y z n items m q Hp. apply In_nth_error in I as [i Hi]. exact (H (nat_str i :: p) y z n items m q (leads_item l i x p y Hi Hp)). Qed.
  Lemma fit_text s : quotients_fit (VStr s).
  Proof. intros p y z n items m q Hp Hc. inversion Hp; subst. destruct Hc. Qed.
  (** [uniqueItems] puts the elements into a set: when a schema has it, no array of
      the value may hold an array or an object *)
  Definition arrays_flat (v : pv) : Prop :=
    forall p l x n items m, leads v p (VList l) -> In x l -> G n -> obj_at view n items ->
      dget (kw_key KwUniqueItems) items = Some m -> val_at view m (NBool true) -> unstructured x.
  Definition fits (v : pv) : Prop := quotients_fit v /\ arrays_flat v.
  Lemma fits_member d k x : fits (VDict d) -> In (k, x) d -> fits x.
  Proof. intros [H1 H2] I. split; [exact (fit_member _ _ _ H1 I)|]. intros p l y n items m Hp. exact (H2 (k :: p) l y n items m (leads_member d k x p _ I Hp)). Qed.
  Lemma fits_item l x : fits (VList l) -> In x l -> fits x.
  Proof. intros [H1 H2] I. split; [exact (fit_item _ _ H1 I)|]. intros p l' y n items m Hp. apply In_nth_error in I as [i Hi]. exact (H2 (nat_str i :: p) l' y n items m (leads_item l i x p _ Hi Hp)). Qed.
  Lemma fits_text s : fits (VStr s).
  Proof. split; [apply fit_text|]. intros p l y n items m Hp. inversion Hp. Qed.

  Hypothesis Htyped : well_typed.
  Hypothesis Htype_first : exists rest, voc = KwType :: rest.

  Notation V := (validate view strx E voc).
  Notation Settled n v c := (settles (fun f => V f n v c)).

  (** the value passed the [type] check of the schema *)
  Definition type_passed (items : list (pystr * node)) (v : pv) : Prop :=
    forall cls, only_types items cls -> exists t, In t cls /\ has_type v t.

  Lemma obj_wf n items : obj_at view n items -> wf_operands view items.
  Proof. intros _ k m w it _ Hw Hi. exact (Hwf m w it Hw Hi). Qed.

  (** *** One validator object *)
  Section Step.
    Variables (n : node) (items : list (pystr * node)) (v : pv) (c : ctx).
    Hypothesis Hn : obj_at view n items.
    Hypothesis Hk : forall k m, In k voc -> dget (kw_key k) items = Some m -> well_used n items k m.
    Hypothesis Hc : plain c.
    Hypothesis Hv : plain_names v.
    Hypothesis Hmine : G n.
    Hypothesis Hfit : fits v.
    Hypothesis Hrank : forall m, G m -> (rk m < rk n)%nat -> Settled m v c.
    Hypothesis Hmember : forall d key x m, v = VDict d -> In (key, x) d -> G m -> Settled m x (c ++ [key]).
    Hypothesis Hname : forall d key x m, v = VDict d -> In (key, x) d -> G m -> Settled m (VStr key) (c ++ [key]).
    Hypothesis Hitem : forall l x m c', v = VList l -> In x l -> G m -> plain c' -> Settled m x c'.

    Notation run o := (fun f => run_vobj view E (V f) f o v c).

    Lemma settles_cmp (m : res bool) k : (exists b, m = Ok b) ->
      settles (fun _ : nat => (b <- m ;; if b then raise_verr k (ctx_path c) else Ok tt)).
    Proof. intros [b ->]. cbn [bind]. destruct b; [apply settles_raise, Hc|apply settles_ok]. Qed.
    Lemma number_cmp d : type_passed items v -> only_types items number_types ->
      (exists b, py_lt_dec v d = Ok b) /\ (exists b, py_le_dec v d = Ok b) /\
      (exists b, py_gt_dec v d = Ok b) /\ (exists b, py_ge_dec v d = Ok b).
    Proof.
      intros Hp Ho. destruct (Hp _ Ho) as (t & Ht & Hh). unfold py_lt_dec, py_le_dec, py_gt_dec, py_ge_dec.
      assert (Hq : exists q, num_q v = Some q).
      { destruct v; simpl in Hh |- *; eauto; exfalso; subst t; simpl in Ht;
          repeat (destruct Ht as [Ht|Ht]; [discriminate Ht|]); exact Ht. }
      destruct Hq as [q ->]. eauto 10.
    Qed.
    Lemma sized_len : type_passed items v -> only_types items sized_types -> exists s, py_len v = Ok s.
    Proof.
      intros Hp Ho. destruct (Hp _ Ho) as (t & Ht & Hh).
      destruct v; simpl in Hh |- *; eauto; exfalso; try destruct Hh as [Hh|Hh]; subst t; simpl in Ht;
          repeat (destruct Ht as [Ht|Ht]; [discriminate Ht|]); exact Ht.
    Qed.
    Lemma settles_min k m : type_passed items v -> only_types items sized_types -> settles (fun _ : nat => min_len_validate k m v c).
    Proof.
      intros Hp Ho. destruct (sized_len Hp Ho) as [s Hs]. unfold min_len_validate. rewrite Hs. cbn [bind].
      destruct (s >=? m); [apply settles_ok|apply settles_raise, Hc].
    Qed.
    Lemma settles_max k m : type_passed items v -> only_types items sized_types -> settles (fun _ : nat => max_len_validate k m v c).
    Proof.
      intros Hp Ho. destruct (sized_len Hp Ho) as [s Hs]. unfold max_len_validate. rewrite Hs. cbn [bind].
      destruct (s <=? m); [apply settles_ok|apply settles_raise, Hc].
    Qed.
    Lemma is_string : type_passed items v -> only_types items [u "string"] -> exists s, v = VStr s.
    Proof.
      intros Hp Ho. destruct (Hp _ Ho) as (t & [<-|[]] & Hh). destruct v; simpl in Hh; try destruct Hh as [Hh|Hh]; try discriminate; eauto.
    Qed.
    Lemma is_array : type_passed items v -> only_types items [u "array"] -> exists l, v = VList l.
    Proof.
      intros Hp Ho. destruct (Hp _ Ho) as (t & [<-|[]] & Hh). destruct v; simpl in Hh; try destruct Hh as [Hh|Hh]; try discriminate; eauto.
    Qed.
    Lemma scalar_raw x : scalar x -> exists b, eq_raw view x v = Ok b.
    Proof. destruct x; intros []; cbn [eq_raw]; eauto. Qed.
    Lemma settles_enum l : (forall x, In x l -> scalar x) -> settles (fun _ : nat => enum_validate view l v c).
    Proof.
      intro Hl. unfold enum_validate. destruct (is_bool v && negb (existsb is_nbool l)); [apply settles_raise, Hc|].
      assert (H1 : exists b, enum_tweak_loop view l v = Ok b).
      { induction l as [|x l IH]; cbn [enum_tweak_loop]; [eauto|].
        destruct (scalar_raw x (Hl x (or_introl eq_refl))) as [b ->]. cbn [bind].
        assert (IH' := IH (fun y Hy => Hl y (or_intror Hy))).
        destruct b; [|exact IH']. destruct (_ || _); [|eauto]. destruct (_ && _); eauto. }
      assert (H2 : exists b, enum_in view l v = Ok b).
      { clear H1. induction l as [|x l IH]; cbn [enum_in]; [eauto|].
        destruct (scalar_raw x (Hl x (or_introl eq_refl))) as [b ->]. cbn [bind].
        assert (IH' := IH (fun y Hy => Hl y (or_intror Hy))). destruct b; [eauto|exact IH']. }
      destruct H1 as [b1 ->], H2 as [b2 ->]. destruct (_ || _); cbn [bind];
        [destruct b1|destruct b2]; try apply settles_ok; apply settles_raise, Hc.
    Qed.
    Lemma settles_const_v x : scalar x -> settles (fun _ : nat => const_validate view x v c).
    Proof.
      intro Hx. unfold const_validate. destruct (_ && _); [apply settles_raise, Hc|].
      destruct (scalar_raw x Hx) as [b ->]. cbn [bind]. destruct b; [apply settles_ok|apply settles_raise, Hc].
    Qed.
    Lemma settles_required l : type_passed items v -> only_types items sized_types -> settles (fun _ : nat => required_validate l v c).
    Proof.
      intros Hp Ho. unfold required_validate. apply (settles_for_each (fun _ => _)). intros name _.
      assert (Hb : exists b, py_contains name v = Ok b).
      { destruct (Hp _ Ho) as (t & Ht & Hh).
        destruct v; simpl in Hh |- *; eauto; exfalso; try destruct Hh as [Hh|Hh]; subst t; simpl in Ht;
          repeat (destruct Ht as [Ht|Ht]; [discriminate Ht|]); exact Ht. }
      destruct Hb as [b ->]. cbn [bind]. destruct b; [apply settles_ok|apply settles_raise, Hc].
    Qed.
    Lemma settles_dep_required m : settles (fun _ : nat => dep_required_validate m v c).
    Proof.
      unfold dep_required_validate. destruct v; try apply settles_ok.
      apply (settles_for_each (fun _ => _)). intros [key its] _. destruct (dmem key d); [|apply settles_ok].
      apply (settles_for_each (fun _ => _)). intros name _. destruct (dmem name d); [apply settles_ok|apply settles_raise, Hc].
    Qed.
    Lemma settles_pattern_loop d key x pats : v = VDict d -> In (key, x) d ->
      (forall p s, In (p, s) pats -> re_ok E p = true /\ G s) ->
      forall b, settles (fun f => pattern_loop E (V f) pats key x c b).
    Proof.
      intros Hd Hin. induction pats as [|[p s] pats IH]; intros Hp b; cbn [pattern_loop]; [apply settles_ok|].
      destruct (Hp p s (or_introl eq_refl)) as [Hr Hs]. rewrite Hr.
      assert (Hrest : forall b, settles (fun f => pattern_loop E (V f) pats key x c b)).
      { apply IH. intros p' s' H. apply Hp. right; exact H. }
      destruct (re_search E p key); [|apply Hrest].
      apply (settles_bind (fun f => V f s x (ctx_add c key)) (fun f _ => pattern_loop E (V f) pats key x c true)).
      - exact (Hmember d key x s Hd Hin Hs).
      - intros _ _. apply Hrest.
    Qed.
    Lemma settles_object o :
      (forall key s, dget key (ov_data o) = Some s -> G s) ->
      (forall pats, ov_pat o = Some pats -> forall p s, In (p, s) pats -> re_ok E p = true /\ G s) ->
      (forall s, ov_addl o = Some (SLazy s) -> G s) ->
      (forall s, ov_names o = Some s -> G s) ->
      settles (fun f => object_validate E (V f) o v c).
    Proof.
      intros H1 H2 H3 H4.
      assert (Hcase : (exists d, v = VDict d) \/ forall f, object_validate E (V f) o v c = Ok tt) by (destruct v; eauto).
      destruct Hcase as [[d Hd]|Hno]; [|eapply settles_ext; [intro f; symmetry; apply Hno|apply settles_ok]].
      apply (settles_ext (fun f => for_each (member_validate E (V f) o c) d)); [intro f; rewrite Hd; reflexivity|].
      apply (settles_for_each (fun f => member_validate E (V f) o c)). intros [key x] Hin. unfold member_validate.
      destruct (plain_names_member d key x (eq_ind v plain_names Hv _ Hd) Hin) as [Hkey _].
      apply (settles_bind (fun f => match ov_names o with Some m => V f m (VStr key) (ctx_add c key) | None => Ok tt end)
              (fun f _ => _)).
      - destruct (ov_names o) as [s|]; [|apply settles_ok]. exact (Hname d key x s Hd Hin (H4 s eq_refl)).
      - intros _ _. destruct (dget key (ov_data o)) as [s|] eqn:Hs; [exact (Hmember d key x s Hd Hin (H1 key s Hs))|].
        apply (settles_bind (fun f => match ov_pat o with Some pats => pattern_loop E (V f) pats key x c false | None => Ok false end)
              (fun f _ => _)).
        + destruct (ov_pat o) as [pats|]; [|apply settles_ok]. exact (settles_pattern_loop d key x pats Hd Hin (H2 pats eq_refl) false).
        + intros b _. destruct b; [apply settles_ok|]. destruct (ov_addl o) as [[|s]|]; cbn [run_sub].
          * apply settles_raise, plain_snoc; assumption.
          * exact (Hmember d key x s Hd Hin (H3 s eq_refl)).
          * destruct (ov_uneval o); [apply settles_raise, plain_snoc; assumption|apply settles_ok].
    Qed.
    Lemma settles_items l s i : (forall x, In x l -> forall c', plain c' -> Settled s x c') ->
      settles (fun f => items_loop (V f) s l i c).
    Proof.
      revert i; induction l as [|x l IH]; intros i Hl; cbn [items_loop]; [apply settles_ok|].
      apply (settles_bind (fun f => V f s x (ctx_add c (nat_str i))) (fun f _ => items_loop (V f) s l (S i) c)).
      - apply Hl; [left; reflexivity|]. apply plain_snoc; [exact Hc|apply plain_nat_str].
      - intros _ _. apply IH. intros y Hy. apply Hl. right; exact Hy.
    Qed.
    Lemma settles_count l s : (forall x, In x l -> Settled s x []) -> settles (fun f => count_valid (V f) s l).
    Proof.
      induction l as [|x l IH]; intros Hl; cbn [count_valid]; [apply settles_ok|].
      apply (settles_bind (fun f => try_valid (V f s x [])) (fun f r => k <- count_valid (V f) s l ;; Ok (match r with None => 1 + k | Some _ => k end))).
      - apply settles_try, Hl. left; reflexivity.
      - intros r _. apply (settles_bind (fun f => count_valid (V f) s l) (fun f k => Ok (match r with None => 1 + k | Some _ => k end))).
        + apply IH. intros y Hy. apply Hl. right; exact Hy.
        + intros k _. apply settles_ok.
    Qed.
    Lemma settles_contains s mn mx l : v = VList l -> (forall x, In x l -> Settled s x []) ->
      settles (fun f => contains_validate (V f) s mn mx v c).
    Proof.
      intros -> Hl. unfold contains_validate. cbn [py_iter bind].
      apply (settles_bind (fun f => count_valid (V f) s l) (fun f k => _)); [apply settles_count, Hl|].
      intros k _. destruct (k <? mn); [apply settles_raise, Hc|]. destruct mx as [m|]; [|apply settles_ok].
      destruct (_ && _); [apply settles_raise, Hc|apply settles_ok].
    Qed.
    Lemma settles_anyof l last : (l <> [] \/ last <> None) -> (forall s, In s l -> Settled s v c) ->
      settles (fun f => anyof_loop (V f) l v c last).
    Proof.
      revert last; induction l as [|s l IH]; intros last Hne Hl; cbn [anyof_loop].
      - destruct last as [e|]; [apply settles_const; right; eauto|]. exfalso. destruct Hne; congruence.
      - apply (settles_bind (fun f => try_valid (V f s v c)) (fun f r => match r with None => Ok tt | Some e => anyof_loop (V f) l v c (Some e) end)).
        + apply settles_try, Hl. left; reflexivity.
        + intros [e|] _; [|apply settles_ok]. apply IH; [right; discriminate|]. intros y Hy. apply Hl. right; exact Hy.
    Qed.
    Lemma settles_oneof l k last : (l <> [] \/ last <> None \/ (k <> 0)%nat) -> (forall s, In s l -> Settled s v c) ->
      settles (fun f => oneof_loop (V f) l v c k last).
    Proof.
      revert k last; induction l as [|s l IH]; intros k last Hne Hl; cbn [oneof_loop].
      - destruct k as [|[|k]]; [|apply settles_ok|apply settles_raise, Hc].
        destruct last as [e|]; [apply settles_const; right; eauto|]. exfalso. destruct Hne as [?|[?|?]]; congruence.
      - apply (settles_bind (fun f => try_valid (V f s v c))
                 (fun f r => match r with None => oneof_loop (V f) l v c (S k) last | Some e => oneof_loop (V f) l v c k (Some e) end)).
        + apply settles_try, Hl. left; reflexivity.
        + intros [e|] _; (apply IH; [|intros y Hy; apply Hl; right; exact Hy]); right; [left; discriminate|right; lia].
    Qed.
    Lemma settles_not s : Settled s v c -> settles (fun f => not_validate (V f) s v c).
    Proof.
      intro Hs. unfold not_validate. apply (settles_bind (fun f => try_valid (V f s v c)) (fun f r => _)); [apply settles_try, Hs|].
      intros [e|] _; [apply settles_ok|apply settles_raise, Hc].
    Qed.
    Lemma settles_cond k : (forall s, cv_if k = Some s -> Settled s v c /\ cv_else k <> None) ->
      (forall s, cv_then k = Some s -> Settled s v c) -> (forall s, cv_else k = Some s -> Settled s v c) ->
      settles (fun f => cond_validate (V f) k v c).
    Proof.
      intros H1 H2 H3. unfold cond_validate. destruct (cv_if k) as [s|]; [|apply settles_ok].
      destruct (H1 s eq_refl) as [Hs He].
      apply (settles_bind (fun f => try_valid (V f s v c)) (fun f r => _)); [apply settles_try, Hs|].
      intros [e|] _.
      - destruct (cv_else k) as [m|]; [apply H3; reflexivity|contradiction He; reflexivity].
      - destruct (cv_then k) as [m|]; [apply H2; reflexivity|apply settles_ok].
    Qed.

    (** *** What a keyword builds *)
    Lemma map_ok {A B} (g : A -> res B) l : (forall x, In x l -> exists y, g x = Ok y) -> exists ys, map_res g l = Ok ys.
    Proof.
      induction l as [|x l IH]; intro H; cbn [map_res]; [eauto|].
      destruct (H x (or_introl eq_refl)) as [y ->]. destruct IH as [ys ->]; [intros z Hz; apply H; right; exact Hz|].
      cbn [bind]. eauto.
    Qed.
    Lemma map_enum l : (forall x, In x l -> exists y, val_at view x y /\ scalar y) ->
      exists xs, map_res (enum_item view) l = Ok xs /\ forall x, In x xs -> scalar x.
    Proof.
      induction l as [|x l IH]; intro H; cbn [map_res]; [exists []; split; [reflexivity|intros ? []]|].
      destruct (H x (or_introl eq_refl)) as (y & Hy & Hs). unfold enum_item at 1. rewrite Hy. cbn [bind nv_ref nv_val].
      destruct IH as (xs & -> & Hxs); [intros z Hz; apply H; right; exact Hz|].
      cbn [bind]. exists (y :: xs). split; [reflexivity|]. intros z [<-|Hz]; [exact Hs|apply Hxs, Hz].
    Qed.
    Lemma type_strs m : dget (u "type") items = Some m -> only_types items valid_types ->
      exists ts, apply view strx E KwType items [] = Ok (put KwType (VType ts) []) /\
        forall cls, only_types items cls -> incl ts cls.
    Proof.
      intros Hm (m' & Hm' & Ht). rewrite Hm in Hm'. injection Hm' as <-.
      unfold apply, opnd, opnd_node. cbn [kw_key]. rewrite Hm. cbn [bind].
      destruct Ht as [(s & Hs & Hin)|(l & Hl & Hin)].
      - rewrite Hs. cbn [bind nv_val nv_ref forallb]. exists [s]. apply str_mem_In in Hin. rewrite Hin. split; [reflexivity|].
        intros cls (m2 & Hm2 & Hc2) t [<-|[]]. rewrite Hm in Hm2. injection Hm2 as <-. unfold val_at in *.
        destruct Hc2 as [(s2 & Hs2 & H2)|(l2 & Hl2 & _)]; [|congruence].
        rewrite Hs in Hs2. injection Hs2 as <-. exact H2.
      - rewrite Hl. cbn [bind nv_val nv_ref].
        assert (Hall : forallb (fun t => str_mem t valid_types) (map (item_str view strx) l) = true).
        { apply forallb_forall. intros t Ht. apply in_map_iff in Ht as (x & <- & Hx). destruct (Hin x Hx) as (s & Hs & H).
          unfold item_str. rewrite Hs. apply str_mem_In, H. }
        rewrite Hall. eexists. split; [reflexivity|].
        intros cls (m2 & Hm2 & Hc2) t Ht. rewrite Hm in Hm2. injection Hm2 as <-. unfold val_at in *.
        destruct Hc2 as [(s2 & Hs2 & H2)|(l2 & Hl2 & H2)]; [congruence|].
        rewrite Hl in Hl2. injection Hl2 as <-. apply in_map_iff in Ht as (x & <- & Hx).
        destruct (H2 x Hx) as (s & Hs & H). unfold item_str. rewrite Hs. exact H.
    Qed.
    Definition built (k : akw) : Prop :=
      apply view strx E k items [] = Ok [] \/
      exists o, apply view strx E k items [] = Ok (put k o []) /\ (type_passed items v -> settles (run o)).

    Local Ltac rw H := unfold val_at in H; rewrite ?H; cbn [bind].
    Lemma own_built k m : is_own k = true -> In k voc -> dget (kw_key k) items = Some m -> built k.
    Proof.
      intros Hown Hin Hm. pose proof (Hk k m Hin Hm) as Hu.
      destruct (akw_eq_dec k KwType) as [->|Hnt].
      { destruct (type_strs m Hm Hu) as (ts & Ha & Hts). right. exists (VType ts). split; [exact Ha|]. intros Hp.
        cbn [run_vobj]. unfold type_validate. destruct (str_mem _ _); [apply settles_ok|].
        destruct (_ && _); [apply settles_ok|apply settles_raise, Hc]. }
      destruct k; try discriminate Hown; try contradiction; cbn [well_used] in Hu; cbn [kw_key] in Hm; unfold built.
      all: unfold apply, opnd, opnd_node; cbn [kw_key]; rewrite Hm; cbn [bind].
      - (* allOf *) destruct Hu as (l & Hl & Hs). rw Hl. cbn [bind as_arr nv_val nv_ref]. right. eexists. split; [reflexivity|].
        intros _. cbn [run_vobj]. apply (settles_for_each (fun f s => V f s v c)). intros s Hin'. destruct (Hs s Hin'). apply Hrank; assumption.
      - (* anyOf *) destruct Hu as (l & Hl & Hne & Hs). rw Hl. cbn [bind as_arr nv_val nv_ref]. right. eexists. split; [reflexivity|].
        intros _. cbn [run_vobj]. apply settles_anyof; [left; exact Hne|]. intros s Hin'. destruct (Hs s Hin'). apply Hrank; assumption.
      - (* const *) destruct Hu as (y & Hy & Hs). rw Hy. cbn [bind nv_val nv_ref]. right. exists (VConst y).
        split; [destruct y; try destruct Hs; reflexivity|]. intros _. cbn [run_vobj]. apply settles_const_v; assumption.
      - (* contains *) destruct Hu as (Ht & (it & w & Hw & Hit) & HG & Hmn & Hmx). rw Hw. cbn [bind]. unfold as_obj. rewrite Hit. cbn [bind].
        assert (Hb : forall key, (forall x, dget key items = Some x -> numeric x) -> exists z, opt_bound view items key = Ok z).
        { intros key H. unfold opt_bound, opnd, dmem. destruct (dget key items) as [x|]; [|eauto].
          destruct (H x eq_refl) as [d Hd]. rw Hd. cbn. eauto. }
        destruct (Hb _ Hmn) as [z1 ->], (Hb _ Hmx) as [z2 ->]. cbn [bind]. right. eexists. split; [reflexivity|].
        intro Hp. destruct (is_array Hp Ht) as [l Hvl]. cbn [run_vobj]. apply (settles_contains m _ _ l Hvl).
        intros x Hx. apply (Hitem l); auto. constructor.
      - (* dependentRequired *) destruct Hu as (tb & (w & Hw & Htb) & Hall). rw Hw. cbn [bind]. unfold as_obj. rewrite Htb. cbn [bind].
        destruct (map_ok (fun '(key, x) => s <- iter_strs view strx x ;; Ok (key, s)) tb) as [ys ->].
        { intros [key x] Hx. destruct (Hall key x Hx) as [l Hl]. unfold iter_strs. rw Hl. cbn. eauto. }
        cbn [bind]. right. eexists. split; [reflexivity|]. intros _. apply settles_dep_required.
      - (* dependentSchemas *) destruct Hu as (tb & (w & Hw & Htb) & Hall). rw Hw. cbn [bind]. unfold as_obj. rewrite Htb. cbn [bind].
        right. eexists. split; [reflexivity|]. intros _. cbn [run_vobj].
        assert (Hcase : (exists d, v = VDict d) \/ forall f, dep_schemas_validate (V f) tb v c = Ok tt) by (destruct v; eauto).
        destruct Hcase as [[d Hd]|Hno]; [|eapply settles_ext; [intro f; symmetry; apply Hno|apply settles_ok]].
        apply (settles_ext (fun f => for_each (fun '(key, s) => if dmem key d then V f s v c else Ok tt) tb)).
        { intro f. rw Hd. reflexivity. }
        apply (settles_for_each (fun f '(key, s) => if dmem key d then V f s v c else Ok tt)). intros [key s] Hs.
        destruct (dmem key d); [|apply settles_ok]. destruct (Hall key s Hs). apply Hrank; assumption.
      - (* enum *) destruct Hu as (l & Hl & Hs). rw Hl. cbn [bind nv_val]. destruct (map_enum l Hs) as (xs & -> & Hxs). cbn [bind].
        right. eexists. split; [reflexivity|]. intros _. apply settles_enum; assumption.
      - (* exclusiveMaximum *) destruct Hu as [[[d Hd] Ht]|[[b Hb] Hin']].
        + rw Hd. cbn. right. eexists. split; [reflexivity|]. intro Hp. cbn [run_vobj]. unfold maximum_validate.
          apply settles_cmp, (number_cmp d Hp Ht).
        + rw Hb. cbn [bind nv_val]. apply dmem_In in Hin'. rewrite Hin'. left; reflexivity.
      - (* exclusiveMinimum *) destruct Hu as [[[d Hd] Ht]|[[b Hb] Hin']].
        + rw Hd. cbn. right. eexists. split; [reflexivity|]. intro Hp. cbn [run_vobj]. unfold minimum_validate.
          apply settles_cmp, (number_cmp d Hp Ht).
        + rw Hb. cbn [bind nv_val]. apply dmem_In in Hin'. rewrite Hin'. left; reflexivity.
      - (* format *) destruct Hu as (Ht & f & test & Hf & Hft & Htot). rw Hf. cbn [bind as_str nv_val nv_ref]. rewrite Hft.
        right. eexists. split; [reflexivity|]. intro Hp. destruct (is_string Hp Ht) as [s Hs]. cbn [run_vobj]. unfold format_validate.
        rewrite Hft, Hs. destruct (Htot s) as [b ->]. cbn [bind]. destruct b; [apply settles_ok|apply settles_raise, Hc].
      - (* items *) destruct Hu as (Ht & Hsh & HG).
        assert (Harr : forall it, it = None \/ it = Some m -> type_passed items v -> settles (run (VArray it None))).
        { intros it Hcase Hp. destruct (is_array Hp Ht) as [l Hvl]. cbn [run_vobj].
          apply (settles_ext (fun f => match it with None => Ok tt | Some s => items_loop (V f) s l 0 c end)).
          { intro f. unfold array_validate. rewrite Hvl. cbn [bind]. destruct it; reflexivity. }
          destruct Hcase as [->| ->]; [apply settles_ok|]. apply settles_items. intros x Hx c' Hc'.
          apply (Hitem l); auto. }
        destruct Hsh as [[b Hb]|(it & w & Hw & Hit)].
        + rw Hb. cbn [bind nv_val dget is_true]. right. eexists. split; [reflexivity|]. apply Harr. destruct b; auto.
        + rw Hw. cbn [bind]. unfold is_true. rewrite Hit. cbn [bind dget]. right. eexists. split; [reflexivity|]. apply Harr. auto.
      - destruct Hu as [[d Hd] Ht]. rw Hd. cbn. right. eexists. split; [reflexivity|]. intro Hp. apply settles_max; assumption.
      - destruct Hu as [[d Hd] Ht]. rw Hd. cbn. right. eexists. split; [reflexivity|]. intro Hp. apply settles_max; assumption.
      - destruct Hu as [[d Hd] Ht]. rw Hd. cbn. right. eexists. split; [reflexivity|]. intro Hp. apply settles_max; assumption.
      - (* maximum *) destruct Hu as [[d Hd] [Ht Hx]]. rw Hd. cbn [bind as_num nv_val nv_ref].
        assert (Hflag : exists ex, exclusive_flag view items (u "exclusiveMaximum") = Ok ex).
        { unfold exclusive_flag, dmem, opnd. destruct (dget (u "exclusiveMaximum") items) as [x|]; [|eauto].
          destruct (Hx x eq_refl) as [y Hy]. rw Hy. cbn [bind]. eauto. }
        destruct Hflag as [ex ->]. cbn [bind]. right. eexists. split; [reflexivity|]. intro Hp. cbn [run_vobj]. unfold maximum_validate.
        destruct ex; apply settles_cmp, (number_cmp d Hp Ht).
      - destruct Hu as [[d Hd] Ht]. rw Hd. cbn. right. eexists. split; [reflexivity|]. intro Hp. apply settles_min; assumption.
      - destruct Hu as [[d Hd] Ht]. rw Hd. cbn. right. eexists. split; [reflexivity|]. intro Hp. apply settles_min; assumption.
      - destruct Hu as [[d Hd] Ht]. rw Hd. cbn. right. eexists. split; [reflexivity|]. intro Hp. apply settles_min; assumption.
      - (* minimum *) destruct Hu as [[d Hd] [Ht Hx]]. rw Hd. cbn [bind as_num nv_val nv_ref].
        assert (Hflag : exists ex, exclusive_flag view items (u "exclusiveMinimum") = Ok ex).
        { unfold exclusive_flag, dmem, opnd. destruct (dget (u "exclusiveMinimum") items) as [x|]; [|eauto].
          destruct (Hx x eq_refl) as [y Hy]. rw Hy. cbn [bind]. eauto. }
        destruct Hflag as [ex ->]. cbn [bind]. right. eexists. split; [reflexivity|]. intro Hp. cbn [run_vobj]. unfold minimum_validate.
        destruct ex; apply settles_cmp, (number_cmp d Hp Ht).
      - (* multipleOf *) destruct Hu as ((d & Hd & Hd0) & Ht). rw Hd. cbn [bind as_num nv_val nv_ref]. right. eexists. split; [reflexivity|]. intro Hp. cbn [run_vobj].
        assert (Hx : exists x, carries v x /\ dec_of_value E v = Ok x).
        { destruct (Hp _ Ht) as (t & Hit & Hh). destruct v; cbn in Hh |- *; eauto; exfalso; subst t; destruct Hit as [C|[C|[]]]; discriminate C. }
        destruct Hx as (x & Hcx & Hdx). unfold multiple_of_validate. rewrite Hdx. cbn [bind].
        destruct (dec_rem_total x d Hd0 (proj1 Hfit [] v x n items m d (leads_here v) Hcx Hmine Hn Hm Hd)) as [b ->]. cbn [bind]. destruct b; [apply settles_ok|apply settles_raise, Hc].
      - (* not *) destruct Hu as ((it & w & Hw & Hit) & HG & Hr). rw Hw. cbn [bind]. unfold as_obj. rewrite Hit. cbn [bind].
        right. eexists. split; [reflexivity|]. intros _. cbn [run_vobj]. apply settles_not. apply Hrank; assumption.
      - (* oneOf *) destruct Hu as (l & Hl & Hne & Hs). rw Hl. cbn [bind as_arr nv_val nv_ref]. right. eexists. split; [reflexivity|].
        intros _. cbn [run_vobj]. apply settles_oneof; [left; exact Hne|]. intros s Hin'. destruct (Hs s Hin'). apply Hrank; assumption.
      - (* pattern *) destruct Hu as (Ht & p & Hp & Hok). rw Hp. cbn [bind as_str nv_val nv_ref]. rewrite Hok.
        right. eexists. split; [reflexivity|]. intro Hps. destruct (is_string Hps Ht) as [s Hs]. cbn [run_vobj]. unfold pattern_validate.
        rewrite Hs. destruct (re_search E p s); [apply settles_ok|apply settles_raise, Hc].
      - (* required *) destruct Hu as (Ht & l & Hl). rw Hl. cbn [bind as_arr nv_val nv_ref]. right. eexists. split; [reflexivity|].
        intro Hp. apply settles_required; assumption.
      - (* uniqueItems *) destruct Hu as [Hu|[Hu Ht]]; rw Hu; cbn [bind nv_val nv_ref]; [left; reflexivity|]. right. eexists. split; [reflexivity|]. intro Hp. cbn [run_vobj].
        destruct (is_array Hp Ht) as [l Hl]. unfold unique_validate. rewrite Hl. cbn [py_iter bind]. apply settles_unique; [exact Hc|].
        intros x Hx. apply unstructured_hashable. subst v. exact (proj2 Hfit [] l x n items m (leads_here _) Hx Hmine Hn Hm Hu).
    Qed.

    Notation done := (rev (actives items voc)).
    Lemma done_operand k : akw_mem k done = true -> exists m, In k voc /\ dget (kw_key k) items = Some m /\ well_used n items k m.
    Proof.
      intro H. apply done_mem in H as [H1 H2]. apply dmem_In in H2. apply dmem_dget in H2 as [m Hm]. exists m. auto.
    Qed.
    Lemma shared_applies k m : is_own k = false -> In k voc -> dget (kw_key k) items = Some m -> applies view strx E items k.
    Proof.
      intros Hown Hin Hm. pose proof (Hk k m Hin Hm) as Hu.
      unfold applies, apply, opnd, opnd_node. rewrite Hm. cbn [bind].
      destruct k; try discriminate Hown; cbn [well_used] in Hu.
      - destruct Hu as [[b Hb]|[(it & w & Hw & Hit) _]].
        + rw Hb. cbn [nv_val]. destruct b; cbn; eauto.
        + rw Hw. rewrite Hit. cbn. eauto.
      - destruct Hu as [(it & w & Hw & Hit) _]. rw Hw. unfold as_obj. rewrite Hit. cbn. eauto.
      - destruct Hu as [(it & w & Hw & Hit) _]. rw Hw. unfold as_obj. rewrite Hit. cbn. eauto.
      - destruct Hu as (it & (w & Hw & Hit) & _). rw Hw. unfold as_obj. rewrite Hit. cbn. eauto.
      - destruct Hu as (it & (w & Hw & Hit) & _). rw Hw. unfold as_obj. rewrite Hit. cbn. eauto.
      - destruct Hu as [(it & w & Hw & Hit) _]. rw Hw. unfold as_obj. rewrite Hit. cbn. eauto.
      - destruct Hu as [(it & w & Hw & Hit) _]. rw Hw. unfold as_obj. rewrite Hit. cbn. eauto.
      - destruct Hu as [b Hb]. rw Hb. cbn. eauto.
    Qed.
    Lemma node_compiles : exists d, compile view strx E voc n = Ok d.
    Proof.
      destruct Hn as (w & Hw & Hit). apply (compile_ok_iff view strx E items (obj_wf n items Hn) w Hit voc n Hw). split.
      - apply Forall_forall. intros k Hin. apply in_rev in Hin. apply akw_mem_In in Hin.
        destruct (done_operand k Hin) as (m & Hv' & Hm & _).
        destruct (is_own k) eqn:Hown; [|exact (shared_applies k m Hown Hv' Hm)].
        destruct (own_built k m Hown Hv' Hm) as [H|(o & H & _)]; unfold applies; eauto.
      - intros (l1 & l2 & Hl & _). assert (Hin : In KwPrefixItems (actives items voc)).
        { rewrite Hl. apply in_or_app. right. left. reflexivity. }
        apply in_rev in Hin. apply akw_mem_In in Hin. destruct (done_operand _ Hin) as (m & _ & _ & []).
    Qed.
    Lemma oview_obj k m it x : dget (kw_key k) items = Some m -> obj_at view m it -> oview view items k = Some x -> x = NObj it.
    Proof. intros Hm (w & Hw & Hit). unfold oview. rewrite Hm, Hw. congruence. Qed.
    Lemma entry_settles d key o : compile view strx E voc n = Ok d -> type_passed items v -> In (key, o) d -> settles (run o).
    Proof.
      intros Hd Hp Hin. destruct Hn as (w & Hw & Hit).
      destruct (compile_inv view strx E items (obj_wf n items Hn) w Hit voc n d Hw Hd) as [[Hnd Hget] _].
      apply In_dget in Hin; [|exact Hnd]. rewrite Hget in Hin. unfold expected in Hin.
      destruct (str_eqb key (u "properties")); [|destruct (str_eqb key (u "if"))].
      - destruct (existsb is_fam done); [|discriminate]. injection Hin as <-. cbn [run_vobj]. apply settles_object; cbn [objv_of ov_data ov_addl ov_pat ov_names].
        + intros k s. destruct (akw_mem KwProperties done) eqn:Hx; [|discriminate].
          destruct (done_operand _ Hx) as (m & _ & Hm & (tb & Htb & Hall)).
          destruct (oview view items KwProperties) as [x|] eqn:Ho; [|discriminate].
          rewrite (oview_obj _ _ _ _ Hm Htb Ho). intro Hs. apply dget_In in Hs. exact (Hall _ _ Hs).
        + intros pats. destruct (akw_mem KwPatternProperties done) eqn:Hx; [|discriminate].
          destruct (done_operand _ Hx) as (m & _ & Hm & (tb & Htb & Hall)).
          destruct (oview view items KwPatternProperties) as [x|] eqn:Ho; [|discriminate].
          rewrite (oview_obj _ _ _ _ Hm Htb Ho). intros [= <-]. exact Hall.
        + intros s. destruct (akw_mem KwAdditionalProperties done) eqn:Hx; [|discriminate].
          destruct (done_operand _ Hx) as (m & _ & Hm & Hu). cbn [well_used] in Hu.
          unfold oview, onode. rewrite Hm. destruct Hu as [[b Hb]|[(it & w' & Hw' & Hit') HG]].
          * rewrite Hb. cbn [nv_val]. destruct b; discriminate.
          * rewrite Hw', Hit'. cbn. intros [= <-]. exact HG.
        + intros s. destruct (akw_mem KwPropertyNames done) eqn:Hx; [|discriminate].
          destruct (done_operand _ Hx) as (m & _ & Hm & [_ HG]). unfold onode. rewrite Hm. intros [= <-]. exact HG.
      - destruct (existsb is_cond done); [|discriminate]. injection Hin as <-. cbn [run_vobj]. apply settles_cond; cbn [condv_of cv_if cv_then cv_else].
        + intros s. destruct (akw_mem KwIf done) eqn:Hx; [|discriminate].
          destruct (done_operand _ Hx) as (m & _ & Hm & (_ & [HG Hr] & He & Hin)). unfold onode at 1. rewrite Hm. intros [= <-].
          split; [apply Hrank; assumption|].
          assert (Hem : akw_mem KwElse done = true) by (apply done_mem; split; [exact He|exact Hin]).
          rewrite Hem. destruct (done_operand _ Hem) as (e & _ & He' & _). unfold onode. rewrite He'. discriminate.
        + intros s. destruct (akw_mem KwThen done) eqn:Hx; [|discriminate].
          destruct (done_operand _ Hx) as (m & _ & Hm & (_ & HG & Hr)). unfold onode. rewrite Hm. intros [= <-]. apply Hrank; assumption.
        + intros s. destruct (akw_mem KwElse done) eqn:Hx; [|discriminate].
          destruct (done_operand _ Hx) as (m & _ & Hm & (_ & HG & Hr)). unfold onode. rewrite Hm. intros [= <-]. apply Hrank; assumption.
      - destruct (find (fun k => str_eqb key (kw_key k)) (filter is_own done)) as [k|] eqn:Hf; [|discriminate].
        apply find_some in Hf as [Hf _]. apply filter_In in Hf as [Hf Hown]. apply akw_mem_In in Hf.
        destruct (done_operand k Hf) as (m & Hv' & Hm & _). unfold own_result in Hin.
        destruct (own_built k m Hown Hv' Hm) as [H|(o' & H & Hs)]; rewrite H in Hin; [discriminate|].
        unfold put in Hin. rewrite dget_dset, str_eqb_refl in Hin. injection Hin as <-. apply Hs, Hp.
    Qed.

    (** the [type] check comes first in the table *)
    Lemma head_dset {A} key (x : A) k0 x0 d : exists x1 d1, dset key x ((k0, x0) :: d) = (k0, x1) :: d1.
    Proof. cbn [dset]. destruct (str_eqb key k0) eqn:He; [|eauto]. apply str_eqb_eq in He. subst. eauto. Qed.
    Lemma Ok_inj {A} (x y : A) : Ok x = Ok y -> x = y.
    Proof. congruence. Qed.
    Lemma head_apply k k0 o0 d d' : apply view strx E k items ((k0, o0) :: d) = Ok d' -> exists o1 d1, d' = (k0, o1) :: d1.
    Proof.
      intro H. unfold apply in H. apply bind_Ok in H as (w & _ & H). apply bind_Ok in H as (m & _ & H).
      destruct k; unfold put, put_objv, put_condv in H;
        repeat match type of H with
        | bind ?r _ = _ => apply bind_Ok in H as (? & ? & H)
        | (match ?x with _ => _ end) = _ => destruct x eqn:?; try discriminate
        end;
        apply Ok_inj in H; subst d'; first [apply head_dset|eexists; eexists; reflexivity].
    Qed.
    Lemma head_run w l : nv_val w = NObj items -> forall k0 o0 d d', run_kws view strx E w l ((k0, o0) :: d) = Ok d' ->
      exists o1 d1, d' = (k0, o1) :: d1.
    Proof.
      intro Hw. induction l as [|k l IH]; intros k0 o0 d d' H; cbn [run_kws] in H.
      - injection H as <-. eauto.
      - apply bind_Ok in H as (d2 & Hs & H). unfold step_kw in Hs. apply bind_Ok in Hs as (b & _ & Hs).
        destruct b; [|injection Hs as <-; exact (IH _ _ _ _ H)]. rewrite Hw in Hs.
        destruct (head_apply _ _ _ _ _ Hs) as (o1 & d1 & ->). exact (IH _ _ _ _ H).
    Qed.
    Lemma type_first d m : compile view strx E voc n = Ok d -> dget (u "type") items = Some m ->
      exists ts d', d = (u "type", VType ts) :: d' /\ forall cls, only_types items cls -> incl ts cls.
    Proof.
      intros Hd Hm. destruct Htype_first as [rest Hvoc].
      assert (Hty : In KwType voc) by (rewrite Hvoc; left; reflexivity).
      destruct (type_strs m Hm (Hk KwType m Hty Hm)) as (ts & Ha & Hts).
      destruct Hn as (w & Hw & Hit).
      destruct (compile_inv view strx E items (obj_wf n items Hn) w Hit voc n d Hw Hd) as [[Hnd Hget] _].
      unfold compile in Hd. rewrite Hw in Hd. cbn [bind] in Hd. rewrite Hit, Hvoc in Hd. cbn [run_kws] in Hd.
      unfold step_kw at 1, can_apply at 1 in Hd. rewrite Hit in Hd. cbn [bind] in Hd.
      change (kw_key KwType) with (u "type") in Hd. rewrite (proj2 (dmem_dget _ _) (ex_intro _ m Hm)) in Hd.
      rewrite Ha in Hd. cbn [bind] in Hd. destruct (head_run w rest Hit _ _ _ _ Hd) as (o1 & d1 & ->).
      specialize (Hget (kw_key KwType)). rewrite expected_own in Hget by reflexivity.
      assert (Hmem : akw_mem KwType done = true).
      { apply done_mem. split; [exact Hty|]. apply dmem_In, dmem_dget. eauto. }
      rewrite Hmem in Hget. unfold own_result in Hget. rewrite Ha in Hget. cbn in Hget. injection Hget as ->.
      exists ts, d1. split; [reflexivity|exact Hts].
    Qed.
    Lemma object_settles : Settled n v c.
    Proof.
      destruct node_compiles as [d Hd].
      assert (Hrun : settles (fun f => for_each (fun kv => run_vobj view E (V f) f (snd kv) v c) d)).
      { destruct (dget (u "type") items) as [m|] eqn:Hm.
        - destruct (type_first d m Hd Hm) as (ts & d' & -> & Hts).
          destruct (type_validate ts v c) as [[]|e|] eqn:Ht.
          + apply (settles_for_each (fun f kv => run_vobj view E (V f) f (snd kv) v c)). intros [key o] Hin. cbn [snd].
            apply (entry_settles _ key o Hd); [|exact Hin]. intros cls Hcls.
            apply type_validate_ok in Ht as (t & H1 & H2). exists t. split; [exact (Hts cls Hcls t H1)|exact H2].
          + apply (settles_ext (fun _ => Raise e)).
            { intro f. cbn [for_each snd run_vobj]. rewrite Ht. reflexivity. }
            unfold type_validate in Ht. destruct (str_mem _ _); [discriminate|]. destruct (_ && _); [discriminate|].
            rewrite raise_at in Ht by exact Hc. apply settles_const. right. injection Ht as <-. eauto.
          + exfalso. unfold type_validate in Ht. destruct (str_mem _ _); [discriminate|]. destruct (_ && _); [discriminate|].
            rewrite raise_at in Ht by exact Hc. discriminate.
        - apply (settles_for_each (fun f kv => run_vobj view E (V f) f (snd kv) v c)). intros [key o] Hin. cbn [snd].
          apply (entry_settles _ key o Hd); [|exact Hin]. intros cls (m & Hm' & _). congruence. }
      destruct Hrun as (r & Hr & [f0 Hf0]). exists r. split; [exact Hr|]. exists (S f0). intros f Hf.
      destruct f as [|f]; [lia|]. cbn [validate]. rewrite Hd. cbn [bind]. apply Hf0. lia.
    Qed.
  End Step.

  Lemma bool_settles n w b v c : view n = Ok w -> nv_val w = NBool b -> Settled n v c.
  Proof.
    intros Hw Hb. exists (if b then Ok tt else Raise (EValid (VErr KFail (ctx_path c)))).
    split; [destruct b; [left|right]; eauto|]. exists 1%nat. intros f Hf. destruct f as [|f]; [lia|].
    cbn [validate]. unfold compile. rewrite Hw. cbn [bind]. rewrite Hb. cbn [bind]. destruct b; reflexivity.
  Qed.
  (** one value: settle everything below it, then the schemas by rank *)
  Lemma value_settles v : plain_names v -> fits v ->
    (forall d key x m c, v = VDict d -> In (key, x) d -> G m -> plain c -> Settled m x c) ->
    (forall d key x m c, v = VDict d -> In (key, x) d -> G m -> plain c -> Settled m (VStr key) c) ->
    (forall l x m c, v = VList l -> In x l -> G m -> plain c -> Settled m x c) ->
    forall n c, G n -> plain c -> Settled n v c.
  Proof.
    intros Hv Hfit H1 H2 H3.
    assert (Hrk : forall r n c, (rk n < r)%nat -> G n -> plain c -> Settled n v c).
    { induction r as [|r IH]; intros n c Hr HG Hc; [lia|].
      destruct (Htyped n HG) as [(w & b & Hw & Hb)|(items & Hn & Hk)]; [exact (bool_settles n w b v c Hw Hb)|].
      apply (object_settles n items v c Hn Hk Hc Hv HG Hfit).
      - intros m HGm Hlt. apply IH; [lia|exact HGm|exact Hc].
      - intros d key x m Hd Hin HGm. apply (H1 d key); auto. subst v.
        apply plain_snoc; [exact Hc|exact (proj1 (plain_names_member _ _ _ Hv Hin))].
      - intros d key x m Hd Hin HGm. apply (H2 d key x); auto. subst v.
        apply plain_snoc; [exact Hc|exact (proj1 (plain_names_member _ _ _ Hv Hin))].
      - intros l x m c' Hl Hin HGm Hc'. apply (H3 l); auto. }
    intros n c. apply (Hrk (S (rk n))). lia.
  Qed.
  Lemma all_settle v : plain_names v -> fits v -> forall n c, G n -> plain c -> Settled n v c.
  Proof.
    assert (Hscalar : forall v, (forall l, v <> VList l) -> (forall d, v <> VDict d) -> fits v -> forall n c, G n -> plain c -> Settled n v c).
    { intros x Hl Hd Hf. apply value_settles; [apply plain_names_scalar; assumption|exact Hf| | |];
        intros; exfalso; [eapply Hd|eapply Hd|eapply Hl]; eassumption. }
    induction v as [v Hnl Hnd|l IH|d IH] using pv_ind_deep; intros Hv Hf; [apply Hscalar; assumption| |].
    - apply value_settles; [exact Hv|exact Hf|discriminate|discriminate|]. intros l' x m c [= <-] Hin HG Hc.
      rewrite Forall_forall in IH. exact (IH x Hin (plain_names_item _ _ Hv Hin) (fits_item _ _ Hf Hin) m c HG Hc).
    - apply value_settles; [exact Hv|exact Hf| | |discriminate]; intros d' key x m c [= <-] Hin HG Hc.
      + rewrite Forall_forall in IH. exact (IH (key, x) Hin (proj2 (plain_names_member _ _ _ Hv Hin)) (fits_member _ _ _ Hf Hin) m c HG Hc).
      + apply Hscalar; [discriminate|discriminate|apply fits_text|exact HG|exact Hc].
  Qed.

  (** C35 (and C34), for well-typed schemas and brace-free member names: a
      value is accepted or rejected, nothing else happens. *)
  Theorem C35_total_partial n v c : G n -> plain_names v -> quotients_fit v -> arrays_flat v -> plain c ->
    Accepts view strx E voc n v c \/ Rejects view strx E voc n v c.
  Proof.
    intros HG Hv Hf Ha Hc. destruct (all_settle v Hv (conj Hf Ha) n c HG Hc) as (r & Hr & Hev). apply ev_ex in Hev as [f Hf'].
    destruct Hr as [[[] ->]|[e ->]]; [left; exists f; exact Hf'|right; exists f, e; exact Hf'].
  Qed.
  (** C34: whatever is not accepted is rejected with a [ValidationError] *)
  Theorem C34_validation_error_partial n v c r : G n -> plain_names v -> quotients_fit v -> arrays_flat v -> plain c ->
    Outcome view strx E voc n v c r -> r = Ok tt \/ exists e, r = Raise (EValid e).
  Proof.
    intros HG Hv Hf Ha Hc Ho. destruct (C35_total_partial n v c HG Hv Hf Ha Hc) as [H|H].
    - left. apply outcome_accepts in H. exact (outcome_fun _ _ _ _ _ _ _ _ _ Ho H).
    - right. apply rejects_outcome in H as [e H]. exists e. exact (outcome_fun _ _ _ _ _ _ _ _ _ Ho H).
  Qed.
End Total.
