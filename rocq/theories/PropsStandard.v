(** C112: a schema means what JSON Schema says. *)
From Verif Require Import PyBase PyBaseFacts PyVal Errors Validators Keywords Spec LeafFacts OrderFacts Mono RunFacts KeywordFacts Master Claims RejectFacts PropsErrors PropsTotal PropsWrap Parametric.
From Verif Require Import Uri Heap PropsWrap PropsUriEx PropsQuery Doc DocFacts DocLoad DocDocument PropsAnchor PropsRef Validate PropsValidate ExBase.
From Verif Require Import Standard.
From Verif Require Import PropsScalar.
From Coq Require Import QArith Qabs ZifyBool.
Local Open Scope Z_scope.
Local Notation length := List.length (only parsing).

(** ** The schemas the theorem is about *)
(** the schema's [type] allows only these types *)
Definition typed (d : list (pystr * pv)) (cls : list pystr) : Prop :=
  exists x, dget (u "type") d = Some x /\
    ((exists s, x = VStr s /\ In s cls) \/ (exists l, x = VList l /\ forall y, In y l -> exists s, y = VStr s /\ In s cls)).
Definition texts_only (x : pv) : Prop := exists l, x = VList l /\ forall y, In y l -> exists s, y = VStr s.
Definition an_object (x : pv) : Prop := exists e, x = VDict e.

(** references (see PropsRefStandard.v) and keywords of the standard that [Standard] leaves out *)
Definition beyond : list pystr := [u "$ref"; u "$dynamicRef"; u "unevaluatedItems"].

Section Usable.
  Variables (E : env) (voc : list akw).
  Variable G : pv -> Prop.       (* the schemas in play *)
  (** keyword [k] of the schema object [d], with operand [x] *)
  Definition usable (d : list (pystr * pv)) (k : akw) (x : pv) : Prop :=
    match k with
    | KwType => typed d valid_types
    | KwEnum => exists l, x = VList l /\ forall y, In y l -> unstructured y
    | KwConst => unstructured x
    (* an exclusive bound equal to 1 would make the inclusive one strict (C09) *)
    | KwMinimum => numeral x <> None /\ typed d [u "integer"; u "number"] /\
        (forall e, dget (u "exclusiveMinimum") d = Some e -> exists q, numeral e = Some q /\ ~ (q == 1)%Q)
    | KwMaximum => numeral x <> None /\ typed d [u "integer"; u "number"] /\
        (forall e, dget (u "exclusiveMaximum") d = Some e -> exists q, numeral e = Some q /\ ~ (q == 1)%Q)
    | KwExclusiveMinimum | KwExclusiveMaximum => numeral x <> None /\ typed d [u "integer"; u "number"]
    | KwMinLength | KwMaxLength => (exists n, x = VInt n) /\ typed d [u "string"]
    | KwMinItems | KwMaxItems => (exists n, x = VInt n) /\ typed d [u "array"]
    | KwMinProperties | KwMaxProperties => (exists n, x = VInt n) /\ typed d [u "object"]
    | KwFormat => typed d [u "string"] /\
        exists f test, x = VStr f /\ fmt E f = Some test /\ forall s, exists b, test (VStr s) = Ok b
    | KwPattern => typed d [u "string"] /\ exists p, x = VStr p /\ re_ok E p = true
    | KwRequired => typed d [u "object"] /\ texts_only x
    | KwDependentRequired => exists tb, x = VDict tb /\ forall key y, In (key, y) tb -> texts_only y
    | KwDependentSchemas | KwProperties => exists tb, x = VDict tb /\ forall key s, In (key, s) tb -> G s
    (* no pattern matches a name under [properties] *)
    | KwPatternProperties => exists tb, x = VDict tb /\ forall p s, In (p, s) tb -> re_ok E p = true /\ G s /\
        forall props key, dget (u "properties") d = Some (VDict props) -> In key (dkeys props) -> re_search E p key = false
    | KwAdditionalProperties => G x
    (* [false] next to applicators, or to [additionalProperties: true], is left out *)
    | KwUnevaluatedProperties => x = VBool true \/
        (x = VBool false /\ dget (u "additionalProperties") d <> Some (VBool true) /\
         forall k, In k [u "allOf"; u "anyOf"; u "oneOf"; u "if"; u "dependentSchemas"] -> dget k d = None)
    | KwPropertyNames | KwNot | KwThen | KwElse => an_object x /\ G x
    | KwItems => typed d [u "array"] /\ G x
    | KwContains => typed d [u "array"] /\ an_object x /\ G x /\
        (forall b, dget (u "minContains") d = Some b -> exists n, b = VInt n) /\
        (forall b, dget (u "maxContains") d = Some b -> exists n, b = VInt n /\ n <> 0)
    | KwUniqueItems => x = VBool false \/ (x = VBool true /\ typed d [u "array"])
    | KwAllOf => exists l, x = VList l /\ forall s, In s l -> G s
    | KwAnyOf | KwOneOf => exists l, x = VList l /\ l <> [] /\ forall s, In s l -> G s
    | KwIf => an_object x /\ G x /\ In (u "else") (dkeys d)
    | KwMultipleOf => (exists q, numeral x = Some q /\ ~ (q == 0)%Q) /\ typed d [u "integer"; u "number"]
    | KwPrefixItems => False
    end.
  (** a schema: a boolean, or an object whose keywords are in force and usable *)
  Definition supported (s : pv) : Prop :=
    (exists b, s = VBool b) \/
    (exists d, s = VDict d /\ (forall k, In k beyond -> dget k d = None) /\
       forall k x, dget (kw_key k) d = Some x -> In k voc /\ usable d k x).
End Usable.

(** Instances: floats are binary fractions exactly, and no float or Decimal is a
    whole number (1.0 is no "integer" for the package). *)
Definition sharp (y : pv) : Prop :=
  match y with
  | VFloat f => (float_q f == dec_q (frepr f))%Q /\ forall z, ~ (float_q f == inject_Z z)%Q
  | VDec d => forall z, ~ (dec_q d == inject_Z z)%Q
  | _ => True
  end.
Definition sharp_inside (v : pv) : Prop := forall p y, leads v p y -> sharp y.
(** [multipleOf] divides with 28 digits (C10): the quotients fit. *)
Definition small_quotients (G : pv -> Prop) (v : pv) : Prop :=
  forall p y q d x r, leads v p y -> numeral y = Some q -> G (VDict d) -> dget (u "multipleOf") d = Some x -> numeral x = Some r ->
    (Qabs q < inject_Z (10 ^ 28) * Qabs r)%Q.
(** [uniqueItems] keeps a set (C25): in no array are there arrays or objects, or
    booleans beside numbers. *)
Definition plain_arrays (G : pv -> Prop) (v : pv) : Prop :=
  forall p l d, leads v p (VList l) -> G (VDict d) -> dget (u "uniqueItems") d = Some (VBool true) ->
    forall x y, In x l -> In y l -> unstructured x /\ forall b, x = VBool b -> numeral y = None.

(** ** Schemas as dictionaries *)
(** schemas that are plain values; [dv] says what is seen at an object (with
    references: the object they lead to) *)
Definition rview (dv : list (pystr * pv) -> res (nview pv)) (v : pv) : res (nview pv) :=
  match v with
  | VNone => Ok (NView NNull false)
  | VBool b => Ok (NView (NBool b) false)
  | VInt z => Ok (NView (NNum (Dec z 0)) false)
  | VFloat f => Ok (NView (NNum (frepr f)) false)
  | VDec d => Ok (NView (NNum d) false)
  | VStr s => Ok (NView (NStr s) false)
  | VList l => Ok (NView (NArr l) false)
  | VDict d => dv d
  end.
Definition plain_dicts (d : list (pystr * pv)) : res (nview pv) := Ok (NView (NObj (fold_left (fun acc kn => dset (fst kn) (snd kn) acc) d [])) false).
Definition dview : pv -> res (nview pv) := rview plain_dicts.
Lemma dview_wf : wf_view dview.
Proof.
  intros n w m H Hm. destruct n; injection H as <-; try discriminate Hm. injection Hm as <-.
  apply NoDup_fold_dset. constructor.
Qed.
Lemma distinct_inv v : distinct v -> match v with
  | VDict d => NoDup (dkeys d) /\ forall k x, In (k, x) d -> distinct x
  | VList l => forall x, In x l -> distinct x
  | _ => True end.
Proof.
  intro H. inversion H as [? Hl Hd|l F|d N F]; subst.
  - destruct v; try exact I; exfalso; [eapply Hl|eapply Hd]; reflexivity.
  - rewrite Forall_forall in F. exact F.
  - split; [exact N|]. rewrite Forall_forall in F. intros k x I. exact (F (k, x) I).
Qed.
Lemma plain_dict d : NoDup (dkeys d) -> plain_dicts d = Ok (NView (NObj d) false).
Proof. intro H. unfold plain_dicts. rewrite (fold_dset_nil d H). reflexivity. Qed.
Lemma dview_same v : distinct v -> rel_res (rel_view (fun a b => a = b /\ distinct a)) (pv_view v) (dview v).
Proof.
  intro D. apply distinct_inv in D. unfold dview, plain_dicts. destruct v; cbn; constructor; (split; [|reflexivity]); cbn [nv_val]; try constructor.
  - induction l as [|x l IH]; constructor; [split; [reflexivity|apply D; left; reflexivity]|]. apply IH. intros y Hy. apply D. right. exact Hy.
  - destruct D as [N D]. rewrite (fold_dset_nil d N). clear N.
    induction d as [|[k x] d IH]; constructor; [split; [reflexivity|split; [reflexivity|eapply D; left; reflexivity]]|].
    apply IH. intros k' y Hy. eapply D. right. exact Hy.
Qed.
Lemma dview_validate strx E voc fuel s v c : distinct s -> validate pv_view strx E voc fuel s v c = validate dview strx E voc fuel s v c.
Proof.
  intro D. apply (validate_related (fun a b => a = b /\ distinct a)).
  - intros a b [<- Da]. apply dview_same, Da.
  - intros a b [<- _]. reflexivity.
  - split; [reflexivity|exact D].
Qed.

(** the size of a value *)
Fixpoint weight (v : pv) : nat :=
  match v with
  | VList l => S (fold_right (fun x n => (weight x + n)%nat) O l)
  | VDict d => S (fold_right (fun kx n => (weight (snd kx) + n)%nat) O d)
  | _ => 1%nat
  end.
Lemma weight_elem l x : In x l -> (weight x < weight (VList l))%nat.
Proof. cbn [weight]. induction l as [|y l IH]; [intros []|]. cbn [fold_right]. intros [->|I]; [lia|]. specialize (IH I). lia. Qed.
Lemma weight_member d k x : In (k, x) d -> (weight x < weight (VDict d))%nat.
Proof. cbn [weight]. induction d as [|y d IH]; [intros []|]. cbn [fold_right]. intros [->|I]; [cbn [snd]; lia|]. specialize (IH I). lia. Qed.

(** members that hold a table, not a schema *)
Definition tables : list pystr := [u "properties"; u "patternProperties"; u "dependentSchemas"; u "dependentRequired"].
(** the schemas [s] in the operand [x] that keyword [k] applies to the same value *)
Definition stays (k : akw) (x s : pv) : Prop :=
  match k with
  | KwAllOf | KwAnyOf | KwOneOf => exists l, x = VList l /\ In s l
  | KwNot | KwIf | KwThen | KwElse => s = x
  | KwDependentSchemas => exists tb key, x = VDict tb /\ In (key, s) tb
  | _ => False
  end.

Definition re_matches (E : env) (p s : pystr) : Prop := re_search E p s = true.
Definition fmt_conforms (E : env) (f s : pystr) : Prop := exists test, fmt E f = Some test /\ test (VStr s) = Ok true.
(** an object and its members under a reading [M] of schemas *)
Definition opd (M : pv -> meaning) (x : pv) : operand := Operand x (M x)
  (match x with VList l => map M l | _ => [] end) (match x with VDict e => map (fun ky => (fst ky, M (snd ky))) e | _ => [] end).
Definition tab (M : pv -> meaning) (d : list (pystr * pv)) : list (pystr * operand) := map (fun kx => (fst kx, opd M (snd kx))) d.
Lemma M_dict matches conforms d : means matches conforms (VDict d) = object_meaning matches conforms (tab (means matches conforms) d).
Proof. reflexivity. Qed.
Lemma dget_tab M k d : dget k (tab M d) = option_map (opd M) (dget k d).
Proof. induction d as [|[k' x] d IH]; [reflexivity|]. cbn [tab map dget fst snd]. destruct (str_eqb k k'); [reflexivity|exact IH]. Qed.
Lemma tab_get M k d m : dget k (tab M d) = Some m -> exists x, dget k d = Some x /\ m = opd M x.
Proof. rewrite dget_tab. destruct (dget k d) as [x|]; [|discriminate]. intros [= <-]. eauto. Qed.
Lemma tab_some M k d x : dget k d = Some x -> dget k (tab M d) = Some (opd M x).
Proof. intro H. rewrite dget_tab, H. reflexivity. Qed.
Lemma named_in M e key s : In (key, s) (named (opd M (VDict e))) -> exists y, In (key, y) e /\ s = M y.
Proof. cbn [opd named]. intro I. apply in_map_iff in I as ([k y] & [= <- <-] & I). eauto. Qed.
Lemma in_named M e key y : In (key, y) e -> In (key, M y) (named (opd M (VDict e))).
Proof. cbn [opd named]. intro I. apply in_map_iff. exists (key, y). auto. Qed.

Section Agreement.
  Variables (E : env) (voc : list akw) (strx : pv -> pystr) (G : pv -> Prop).
  Definition Gd (s : pv) : Prop := G s /\ distinct s.
  Definition object_supported (d : list (pystr * pv)) : Prop :=
    (forall k, In k beyond -> dget k d = None) /\ forall k x, dget (kw_key k) d = Some x -> In k voc /\ usable E G d k x.
  Variables (dv : list (pystr * pv) -> res (nview pv)) (M : pv -> meaning) (rk : pv -> nat).
  Notation view := (rview dv).
  (** what is seen at the schemas in play, and what they mean *)
  Definition read_as (s : pv) (o : list (pystr * pv)) (r : bool) : Prop :=
    an_object s /\ view s = Ok (NView (NObj o) r) /\ Gd (VDict o) /\ object_supported o /\ (rk (VDict o) <= rk s)%nat /\
    forall v, valid (M s) v <-> object_valid (re_matches E) (fmt_conforms E) (tab M o) v.
  Hypothesis Hwf : wf_view view.
  Hypothesis Hs : forall s, Gd s -> (exists b, s = VBool b) \/ exists o r, read_as s o r.
  Hypothesis Htb : forall d k tb, Gd (VDict d) -> object_supported d -> In k tables -> dget k d = Some (VDict tb) -> dv tb = Ok (NView (NObj tb) false).
  Hypothesis Hrk : forall d k x s, Gd (VDict d) -> object_supported d -> dget (kw_key k) d = Some x -> stays k x s -> G s -> (rk s < rk (VDict d))%nat.
  Hypothesis HMb : forall b v, valid (M (VBool b)) v <-> b = true.
  Hypothesis Htf : exists rest, voc = KwType :: rest.

  Lemma typed_only d cls cls' : typed d cls -> incl cls cls' -> only_types view d cls'.
  Proof.
    intros (x & Hx & H) Hi. exists x. split; [exact Hx|]. destruct H as [(s & -> & Is)|(l & -> & Hl)].
    - left. exists s. split; [reflexivity|apply Hi, Is].
    - right. exists l. split; [reflexivity|]. intros y Iy. destruct (Hl y Iy) as (s & -> & Is). exists s. split; [reflexivity|apply Hi, Is].
  Qed.
  Lemma numeral_numeric x : numeral x <> None -> numeric view x.
  Proof. destruct x; cbn; intro H; try congruence; eexists; reflexivity. Qed.
  Lemma numeral_view x p : numeral x = Some p -> exists d, view x = Ok (NView (NNum d) false) /\ (dec_q d == p)%Q.
  Proof.
    destruct x; cbn [numeral]; try discriminate; intros [= <-]; eexists; (split; [reflexivity|]); try reflexivity.
    unfold dec_q. cbn [dc de]. rewrite scaled_int by lia. rewrite Z.pow_0_r, Z.mul_1_r. reflexivity.
  Qed.
  Lemma seen x : Gd x -> an_object x -> exists o r, read_as x o r.
  Proof. intros Gx [e ->]. destruct (Hs _ Gx) as [[b [=]]|H]. exact H. Qed.
  Lemma an_obj x : Gd x -> an_object x -> exists it, obj_at view x it.
  Proof. intros Gx O. destruct (seen x Gx O) as (o & r & _ & Hv & _). exists o. eexists. split; [exact Hv|reflexivity]. Qed.
  Lemma schema_shape x : Gd x -> (exists b, x = VBool b) \/ an_object x.
  Proof. intro Gx. destruct (Hs x Gx) as [H|(o & r & H & _)]; [left|right]; exact H. Qed.
  Lemma unstructured_scalar y : unstructured y -> exists z, val_at view y z /\ scalar z.
  Proof. destruct y; cbn; intro H; try contradiction; eexists; (split; [reflexivity|exact I]). Qed.

  Lemma usable_used nd d k x : Gd (VDict d) -> object_supported d -> (rk (VDict d) <= rk nd)%nat -> dget (kw_key k) d = Some x ->
    well_used view E voc Gd rk nd d k x.
  Proof.
    intros GD Sd Ln Hx. destruct (proj2 Sd k x Hx) as [Ik U]. pose proof (distinct_inv _ (proj2 GD)) as [Nd Dd]. pose proof (dget_In _ _ _ Hx) as Ix.
    pose proof (Dd _ _ Ix) as Dx.
    assert (Hall := proj2 Sd).
    assert (Low : forall s, stays k x s -> G s -> distinct s -> Gd s /\ (rk s < rk nd)%nat).
    { intros s St Gs Ds. split; [split; assumption|]. pose proof (Hrk d k x s GD Sd Hx St Gs). lia. }
    assert (Tb : forall tb, In (kw_key k) tables -> x = VDict tb -> obj_at view x tb).
    { intros tb It ->. eexists. split; [exact (Htb d _ tb GD Sd It Hx)|reflexivity]. }
    destruct k; cbn [usable well_used] in *.
    - destruct (schema_shape x (conj U Dx)) as [[b ->]|O]; [left; eexists; reflexivity|right]. split; [exact (an_obj x (conj U Dx) O)|split; assumption].
    - destruct U as (l & -> & Hl). exists l. split; [reflexivity|]. intros s Is. apply Low; [exists l; split; [reflexivity|exact Is]|exact (Hl s Is)|exact (distinct_inv _ Dx s Is)].
    - destruct U as (l & -> & Hn & Hl). exists l. split; [reflexivity|]. split; [exact Hn|]. intros s Is. apply Low; [exists l; split; [reflexivity|exact Is]|exact (Hl s Is)|exact (distinct_inv _ Dx s Is)].
    - apply unstructured_scalar, U.
    - destruct U as (T & O & Gx & M1 & M2). split; [exact (typed_only _ _ _ T (incl_refl _))|]. split; [exact (an_obj x (conj Gx Dx) O)|]. split; [split; assumption|].
      split; [intros b Hb; destruct (M1 b Hb) as [n ->]; eexists; reflexivity|intros b Hb; destruct (M2 b Hb) as (n & -> & _); eexists; reflexivity].
    - destruct U as (tb & -> & Ht). exists tb. split; [apply Tb; [cbn; tauto|reflexivity]|]. intros key y Iy. destruct (Ht key y Iy) as (l & -> & _). exists l. reflexivity.
    - destruct U as (tb & -> & Ht). exists tb. split; [apply Tb; [cbn; tauto|reflexivity]|]. intros key y Iy. apply Low; [exists tb, key; split; [reflexivity|exact Iy]|exact (Ht key y Iy)|exact (proj2 (distinct_inv _ Dx) key y Iy)].
    - destruct U as [O Gx]. split; [exact (an_obj x (conj Gx Dx) O)|]. apply Low; [reflexivity|assumption|assumption].
    - destruct U as (l & -> & Hl). exists l. split; [reflexivity|]. intros y Iy. apply unstructured_scalar, Hl, Iy.
    - destruct U as [Nx T]. left. split; [exact (numeral_numeric x Nx)|]. eapply typed_only; [exact T|]. intros t [<-|[<-|[]]]; cbn; tauto.
    - destruct U as [Nx T]. left. split; [exact (numeral_numeric x Nx)|]. eapply typed_only; [exact T|]. intros t [<-|[<-|[]]]; cbn; tauto.
    - destruct U as (T & f & test & -> & Hf & Ht). split; [exact (typed_only _ _ _ T (incl_refl _))|]. exists f, test. split; [reflexivity|]. split; assumption.
    - destruct U as (O & Gx & Ie). split; [exact (an_obj x (conj Gx Dx) O)|]. split; [apply Low; [reflexivity|assumption|assumption]|]. split; [|exact Ie].
      apply dmem_In, dmem_dget in Ie as [e He]. apply (proj1 (Hall KwElse e He)).
    - destruct U as [T Gx]. split; [exact (typed_only _ _ _ T (incl_refl _))|]. split; [|split; assumption].
      destruct (schema_shape x (conj Gx Dx)) as [[b ->]|O]; [left; eexists; reflexivity|right; exact (an_obj x (conj Gx Dx) O)].
    - destruct U as [[n ->] T]. split; [eexists; reflexivity|]. eapply typed_only; [exact T|]. intros t [<-|[]]; cbn; tauto.
    - destruct U as [[n ->] T]. split; [eexists; reflexivity|]. eapply typed_only; [exact T|]. intros t [<-|[]]; cbn; tauto.
    - destruct U as [[n ->] T]. split; [eexists; reflexivity|]. eapply typed_only; [exact T|]. intros t [<-|[]]; cbn; tauto.
    - destruct U as (Nx & T & X). split; [exact (numeral_numeric x Nx)|]. split; [eapply typed_only; [exact T|]; intros t [<-|[<-|[]]]; cbn; tauto|].
      intros e He. destruct (X e He) as (q & Hq & _). destruct e; try discriminate; eexists; reflexivity.
    - destruct U as [[n ->] T]. split; [eexists; reflexivity|]. eapply typed_only; [exact T|]. intros t [<-|[]]; cbn; tauto.
    - destruct U as [[n ->] T]. split; [eexists; reflexivity|]. eapply typed_only; [exact T|]. intros t [<-|[]]; cbn; tauto.
    - destruct U as [[n ->] T]. split; [eexists; reflexivity|]. eapply typed_only; [exact T|]. intros t [<-|[]]; cbn; tauto.
    - destruct U as (Nx & T & X). split; [exact (numeral_numeric x Nx)|]. split; [eapply typed_only; [exact T|]; intros t [<-|[<-|[]]]; cbn; tauto|].
      intros e He. destruct (X e He) as (q & Hq & _). destruct e; try discriminate; eexists; reflexivity.
    - destruct U as [(q & Hq & N) T]. split; [|exact (typed_only _ _ _ T (incl_refl _))]. destruct (numeral_view x q Hq) as (e & He & Ee). exists e.
      split; [unfold val_at; rewrite He; reflexivity|]. rewrite Ee. exact N.
    - destruct U as [O Gx]. split; [exact (an_obj x (conj Gx Dx) O)|]. apply Low; [reflexivity|assumption|assumption].
    - destruct U as (l & -> & Hn & Hl). exists l. split; [reflexivity|]. split; [exact Hn|]. intros s Is. apply Low; [exists l; split; [reflexivity|exact Is]|exact (Hl s Is)|exact (distinct_inv _ Dx s Is)].
    - destruct U as (T & p & -> & Hp). split; [exact (typed_only _ _ _ T (incl_refl _))|]. exists p. split; [reflexivity|exact Hp].
    - destruct U as (tb & -> & Ht). exists tb. split; [apply Tb; [cbn; tauto|reflexivity]|]. intros p s I. destruct (Ht p s I) as (R & Gs & _). split; [exact R|]. split; [exact Gs|exact (proj2 (distinct_inv _ Dx) p s I)].
    - exact U.
    - destruct U as (tb & -> & Ht). exists tb. split; [apply Tb; [cbn; tauto|reflexivity]|]. intros key y Iy. split; [exact (Ht key y Iy)|exact (proj2 (distinct_inv _ Dx) key y Iy)].
    - destruct U as [O Gx]. split; [exact (an_obj x (conj Gx Dx) O)|]. split; assumption.
    - destruct U as [T (l & -> & _)]. split; [|exists l; reflexivity]. eapply typed_only; [exact T|]. intros t [<-|[]]; cbn; tauto.
    - destruct U as [O Gx]. split; [exact (an_obj x (conj Gx Dx) O)|]. apply Low; [reflexivity|assumption|assumption].
    - exact (typed_only _ _ _ U (incl_refl _)).
    - destruct U as [->|[-> _]]; eexists; reflexivity.
    - destruct U as [->|[-> T]]; [left; reflexivity|right; split; [reflexivity|exact (typed_only _ _ _ T (incl_refl _))]].
  Qed.
  Lemma all_typed : well_typed view E voc Gd rk.
  Proof.
    intros s Gs. destruct (Hs s Gs) as [[b ->]|(o & r & _ & Hv & Go & So & Lo & _)]; [left; eexists; exists b; split; reflexivity|right].
    exists o. split; [eexists; split; [exact Hv|reflexivity]|]. intros k x Ik Hx. apply usable_used; assumption.
  Qed.
  Notation Acc := (Accepts view strx E voc).
  Notation Rej := (Rejects view strx E voc).
  Notation fine v := (sharp_inside v /\ small_quotients G v /\ plain_arrays G v) (only parsing).
  Lemma small_fit v : small_quotients G v -> quotients_fit view Gd v.
  Proof.
    intros H p y x n items m q L Cy Gn (w & Hw0 & Hw) Hm Hq. destruct (Hs n Gn) as [[b ->]|(d & r0 & _ & Hv & [Go _] & So & _)]; [injection Hw0 as <-; discriminate Hw|]. rewrite Hv in Hw0. injection Hw0 as <-. injection Hw as <-. clear Gn Hv.
    assert (A : exists q', numeral y = Some q' /\ (dec_q x == q')%Q).
    { destruct y; cbn in Cy; try contradiction; subst x; (eexists; split; [reflexivity|]); try reflexivity.
      unfold dec_q. cbn [dc de]. rewrite scaled_int by lia. rewrite Z.pow_0_r, Z.mul_1_r. reflexivity. }
    destruct A as (q' & Hq' & Eq). assert (B : exists r, numeral m = Some r).
    { destruct (proj2 So KwMultipleOf m Hm) as (_ & (r & Hr & _) & _). exists r. exact Hr. }
    destruct B as [r Hr]. destruct (numeral_view m r Hr) as (e & He & Ee). unfold val_at in Hq. rewrite He in Hq. injection Hq as <-.
    rewrite Eq, Ee. exact (H p y q' d m r L Hq' Go Hm Hr).
  Qed.
  Lemma plain_flat v : plain_arrays G v -> arrays_flat view Gd v.
  Proof.
    intros H p l x n items m L Ix Gn (w & Hw0 & Hw) Hm Hq. destruct (Hs n Gn) as [[b ->]|(d & r0 & _ & Hv & [Go _] & So & _)]; [injection Hw0 as <-; discriminate Hw|]. rewrite Hv in Hw0. injection Hw0 as <-. injection Hw as <-. clear Gn Hv.
    assert (m = VBool true) as -> by (destruct (proj2 So KwUniqueItems m Hm) as (_ & [->|[-> _]]); [discriminate Hq|reflexivity]). exact (proj1 (H p l d L Go Hm x x Ix Ix)).
  Qed.
  Lemma outcome s v c : Gd s -> fine v -> plain_names v -> plain c -> Acc s v c \/ Rej s v c.
  Proof. intros Gs (_ & Hf & Ha) P C. apply small_fit in Hf. apply plain_flat in Ha. eapply (C35_total_partial view strx E voc Hwf Gd rk all_typed Htf); eassumption. Qed.
  Lemma none_fits : fits view Gd VNone.
  Proof. split; [intros p y x n items m q L Cy; inversion L; subst; destruct Cy|intros p l x n items m L; inversion L]. Qed.
  Lemma compiles_d n : Gd n -> an_object n -> compiles view strx E voc n.
  Proof.
    intros Gn On. destruct (seen n Gn On) as (d & r & _ & Hv & GD & Sd & Ln & _).
    eapply (node_compiles view strx E voc Hwf Gd rk n d VNone []).
    - eexists. split; [exact Hv|reflexivity].
    - intros k x Ik Hx. apply usable_used; assumption.
    - constructor.
    - apply plain_names_scalar; discriminate.
    - exact Gn.
    - exact none_fits.
    - intros m Gm _. apply (all_settle view strx E voc Hwf Gd rk all_typed Htf); [|exact none_fits|exact Gm|constructor]. apply plain_names_scalar; discriminate.
    - discriminate.
    - discriminate.
    - discriminate.
  Qed.

  (** scalars *)
  Lemma whole_int n z : whole (VInt n) z <-> z = n.
  Proof.
    unfold whole, Qeq. cbn. split; [intros (q & [= <-] & H); cbn in H; lia|]. intros ->. eexists. split; [reflexivity|]. cbn. lia.
  Qed.
  Lemma sharp_type v t : sharp v -> (has_type v t <-> is_type v t).
  Proof.
    intro S. destruct v; cbn in *; try reflexivity.
    - split; [intros [->| ->]; [right|left; reflexivity]|tauto]. split; [reflexivity|]. exists z. apply whole_int. reflexivity.
    - split; [tauto|]. intros [->|(-> & z & q & [= <-] & H)]; [reflexivity|]. exfalso. destruct S as [S1 S2]. apply (S2 z). rewrite S1. exact H.
    - split; [tauto|]. intros [->|(-> & z & q & [= <-] & H)]; [reflexivity|]. exfalso. exact (S z H).
  Qed.
  Lemma sharp_numeral v q : sharp v -> (numeral v = Some q -> exists q', value_is v q' /\ (q' == q)%Q).
  Proof. intros S H. destruct v; cbn in *; try discriminate; injection H as <-; eexists; (split; [reflexivity|]); try reflexivity. apply S. Qed.
  Lemma sharp_value v q : sharp v -> (forall b, v <> VBool b) -> value_is v q -> exists q', numeral v = Some q' /\ (q == q')%Q.
  Proof. intros S B H. destruct v; cbn in *; try contradiction; try (exfalso; eapply B; reflexivity); subst q; eexists; (split; [reflexivity|]); try reflexivity. apply S. Qed.
  Lemma elems_same y z : unstructured y -> unstructured z -> sharp y -> sharp z -> (forall b, y = VBool b -> numeral z = None) -> (forall b, z = VBool b -> numeral y = None) ->
    (equal_values y z <-> same y z).
  Proof.
    intros Uy Uz Sy Sz By Bz.
    assert (N : (forall b, y <> VBool b) -> (forall b, z <> VBool b) -> ((exists p q, value_is y p /\ value_is z q /\ (p == q)%Q) <-> exists p q, numeral y = Some p /\ numeral z = Some q /\ (p == q)%Q)).
    { intros Ny Nz. split; intros (p & q & Hp & Hq & E').
      - destruct (sharp_value y p Sy Ny Hp) as (p' & Hp' & Ep). destruct (sharp_value z q Sz Nz Hq) as (q' & Hq' & Eq). exists p', q'. split; [exact Hp'|]. split; [exact Hq'|]. rewrite <- Ep, <- Eq. exact E'.
      - destruct (sharp_numeral y p Sy Hp) as (p' & Hp' & Ep). destruct (sharp_numeral z q Sz Hq) as (q' & Hq' & Eq). exists p', q'. split; [exact Hp'|]. split; [exact Hq'|]. rewrite Ep, Eq. exact E'. }
    assert (Sm : (exists p q, numeral y = Some p /\ numeral z = Some q /\ (p == q)%Q) -> same y z) by (intros (p & q & Hp & Hq & E'); eapply same_number; eassumption).
    destruct y as [|b|?|?|?|s|?|?]; try contradiction; destruct z as [|b'|?|?|?|s'|?|?]; try contradiction; cbn [equal_values];
      try (exfalso; specialize (By _ eq_refl); discriminate By); try (exfalso; specialize (Bz _ eq_refl); discriminate Bz);
      try (split; [intros (p & q & Hp & Hq & _); cbn in Hp, Hq; contradiction|intro H; inversion H; subst; discriminate]);
      try (split; [intro H; apply Sm, N; [discriminate|discriminate|exact H]|intro H; apply N; [discriminate|discriminate|]; inversion H; subst; eauto]).
    - split; [constructor|auto].
    - cbn [value_is]. split.
      + intros (p & q & -> & -> & H). destruct b, b'; try constructor; discriminate H.
      + intro H. inversion H; subst; [|discriminate]. do 2 eexists. split; [reflexivity|]. split; reflexivity.
    - split; [intros ->; constructor|intro H; inversion H; subst; [reflexivity|discriminate]].
  Qed.
  Lemma number_same x d p v : numeral x = Some p -> (dec_q d == p)%Q -> sharp v -> (same_scalar (@NNum pv d) v <-> same x v).
  Proof.
    intros Hx Hd Sv. transitivity (exists q, numeral v = Some q /\ (p == q)%Q).
    - split.
      + intro H. destruct v; cbn in H; try contradiction; (eexists; split; [reflexivity|]); rewrite <- Hd, H; try reflexivity. apply Sv.
      + intros (q & Hq & Ep). destruct v; cbn in *; try discriminate; injection Hq as <-; rewrite Hd, Ep; try reflexivity. symmetry. apply Sv.
    - split; [intros (q & Hq & Ep); eapply same_number; eassumption|]. intro H. inversion H; subst; try discriminate. exists q. split; [assumption|]. congruence.
  Qed.
  Lemma scalar_same x v : unstructured x -> sharp v -> exists y, view x = Ok (NView y false) /\ scalar y /\ (same_scalar y v <-> same x v).
  Proof.
    intros Ux Sv. destruct x as [|b|z|f|e|s|l|e]; cbn in Ux; try contradiction; (eexists; split; [reflexivity|]); (split; [exact I|]).
    - destruct v; cbn; split; intro H; try contradiction; try exact I; try (inversion H; discriminate); try constructor; inversion H; subst; try discriminate.
    - destruct v; cbn; split; intro H; try contradiction; try (subst; constructor); inversion H; subst; try discriminate; reflexivity.
    - eapply number_same; [reflexivity| |exact Sv]. unfold dec_q. cbn [dc de]. rewrite scaled_int by lia. rewrite Z.pow_0_r, Z.mul_1_r. reflexivity.
    - eapply number_same; [reflexivity|reflexivity|exact Sv].
    - eapply number_same; [reflexivity|reflexivity|exact Sv].
    - destruct v; cbn; split; intro H; try contradiction; try (subst; constructor); inversion H; subst; try discriminate; reflexivity.
  Qed.
  Lemma dec_int_Z n : dec_int (Dec n 0) = n.
  Proof. unfold dec_int. cbn. lia. Qed.

  (** *** One schema object on one value *)
  Section Object.
    Variables (d : list (pystr * pv)) (v : pv) (c : ctx).
    Hypothesis HGd : Gd (VDict d).
    Hypothesis Hsd : object_supported d.
    Notation Hall := (proj2 Hsd).
    Hypothesis Hv : fine v.
    Hypothesis Hp : plain_names v.
    Hypothesis Hc : plain c.
    (** a smaller value, or a schema further down on the same one *)
    Definition later (s y : pv) : Prop := (weight y < weight v)%nat \/ (y = v /\ (rk s < rk (VDict d))%nat).
    Hypothesis IH : forall s y c', Gd s -> later s y -> fine y -> plain_names y -> plain c' ->
      (Acc s y c' <-> valid (M s) y).

    Lemma rej s y c' : Gd s -> later s y -> fine y -> plain_names y -> plain c' ->
      (Rej s y c' <-> ~ valid (M s) y).
    Proof.
      intros Gs W S P C. pose proof (IH s y c' Gs W S P C) as A. split.
      - intros R K. apply A in K. exact (accepts_not_rejects _ _ _ _ _ _ _ K R).
      - intro N. destruct (outcome s y c' Gs S P C) as [K|K]; [|exact K]. exfalso. apply N, A, K.
    Qed.
    Lemma dd : NoDup (dkeys d) /\ forall k x, In (k, x) d -> distinct x.
    Proof. exact (distinct_inv _ (proj2 HGd)). Qed.
    Lemma table k tb : In k tables -> dget k d = Some (VDict tb) -> dv tb = Ok (NView (NObj tb) false).
    Proof. intros I H. exact (Htb d k tb HGd Hsd I H). Qed.
    (** sub-schemas: the operand, its elements, its members *)
    Lemma sub_self k x : dget k d = Some x -> G x -> Gd x.
    Proof. intros H Gx. apply dget_In in H. split; [exact Gx|exact (proj2 dd _ _ H)]. Qed.
    Lemma sub_elem k l s : dget k d = Some (VList l) -> In s l -> G s -> Gd s.
    Proof. intros H I Gs. apply dget_In in H. split; [exact Gs|exact (distinct_inv _ (proj2 dd _ _ H) s I)]. Qed.
    Lemma sub_member k e key s : dget k d = Some (VDict e) -> In (key, s) e -> G s -> Gd s.
    Proof. intros H I Gs. apply dget_In in H. split; [exact Gs|exact (proj2 (distinct_inv _ (proj2 dd _ _ H)) key s I)]. Qed.
    Lemma low k x s : dget (kw_key k) d = Some x -> stays k x s -> G s -> (rk s < rk (VDict d))%nat.
    Proof. exact (Hrk d k x s HGd Hsd). Qed.
    Lemma low_self k x : stays k x x -> dget (kw_key k) d = Some x -> G x -> Gd x /\ (rk x < rk (VDict d))%nat.
    Proof. intros St H Gx. split; [exact (sub_self _ _ H Gx)|exact (low k x x H St Gx)]. Qed.
    Lemma low_elem k l s : stays k (VList l) s -> dget (kw_key k) d = Some (VList l) -> In s l -> G s -> Gd s /\ (rk s < rk (VDict d))%nat.
    Proof. intros St H I Gs. split; [exact (sub_elem _ _ _ H I Gs)|exact (low k _ s H St Gs)]. Qed.
    Lemma low_member e key s : dget (kw_key KwDependentSchemas) d = Some (VDict e) -> In (key, s) e -> G s -> Gd s /\ (rk s < rk (VDict d))%nat.
    Proof. intros H I Gs. split; [exact (sub_member _ _ _ _ H I Gs)|]. apply (low KwDependentSchemas (VDict e) s H); [exists e, key; auto|exact Gs]. Qed.
    (** sub-values *)
    Lemma here_sharp : sharp v.
    Proof. exact (proj1 Hv [] v (leads_here v)). Qed.
    Lemma member_ok e key y : v = VDict e -> In (key, y) e -> fine y /\ plain_names y /\ plain (c ++ [key]) /\ plain_names (VStr key).
    Proof.
      intros Ev I. pose proof Hp as Hp'. rewrite Ev in Hp'. destruct (plain_names_member _ _ _ Hp' I) as [P1 P2]. split.
      - split; [|split]; [intros p z L; apply (proj1 Hv (key :: p))|intros p z q d' x r L; apply (proj1 (proj2 Hv) (key :: p))|intros p l d' L; apply (proj2 (proj2 Hv) (key :: p))]; rewrite Ev; eapply leads_member; eassumption.
      - split; [exact P2|]. split; [exact (plain_snoc c key Hc P1)|]. apply plain_names_scalar; discriminate.
    Qed.
    Lemma text_sharp key : fine (VStr key).
    Proof. split; [intros p y L; inversion L; subst; exact I|]. split; [intros p y q d' x r L Hq; inversion L; subst; discriminate|intros p l d' L; inversion L]. Qed.
    Lemma elem_ok l i y : v = VList l -> nth_error l i = Some y -> fine y /\ plain_names y /\ plain (c ++ [nat_str i]).
    Proof.
      intros Ev I. pose proof Hp as Hp'. rewrite Ev in Hp'. split; [|split].
      - split; [|split]; [intros p z L; apply (proj1 Hv (nat_str i :: p))|intros p z q d' x r L; apply (proj1 (proj2 Hv) (nat_str i :: p))|intros p l' d' L; apply (proj2 (proj2 Hv) (nat_str i :: p))]; rewrite Ev; eapply leads_item; eassumption.
      - eapply plain_names_item; [exact Hp'|]. eapply nth_error_In, I.
      - apply plain_snoc; [exact Hc|apply plain_nat_str].
    Qed.

    Notation D k x y := (demands view strx E voc Acc Rej d k x y v c).
    Lemma K_type x w : dget (u "type") d = Some x -> typed d valid_types -> view x = Ok w ->
      (D KwType x (nv_val w) <-> (exists s, x = VStr s /\ is_type v s) \/ (exists l s, x = VList l /\ In (VStr s) l /\ is_type v s)).
    Proof.
      intros Hx (x' & Hx' & H) Hw. rewrite Hx in Hx'. injection Hx' as <-. destruct H as [(s & -> & _)|(l & -> & Hl)]; injection Hw as <-; cbn [nv_val demands].
      - rewrite (sharp_type v s here_sharp). split; [eauto|]. intros [(s' & [= <-] & H)|(l & s' & [=] & _)]. exact H.
      - split.
        + intros (m & Im & H). right. destruct (Hl m Im) as (s & -> & _). exists l, s. split; [reflexivity|]. split; [exact Im|]. apply (sharp_type v s here_sharp). exact H.
        + intros [(s' & [=] & _)|(l' & s & [= <-] & Is & H)]. exists (VStr s). split; [exact Is|]. apply (sharp_type v s here_sharp). exact H.
    Qed.
    (** the value passes the [type] of the schema *)
    Definition passed : Prop := forall cls, typed d cls -> exists t, In t cls /\ is_type v t.
    Lemma passes : (forall x, dget (u "type") d = Some x -> (exists s, x = VStr s /\ is_type v s) \/ (exists l s, x = VList l /\ In (VStr s) l /\ is_type v s)) -> passed.
    Proof.
      intros H cls (x & Hx & T). destruct (H x Hx) as [(s & -> & Hs')|(l & s & -> & Is & Hs')].
      - destruct T as [(s' & [= <-] & I)|(l & [=] & _)]. eauto.
      - destruct T as [(s' & [=] & _)|(l' & [= <-] & I)]. destruct (I _ Is) as (s' & [= <-] & I'). eauto.
    Qed.
    Hypothesis Pa : passed.
    Lemma is_number : typed d [u "integer"; u "number"] -> (exists q, numeral v = Some q) /\ forall b, v <> VBool b.
    Proof.
      intro T. destruct (Pa _ T) as (t & It & H). destruct v; cbn in *; try (split; [eexists; reflexivity|discriminate]); subst t;
        repeat (destruct It as [It|It]; [discriminate It|]); destruct It.
    Qed.
    Lemma is_text : typed d [u "string"] -> exists s, v = VStr s.
    Proof. intro T. destruct (Pa _ T) as (t & [<-|[]] & H). destruct v; cbn in H; try discriminate; try (destruct H as [H|[H _]]; discriminate). eauto. Qed.
    Lemma is_list : typed d [u "array"] -> exists l, v = VList l.
    Proof. intro T. destruct (Pa _ T) as (t & [<-|[]] & H). destruct v; cbn in H; try discriminate; try (destruct H as [H|[H _]]; discriminate). eauto. Qed.
    Lemma is_dict : typed d [u "object"] -> exists e, v = VDict e.
    Proof. intro T. destruct (Pa _ T) as (t & [<-|[]] & H). destruct v; cbn in H; try discriminate; try (destruct H as [H|[H _]]; discriminate). eauto. Qed.

    Lemma K_enum l : (forall y, In y l -> unstructured y) -> (D KwEnum (VList l) (NArr l) <-> exists l0 y, VList l = VList l0 /\ In y l0 /\ same y v).
    Proof.
      intro U. cbn [demands].
      split.
      - intros (l1 & m & l2 & y & El & Hy & H & _). assert (Im : In m l) by (rewrite El; apply in_or_app; right; left; reflexivity).
        exists l, m. split; [reflexivity|]. split; [exact Im|]. destruct (scalar_same m v (U m Im) here_sharp) as (z & Hz & Sz & Q). apply Q.
        unfold enum_item in Hy. rewrite Hz in Hy. injection Hy as <-. apply (eq_raw_same view z v Sz), H.
      - intros (l0 & y & [= <-] & Iy & S). induction l as [|x l IHl]; [contradiction|].
        destruct (scalar_same x v (U x (or_introl eq_refl)) here_sharp) as (z & Hz & Sz & Q).
        assert (Ez : enum_item view x = Ok z) by (unfold enum_item; rewrite Hz; reflexivity).
        destruct (eq_raw_scalar view z v Sz) as [b Hb].
        assert (Dec : (eq_raw view z v = Ok true /\ is_nbool z = is_bool v) \/
                     (eq_raw view z v = Ok false \/ (eq_raw view z v = Ok true /\ is_nbool z <> is_bool v))).
        { destruct b; [|auto]. destruct (Bool.bool_dec (is_nbool z) (is_bool v)); auto. }
        destruct Dec as [Y|N].
        + exists [], x, l, z. split; [reflexivity|]. split; [exact Ez|]. split; [exact Y|]. intros ? ? [].
        + destruct Iy as [<-|Iy].
          * exfalso. apply Q, (eq_raw_same view z v Sz) in S. destruct S as [S1 S2]. destruct N as [N|[_ N]]; congruence.
          * destruct IHl as (l1 & m & l2 & y' & -> & H1 & H2 & H3); [intros a Ia; apply U; right; exact Ia|exact Iy|].
            exists (x :: l1), m, l2, y'. split; [reflexivity|]. split; [exact H1|]. split; [exact H2|]. intros m' z' [<-|Im] Hz'; [|exact (H3 m' z' Im Hz')].
            rewrite Ez in Hz'. injection Hz' as <-. exact N.
    Qed.
    Lemma K_const x w : unstructured x -> view x = Ok w -> (D KwConst x (nv_val w) <-> same x v).
    Proof. intros U Hw. destruct (scalar_same x v U here_sharp) as (y & Hy & _ & Q). rewrite Hy in Hw. injection Hw as <-. exact Q. Qed.

    Lemma no_flag k x : dget k d = Some x -> (exists q, numeral x = Some q /\ ~ (q == 1)%Q) -> ~ strict_flag view d k.
    Proof.
      intros Hx (q & Hq & N) (n & w & Hn & Hw & H). rewrite Hx in Hn. injection Hn as <-. destruct (numeral_view x q Hq) as (e & He & Eq). rewrite He in Hw. injection Hw as <-.
      cbn [nv_val] in H. destruct H as [H|(e' & [= <-] & H)]; [discriminate|]. apply N. rewrite <- Eq. exact H.
    Qed.
    Lemma absent_flag k : dget k d = None -> ~ strict_flag view d k.
    Proof. intros Hx (n & w & Hn & _). congruence. Qed.
    Lemma flag_off k : (forall e, dget k d = Some e -> exists q, numeral e = Some q /\ ~ (q == 1)%Q) -> ~ strict_flag view d k.
    Proof. intro H. destruct (dget k d) as [e|] eqn:He; [exact (no_flag k e He (H e eq_refl))|exact (absent_flag k He)]. Qed.
    Definition compared (x : pv) (R : Q -> Q -> Prop) : Prop := forall p q, numeral x = Some p -> numeral v = Some q -> R p q.
    Lemma K_compare x w (R : Q -> Q -> Prop) : numeral x <> None -> typed d [u "integer"; u "number"] -> view x = Ok w ->
      (forall p p' q q', (p == p')%Q -> (q == q')%Q -> R p q -> R p' q') ->
      exists e, nv_val w = NNum e /\ ((exists q, value_is v q /\ R (dec_q e) q) <-> compared x R).
    Proof.
      intros Nx T Hw Rq. destruct (numeral x) as [p|] eqn:Hx; [|contradiction]. destruct (numeral_view x p Hx) as (e & He & Ee). rewrite He in Hw. injection Hw as <-.
      exists e. split; [reflexivity|]. destruct (is_number T) as [[q Hq] Nb]. unfold compared. split.
      - intros (q1 & V1 & H) p' q' P' Q'. rewrite Hx in P'. injection P' as <-. destruct (sharp_value v q1 here_sharp Nb V1) as (q2 & Q2 & E2).
        rewrite Q2 in Q'. injection Q' as <-. eapply Rq; [exact Ee|exact E2|exact H].
      - intro H. destruct (sharp_numeral v q here_sharp Hq) as (q1 & V1 & E1). exists q1. split; [exact V1|]. eapply Rq; [symmetry; exact Ee|symmetry; exact E1|exact (H p q Hx Hq)].
    Qed.
    Lemma numeral_text q : numeral v = Some q -> exists b, decimal_text E v b /\ (dec_q b == q)%Q.
    Proof.
      destruct v; cbn [numeral decimal_text]; try discriminate; intros [= <-]; eexists; (split; [reflexivity|]); try reflexivity.
      unfold dec_q. cbn [dc de]. rewrite scaled_int by lia. rewrite Z.pow_0_r, Z.mul_1_r. reflexivity.
    Qed.
    Lemma K_multiple x w : dget (u "multipleOf") d = Some x -> usable E G d KwMultipleOf x -> view x = Ok w ->
      (D KwMultipleOf x (nv_val w) <-> compared x (fun p q => exists z, (q == inject_Z z * p)%Q)).
    Proof.
      intros Hd [(p & Hx & N) T] Hw. destruct (numeral_view x p Hx) as (e & He & Ee). rewrite He in Hw. injection Hw as <-. cbn [nv_val demands].
      destruct (is_number T) as [[q Hq] _]. destruct (numeral_text q Hq) as (b & Hb & Eb). unfold compared. split.
      - intros (b' & Hb' & z & Hz & _) p' q' P' Q'. rewrite Hx in P'. injection P' as <-. rewrite Hq in Q'. injection Q' as <-.
        assert (b' = b) as -> by (destruct v; cbn in Hq, Hb, Hb'; try discriminate; congruence). exists z. rewrite <- Ee, <- Eb. exact Hz.
      - intro H. destruct (H p q Hx Hq) as [z Hz]. exists b. split; [exact Hb|]. exists z. rewrite Ee, Eb. split; [exact Hz|]. split; [|exact N].
        pose proof (proj1 (proj2 Hv) [] v q d x p (leads_here v) Hq (proj1 HGd) Hd Hx) as L. rewrite Hz, Qabs_Qmult in L.
        assert (P : (0 < Qabs p)%Q).
        { pose proof (Qabs_nonneg p) as A. apply Qle_lteq in A as [A|A]; [exact A|]. exfalso. apply N. clear -A. destruct p as [p1 p2]. unfold Qabs, Qeq in *. cbn in *. lia. }
        apply Qmult_lt_r in L; [|exact P]. change (inject_Z (Z.abs z) < inject_Z (10 ^ 28))%Q in L. rewrite <- Zlt_Qlt in L. exact L.
    Qed.
    Lemma K_unique x w : dget (u "uniqueItems") d = Some x -> usable E G d KwUniqueItems x -> view x = Ok w ->
      (D KwUniqueItems x (nv_val w) <-> (x = VBool true -> forall l i j y z, v = VList l -> (i < j)%nat -> nth_error l i = Some y -> nth_error l j = Some z -> ~ same y z)).
    Proof.
      intros Hx U Hw. destruct U as [->|[-> T]]; injection Hw as <-; cbn [nv_val demands]; [split; [discriminate|intros _; exact Logic.I]|].
      destruct (is_list T) as [l El].
      assert (Eq : forall y z, In y l -> In z l -> (equal_values y z <-> same y z)).
      { intros y z Iy Iz. destruct (proj2 (proj2 Hv) [] l d (eq_ind _ (fun a => leads v [] a) (leads_here v) _ El) (proj1 HGd) Hx y z Iy Iz) as [Uy By].
        destruct (proj2 (proj2 Hv) [] l d (eq_ind _ (fun a => leads v [] a) (leads_here v) _ El) (proj1 HGd) Hx z y Iz Iy) as [Uz Bz].
        assert (Sh : forall a, In a l -> sharp a) by (intros a Ia; apply In_nth_error in Ia as [i Hi]; apply (proj1 Hv [nat_str i]); rewrite El; eapply leads_item; [exact Hi|apply leads_here]).
        pose proof (Sh y Iy) as Sy. pose proof (Sh z Iz) as Sz. apply elems_same; assumption. }
      split.
      - intros (el & Hel & _ & Hd) _ l' i j y z E' Lij Hy Hz S. rewrite El in E'. injection E' as <-. rewrite El in Hel. cbn in Hel. subst el.
        apply (Hd i j y z Lij Hy Hz). apply Eq; [eapply nth_error_In, Hy|eapply nth_error_In, Hz|exact S].
      - intro H. exists l. split; [rewrite El; reflexivity|]. split; [intros y Iy; exact (proj1 (proj2 (proj2 Hv) [] l d (eq_ind _ (fun a => leads v [] a) (leads_here v) _ El) (proj1 HGd) Hx y y Iy Iy))|].
        intros i j y z Lij Hy Hz S. apply (H eq_refl l i j y z El Lij Hy Hz). apply Eq; [eapply nth_error_In, Hy|eapply nth_error_In, Hz|exact S].
    Qed.
    Lemma K_max x w : usable E G d KwMaximum x -> view x = Ok w -> (D KwMaximum x (nv_val w) <-> compared x (fun p q => (q <= p)%Q)).
    Proof.
      intros (Nx & T & X) Hw. destruct (K_compare x w (fun p q => (q <= p)%Q) Nx T Hw) as (e & -> & K); [intros p p' q q' Ep Eq; rewrite Ep, Eq; auto|].
      rewrite <- K. cbn [demands]. pose proof (flag_off _ X) as N. split; [intros (q & A & B & _)|intros (q & A & B)]; exists q; repeat split; auto. intro F. contradiction.
    Qed.
    Lemma K_min x w : usable E G d KwMinimum x -> view x = Ok w -> (D KwMinimum x (nv_val w) <-> compared x (fun p q => (p <= q)%Q)).
    Proof.
      intros (Nx & T & X) Hw. destruct (K_compare x w (fun p q => (p <= q)%Q) Nx T Hw) as (e & -> & K); [intros p p' q q' Ep Eq; rewrite Ep, Eq; auto|].
      rewrite <- K. cbn [demands]. pose proof (flag_off _ X) as N. split; [intros (q & A & B & _)|intros (q & A & B)]; exists q; repeat split; auto. intro F. contradiction.
    Qed.
    Lemma K_xmax x w : usable E G d KwExclusiveMaximum x -> view x = Ok w -> (D KwExclusiveMaximum x (nv_val w) <-> compared x (fun p q => (q < p)%Q)).
    Proof.
      intros (Nx & T) Hw. destruct (K_compare x w (fun p q => (q < p)%Q) Nx T Hw) as (e & -> & K); [intros p p' q q' Ep Eq; rewrite Ep, Eq; auto|]. exact K.
    Qed.
    Lemma K_xmin x w : usable E G d KwExclusiveMinimum x -> view x = Ok w -> (D KwExclusiveMinimum x (nv_val w) <-> compared x (fun p q => (p < q)%Q)).
    Proof.
      intros (Nx & T) Hw. destruct (K_compare x w (fun p q => (p < q)%Q) Nx T Hw) as (e & -> & K); [intros p p' q q' Ep Eq; rewrite Ep, Eq; auto|]. exact K.
    Qed.
    Lemma K_max_length x w : usable E G d KwMaxLength x -> view x = Ok w -> (D KwMaxLength x (nv_val w) <-> forall n s, whole x n -> v = VStr s -> Z.of_nat (length s) <= n).
    Proof.
      intros [[n ->] T] Hw. injection Hw as <-. destruct (is_text T) as [s Es]. cbn [nv_val demands]. rewrite dec_int_Z, Es. cbn [size_is]. split.
      - intros (z & -> & H) n' s' W [= <-]. apply whole_int in W. subst. exact H.
      - intro H. eexists. split; [reflexivity|]. apply H; [apply whole_int|]; reflexivity.
    Qed.
    Lemma K_min_length x w : usable E G d KwMinLength x -> view x = Ok w -> (D KwMinLength x (nv_val w) <-> forall n s, whole x n -> v = VStr s -> n <= Z.of_nat (length s)).
    Proof.
      intros [[n ->] T] Hw. injection Hw as <-. destruct (is_text T) as [s Es]. cbn [nv_val demands]. rewrite dec_int_Z, Es. cbn [size_is]. split.
      - intros (z & -> & H) n' s' W [= <-]. apply whole_int in W. subst. exact H.
      - intro H. eexists. split; [reflexivity|]. apply H; [apply whole_int|]; reflexivity.
    Qed.
    Lemma K_max_items x w : usable E G d KwMaxItems x -> view x = Ok w -> (D KwMaxItems x (nv_val w) <-> forall n s, whole x n -> v = VList s -> Z.of_nat (length s) <= n).
    Proof.
      intros [[n ->] T] Hw. injection Hw as <-. destruct (is_list T) as [s Es]. cbn [nv_val demands]. rewrite dec_int_Z, Es. cbn [size_is]. split.
      - intros (z & -> & H) n' s' W [= <-]. apply whole_int in W. subst. exact H.
      - intro H. eexists. split; [reflexivity|]. apply H; [apply whole_int|]; reflexivity.
    Qed.
    Lemma K_min_items x w : usable E G d KwMinItems x -> view x = Ok w -> (D KwMinItems x (nv_val w) <-> forall n s, whole x n -> v = VList s -> n <= Z.of_nat (length s)).
    Proof.
      intros [[n ->] T] Hw. injection Hw as <-. destruct (is_list T) as [s Es]. cbn [nv_val demands]. rewrite dec_int_Z, Es. cbn [size_is]. split.
      - intros (z & -> & H) n' s' W [= <-]. apply whole_int in W. subst. exact H.
      - intro H. eexists. split; [reflexivity|]. apply H; [apply whole_int|]; reflexivity.
    Qed.
    Lemma K_max_properties x w : usable E G d KwMaxProperties x -> view x = Ok w -> (D KwMaxProperties x (nv_val w) <-> forall n s, whole x n -> v = VDict s -> Z.of_nat (length s) <= n).
    Proof.
      intros [[n ->] T] Hw. injection Hw as <-. destruct (is_dict T) as [s Es]. cbn [nv_val demands]. rewrite dec_int_Z, Es. cbn [size_is]. split.
      - intros (z & -> & H) n' s' W [= <-]. apply whole_int in W. subst. exact H.
      - intro H. eexists. split; [reflexivity|]. apply H; [apply whole_int|]; reflexivity.
    Qed.
    Lemma K_min_properties x w : usable E G d KwMinProperties x -> view x = Ok w -> (D KwMinProperties x (nv_val w) <-> forall n s, whole x n -> v = VDict s -> n <= Z.of_nat (length s)).
    Proof.
      intros [[n ->] T] Hw. injection Hw as <-. destruct (is_dict T) as [s Es]. cbn [nv_val demands]. rewrite dec_int_Z, Es. cbn [size_is]. split.
      - intros (z & -> & H) n' s' W [= <-]. apply whole_int in W. subst. exact H.
      - intro H. eexists. split; [reflexivity|]. apply H; [apply whole_int|]; reflexivity.
    Qed.
    Lemma K_pattern x w : usable E G d KwPattern x -> view x = Ok w -> (D KwPattern x (nv_val w) <-> forall p s, x = VStr p -> v = VStr s -> (re_matches E) p s).
    Proof.
      intros (T & p & -> & _) Hw. injection Hw as <-. destruct (is_text T) as [s Es]. cbn [nv_val demands]. rewrite Es. split.
      - intros (s1 & [= <-] & H) p' s' [= <-] [= <-]. exact H.
      - intro H. eexists. split; [reflexivity|]. exact (H p s eq_refl eq_refl).
    Qed.
    Lemma K_format x w : usable E G d KwFormat x -> view x = Ok w -> (D KwFormat x (nv_val w) <-> forall f s, x = VStr f -> v = VStr s -> (fmt_conforms E) f s).
    Proof.
      intros (T & f & test & -> & _) Hw. injection Hw as <-. destruct (is_text T) as [s Es]. cbn [nv_val demands]. rewrite Es. split.
      - intros H p' s' [= <-] [= <-]. exact H.
      - intro H. exact (H f s eq_refl eq_refl).
    Qed.
    Lemma K_required x w : usable E G d KwRequired x -> view x = Ok w ->
      (D KwRequired x (nv_val w) <-> forall l name e, x = VList l -> In (VStr name) l -> v = VDict e -> In name (dkeys e)).
    Proof.
      intros (T & l & -> & Hl) Hw. injection Hw as <-. destruct (is_dict T) as [e Es]. cbn [nv_val demands]. rewrite Es. cbn [has_name]. split.
      - intros H l' name e' [= <-] I [= <-]. exact (H _ I).
      - intros H m I. destruct (Hl m I) as [s ->]. exact (H l s e eq_refl I eq_refl).
    Qed.
    Lemma texts_strs y : texts_only y -> exists l, y = VList l /\ forall name, (exists names, iter_strs view strx y = Ok names /\ In name names) <-> In (VStr name) l.
    Proof.
      intros (l & -> & Hl). exists l. split; [reflexivity|]. intro name. unfold iter_strs. cbn [view bind nv_ref nv_val]. split.
      - intros (names & [= <-] & I). apply in_map_iff in I as (z & Ez & Iz). destruct (Hl z Iz) as [s ->]. cbn in Ez. subst. exact Iz.
      - intro I. eexists. split; [reflexivity|]. apply in_map_iff. exists (VStr name). split; [reflexivity|exact I].
    Qed.
    Lemma K_dependent_required x w : dget (u "dependentRequired") d = Some x -> usable E G d KwDependentRequired x -> view x = Ok w -> distinct x ->
      (D KwDependentRequired x (nv_val w) <-> forall tb key l name e, x = VDict tb -> In (key, VList l) tb -> v = VDict e -> In key (dkeys e) -> In (VStr name) l -> In name (dkeys e)).
    Proof.
      intros Hx (tb & -> & Ht) Hw Dx. apply distinct_inv in Dx as [Nt _]. change (dv tb = Ok w) in Hw. rewrite (table (u "dependentRequired") tb ltac:(cbn; tauto) Hx) in Hw. injection Hw as <-. cbn [nv_val demands]. split.
      - intros H tb' key l name e [= <-] I Ev Ik In'. rewrite Ev in H. destruct (texts_strs _ (Ht _ _ I)) as (l' & [= <-] & Q). destruct (proj2 (Q name) In') as (names & N1 & N2).
        exact (H key _ names I Ik N1 name N2).
      - intro H. destruct v as [| | | | | | |e]; try exact Logic.I. intros key m names I Ik N1 name N2. destruct (texts_strs _ (Ht _ _ I)) as (l' & -> & Q).
        apply (H tb key l' name e eq_refl I eq_refl Ik). apply Q. eauto.
    Qed.

    (** **** Sub-schemas *)
    Lemma acc_here s : Gd s /\ (rk s < rk (VDict d))%nat -> (Acc s v c <-> valid (M s) v).
    Proof. intros [Gs W]. apply IH; try assumption. right. auto. Qed.
    Lemma rej_here s : Gd s /\ (rk s < rk (VDict d))%nat -> (Rej s v c <-> ~ valid (M s) v).
    Proof. intros [Gs W]. apply rej; try assumption. right. auto. Qed.
    Lemma decide_here s : Gd s /\ (rk s < rk (VDict d))%nat -> valid (M s) v \/ ~ valid (M s) v.
    Proof. intros H. destruct (outcome s v c (proj1 H) Hv Hp Hc) as [A|R]; [left; apply (acc_here s H), A|right; apply (rej_here s H), R]. Qed.
    Lemma each_in l m : In m (each (opd M (VList l))) <-> exists s, In s l /\ m = M s.
    Proof. cbn [opd each]. rewrite in_map_iff. split; intros (s & A & B); exists s; auto. Qed.

    Lemma K_all x w : dget (u "allOf") d = Some x -> usable E G d KwAllOf x -> view x = Ok w -> (D KwAllOf x (nv_val w) <-> forall s, In s (each (opd M x)) -> valid s v).
    Proof.
      intros Hx (l & -> & Hl) Hw. injection Hw as <-. cbn [nv_val demands]. split.
      - intros H s I. apply each_in in I as (m & I & ->). apply acc_here; [exact (low_elem KwAllOf _ _ (ex_intro _ l (conj eq_refl I)) Hx I (Hl m I))|exact (H m I)].
      - intros H m I. apply acc_here; [exact (low_elem KwAllOf _ _ (ex_intro _ l (conj eq_refl I)) Hx I (Hl m I))|]. apply H, each_in. eauto.
    Qed.
    Lemma K_any x w : dget (u "anyOf") d = Some x -> usable E G d KwAnyOf x -> view x = Ok w -> (D KwAnyOf x (nv_val w) <-> exists s, In s (each (opd M x)) /\ valid s v).
    Proof.
      intros Hx (l & -> & _ & Hl) Hw. injection Hw as <-. cbn [nv_val demands].
      assert (Hs' : forall m, In m l -> Gd m /\ (rk m < rk (VDict d))%nat) by (intros m I; exact (low_elem KwAnyOf _ _ (ex_intro _ l (conj eq_refl I)) Hx I (Hl m I))). split.
      - intros (l1 & m & l2 & El & _ & H). assert (I : In m l) by (rewrite El; apply in_or_app; right; left; reflexivity). exists (M m). split; [apply each_in; eauto|]. apply acc_here; auto.
      - intros (s & I & H). apply each_in in I as (m & I & ->). clear Hx Hl. induction l as [|x l IHl]; [contradiction|].
        destruct (decide_here x (Hs' x (or_introl eq_refl))) as [Y|N].
        + exists [], x, l. split; [reflexivity|]. split; [intros ? []|]. apply acc_here; [apply Hs'; left; reflexivity|exact Y].
        + destruct I as [->|I]; [contradiction|]. destruct IHl as (l1 & m1 & l2 & -> & R & A); [intros y Iy; apply Hs'; right; exact Iy|exact I|].
          exists (x :: l1), m1, l2. split; [reflexivity|]. split; [|exact A]. intros m' [<-|I']; [|exact (R m' I')]. apply rej_here; [apply Hs'; left; reflexivity|exact N].
    Qed.
    Lemma K_one x w : dget (u "oneOf") d = Some x -> usable E G d KwOneOf x -> view x = Ok w ->
      (D KwOneOf x (nv_val w) <-> exists l s l', each (opd M x) = l ++ s :: l' /\ valid s v /\ forall s', In s' (l ++ l') -> ~ valid s' v).
    Proof.
      intros Hx (l & -> & _ & Hl) Hw. injection Hw as <-. cbn [nv_val demands].
      assert (Hs' : forall m, In m l -> Gd m /\ (rk m < rk (VDict d))%nat) by (intros m I; exact (low_elem KwOneOf _ _ (ex_intro _ l (conj eq_refl I)) Hx I (Hl m I))). split.
      - intros (l1 & m & l2 & -> & A & R). exists (map M l1), (M m), (map M l2). cbn [opd each]. split; [rewrite map_app; reflexivity|].
        split; [apply acc_here; [apply Hs', in_or_app; right; left; reflexivity|exact A]|]. intros s' I. rewrite <- map_app in I. apply in_map_iff in I as (m' & <- & I).
        apply rej_here; [apply Hs'; apply in_app_or in I; apply in_or_app; destruct I; [left|right; right]; assumption|exact (R m' I)].
      - intros (l1 & s & l2 & El & A & R). cbn [opd each] in El. apply map_eq_app in El as (a & b & -> & <- & El). destruct b as [|m b]; [discriminate|]. injection El as <- <-.
        exists a, m, b. split; [reflexivity|]. split; [apply acc_here; [apply Hs', in_or_app; right; left; reflexivity|exact A]|].
        intros m' I. apply rej_here; [apply Hs'; apply in_app_or in I; apply in_or_app; destruct I; [left|right; right]; assumption|]. apply R. rewrite <- map_app. apply in_map, I.
    Qed.
    Lemma K_not x w : dget (u "not") d = Some x -> usable E G d KwNot x -> view x = Ok w -> distinct x -> (D KwNot x (nv_val w) <-> ~ valid (self (opd M x)) v).
    Proof.
      intros Hx (Ox & Gx) Hw Dx. destruct (seen x (conj Gx Dx) Ox) as (e & r & _ & Hv' & _). rewrite Hv' in Hw. injection Hw as <-. cbn [nv_val demands].
      apply rej_here, (low_self KwNot x eq_refl Hx Gx).
    Qed.
    Lemma K_if x w : dget (u "if") d = Some x -> usable E G d KwIf x -> view x = Ok w -> distinct x ->
      (D KwIf x (nv_val w) <-> (valid (M x) v -> forall y, dget (u "then") d = Some y -> valid (M y) v) /\ (~ valid (M x) v -> forall y, dget (u "else") d = Some y -> valid (M y) v)).
    Proof.
      intros Hx (Ox & Gx & Ie) Hw Dx. destruct (seen x (conj Gx Dx) Ox) as (e & r & _ & Hv' & _). rewrite Hv' in Hw. injection Hw as <-. cbn [nv_val demands].
      pose proof (low_self KwIf x eq_refl Hx Gx) as Sx.
      assert (St : forall y, dget (u "then") d = Some y -> Gd y /\ (rk y < rk (VDict d))%nat) by (intros y Hy; apply (low_self KwThen y eq_refl Hy), (proj2 (Hall KwThen y Hy))).
      assert (Se : forall y, dget (u "else") d = Some y -> Gd y /\ (rk y < rk (VDict d))%nat) by (intros y Hy; apply (low_self KwElse y eq_refl Hy), (proj2 (Hall KwElse y Hy))).
      split.
      - intros [[A Th]|(R & _ & y & Hy & Ay)].
        + split; [|intro N; exfalso; apply N, (acc_here _ Sx), A]. intros _ y Hy. apply (acc_here y (St y Hy)). apply Th; [exact (proj1 (Hall KwThen y Hy))|exact Hy].
        + split; [intro V; exfalso; apply (rej_here _ Sx) in R; contradiction|]. intros _ y' Hy'. rewrite Hy in Hy'. injection Hy' as <-. apply (acc_here y (Se y Hy)), Ay.
      - intros [H1 H2]. destruct (decide_here _ Sx) as [Y|N].
        + left. split; [apply (acc_here _ Sx), Y|]. intros _ y Hy. apply (acc_here y (St y Hy)), (H1 Y y Hy).
        + right. split; [apply (rej_here _ Sx), N|]. apply dmem_In, dmem_dget in Ie as [y Hy]. split; [exact (proj1 (Hall KwElse y Hy))|]. exists y. split; [exact Hy|]. apply (acc_here y (Se y Hy)), (H2 N y Hy).
    Qed.
    Lemma K_dependent_schemas x w : dget (u "dependentSchemas") d = Some x -> usable E G d KwDependentSchemas x -> view x = Ok w -> distinct x ->
      (D KwDependentSchemas x (nv_val w) <-> forall key s e, v = VDict e -> In key (dkeys e) -> In (key, s) (named (opd M x)) -> valid s v).
    Proof.
      intros Hx (tb & -> & Ht) Hw Dx. apply distinct_inv in Dx as [Nt _]. change (dv tb = Ok w) in Hw. rewrite (table (u "dependentSchemas") tb ltac:(cbn; tauto) Hx) in Hw. injection Hw as <-. cbn [nv_val demands]. split.
      - intros H key s e Ev Ik I. apply named_in in I as (y & I & ->). apply (acc_here y (low_member _ _ _ Hx I (Ht _ _ I))). rewrite Ev in H |- *. exact (H key y I Ik).
      - intro H. assert (K : forall e, v = VDict e -> forall key m, In (key, m) tb -> In key (dkeys e) -> Acc m v c).
        { intros e Ev key m I Ik. apply (acc_here m (low_member _ _ _ Hx I (Ht _ _ I))). exact (H key (M m) e Ev Ik (in_named _ _ _ _ I)). }
        destruct v; try exact Logic.I. exact (K _ eq_refl).
    Qed.

    Lemma members_of (P : pystr -> pv -> Prop) : for_members v P <-> forall e key y, v = VDict e -> In (key, y) e -> P key y.
    Proof. destruct v; cbn [for_members]; split; intro H; try exact Logic.I; try (intros; discriminate); [intros e key y [= <-]; apply H|intros key y; exact (H _ key y eq_refl)]. Qed.
    Lemma declared_listed key : declared view voc d key <-> listed (tab M d) key.
    Proof.
      split.
      - intros (_ & n & w & props & Hn & Hw & Hprops & I). destruct (proj2 (Hall KwProperties n Hn)) as (tb & -> & _).
        pose proof (proj2 dd _ _ (dget_In _ _ _ Hn)) as Dn. apply distinct_inv in Dn as [Nt _]. change (dv tb = Ok w) in Hw. rewrite (table _ tb (or_introl eq_refl) Hn) in Hw. injection Hw as <-. injection Hprops as <-.
        unfold dkeys in I. apply in_map_iff in I as ([k s] & <- & I). exists (opd M (VDict tb)), (M s). split; [exact (tab_some _ _ _ _ Hn)|exact (in_named _ _ _ _ I)].
      - intros (m & s & Hm & I). apply tab_get in Hm as (x & Hx & ->). destruct (Hall KwProperties x Hx) as (Ik & tb & -> & _). split; [exact Ik|].
        pose proof (proj2 dd _ _ (dget_In _ _ _ Hx)) as Dn. apply distinct_inv in Dn as [Nt _]. eexists _, _, tb. split; [exact Hx|]. split; [exact (table _ tb (or_introl eq_refl) Hx)|]. split; [reflexivity|].
        apply named_in in I as (y & I & _). exact (in_map fst _ _ I).
    Qed.
    Lemma matched_matched key : pattern_matched view E voc d key <-> matched (re_matches E) (tab M d) key.
    Proof.
      split.
      - intros (_ & n & w & pats & p & m & Hn & Hw & Hprops & I & S). destruct (proj2 (Hall KwPatternProperties n Hn)) as (tb & -> & _).
        pose proof (proj2 dd _ _ (dget_In _ _ _ Hn)) as Dn. apply distinct_inv in Dn as [Nt _]. change (dv tb = Ok w) in Hw. rewrite (table _ tb (or_intror (or_introl eq_refl)) Hn) in Hw. injection Hw as <-. injection Hprops as <-.
        exists (opd M (VDict tb)), p, (M m). split; [exact (tab_some _ _ _ _ Hn)|]. split; [exact (in_named _ _ _ _ I)|exact S].
      - intros (m & p & s & Hm & I & S). apply tab_get in Hm as (x & Hx & ->). destruct (Hall KwPatternProperties x Hx) as (Ik & tb & -> & _). split; [exact Ik|].
        pose proof (proj2 dd _ _ (dget_In _ _ _ Hx)) as Dn. apply distinct_inv in Dn as [Nt _]. apply named_in in I as (y & I & _).
        eexists _, _, tb, p, y. split; [exact Hx|]. split; [exact (table _ tb (or_intror (or_introl eq_refl)) Hx)|]. split; [reflexivity|]. split; [exact I|exact S].
    Qed.
    Lemma listed_dec key : listed (tab M d) key \/ ~ listed (tab M d) key.
    Proof.
      destruct (dget (u "properties") d) as [x|] eqn:Hx.
      - destruct (proj2 (Hall KwProperties x Hx)) as (tb & -> & _). destruct (dmem key tb) eqn:Hd.
        + left. apply dmem_dget in Hd as [y Hy]. exists (opd M (VDict tb)), (M y). split; [exact (tab_some _ _ _ _ Hx)|exact (in_named _ _ _ _ (dget_In _ _ _ Hy))].
        + right. intros (m & s & Hm & I). apply tab_get in Hm as (x' & Hx' & ->). rewrite Hx in Hx'. injection Hx' as <-. apply named_in in I as (y & I & _).
          apply (in_map fst) in I. apply dmem_In in I. cbn [fst] in I. congruence.
      - right. intros (m & s & Hm & _). rewrite dget_tab, Hx in Hm. discriminate.
    Qed.
    Lemma matched_dec key : matched (re_matches E) (tab M d) key \/ ~ matched (re_matches E) (tab M d) key.
    Proof.
      destruct (dget (u "patternProperties") d) as [x|] eqn:Hx.
      - destruct (proj2 (Hall KwPatternProperties x Hx)) as (tb & -> & _). destruct (existsb (fun ps => re_search E (fst ps) key) tb) eqn:Hd.
        + left. apply existsb_exists in Hd as ([p y] & I & S). exists (opd M (VDict tb)), p, (M y). split; [exact (tab_some _ _ _ _ Hx)|]. split; [exact (in_named _ _ _ _ I)|exact S].
        + right. intros (m & p & s & Hm & I & S). apply tab_get in Hm as (x' & Hx' & ->). rewrite Hx in Hx'. injection Hx' as <-. apply named_in in I as (y & I & _).
          assert (T : existsb (fun ps => re_search E (fst ps) key) tb = true) by (apply existsb_exists; exists (p, y); split; [exact I|exact S]). congruence.
      - right. intros (m & p & s & Hm & _). rewrite dget_tab, Hx in Hm. discriminate.
    Qed.
    Lemma acc_member s e key y : Gd s -> v = VDict e -> In (key, y) e -> (Acc s y (c ++ [key]) <-> valid (M s) y).
    Proof. intros Gs Ev I. destruct (member_ok e key y Ev I) as (S & P & C & _). apply IH; try assumption. left. rewrite Ev. exact (weight_member _ _ _ I). Qed.
    Lemma K_properties x w : dget (u "properties") d = Some x -> usable E G d KwProperties x -> view x = Ok w -> distinct x ->
      (D KwProperties x (nv_val w) <-> forall e key y s, v = VDict e -> In (key, y) e -> In (key, s) (named (opd M x)) -> valid s y).
    Proof.
      intros Hx (tb & -> & Ht) Hw Dx. apply distinct_inv in Dx as [Nt _]. change (dv tb = Ok w) in Hw. rewrite (table (u "properties") tb ltac:(cbn; tauto) Hx) in Hw. injection Hw as <-. cbn [nv_val demands]. rewrite members_of. split.
      - intros H e key y s Ev I J. apply named_in in J as (m & J & ->). apply (acc_member m e key y (sub_member _ _ _ _ Hx J (Ht _ _ J)) Ev I). apply (H e key y Ev I). apply In_dget; assumption.
      - intros H e key y Ev I m Hm. apply dget_In in Hm. apply (acc_member m e key y (sub_member _ _ _ _ Hx Hm (Ht _ _ Hm)) Ev I). exact (H e key y (M m) Ev I (in_named _ _ _ _ Hm)).
    Qed.
    Lemma K_patterns x w : dget (u "patternProperties") d = Some x -> usable E G d KwPatternProperties x -> view x = Ok w -> distinct x ->
      (D KwPatternProperties x (nv_val w) <-> forall e key y p s, v = VDict e -> In (key, y) e -> In (p, s) (named (opd M x)) -> (re_matches E) p key -> valid s y).
    Proof.
      intros Hx (tb & -> & Ht) Hw Dx. apply distinct_inv in Dx as [Nt _]. change (dv tb = Ok w) in Hw. rewrite (table (u "patternProperties") tb ltac:(cbn; tauto) Hx) in Hw. injection Hw as <-. cbn [nv_val demands]. rewrite members_of. split.
      - intros H e key y p s Ev I J S. apply named_in in J as (m & J & ->). destruct (Ht p m J) as (R & Gm & No).
        apply (acc_member m e key y (sub_member _ _ _ _ Hx J Gm) Ev I). refine (proj2 (H e key y Ev I _ p m J) S).
        intros (_ & n & w & props & Hn & Hw & Hpr & Ik). destruct (proj2 (Hall KwProperties n Hn)) as (tb' & -> & _).
        pose proof (proj2 dd _ _ (dget_In _ _ _ Hn)) as Dn. apply distinct_inv in Dn as [Nt' _]. change (dv tb' = Ok w) in Hw. rewrite (table _ tb' (or_introl eq_refl) Hn) in Hw. injection Hw as <-. injection Hpr as <-.
        unfold re_matches in S. rewrite (No tb' key Hn Ik) in S. discriminate.
      - intros H e key y Ev I _ p m J. destruct (Ht p m J) as (R & Gm & _). split; [exact R|]. intro S.
        apply (acc_member m e key y (sub_member _ _ _ _ Hx J Gm) Ev I). exact (H e key y p (M m) Ev I (in_named _ _ _ _ J) S).
    Qed.
    Lemma K_additional x w : dget (u "additionalProperties") d = Some x -> usable E G d KwAdditionalProperties x -> view x = Ok w -> distinct x ->
      (D KwAdditionalProperties x (nv_val w) <-> forall e key y, v = VDict e -> In (key, y) e -> ~ listed (tab M d) key -> ~ matched (re_matches E) (tab M d) key -> valid (M x) y).
    Proof.
      intros Hx Gx Hw Dx. cbn [usable] in Gx. pose proof (sub_self _ _ Hx Gx) as Sx. destruct (schema_shape x Sx) as [[b ->]|Ox].
      - injection Hw as <-. cbn [nv_val demands]. destruct b.
        + split; [intros; apply HMb; reflexivity|intros; exact Logic.I].
        + rewrite members_of. split.
          * intros H e key y Ev I N1 N2. exfalso. destruct (H e key y Ev I) as [K|K]; [apply N1, declared_listed, K|apply N2, matched_matched, K].
          * intros H e key y Ev I. rewrite declared_listed, matched_matched. destruct (listed_dec key); [auto|]. destruct (matched_dec key); [auto|]. exfalso. assert (K : false = true) by (apply (HMb false y), (H e key y Ev I); assumption). discriminate K.
      - destruct (seen x Sx Ox) as (o & r & _ & Hv' & _). rewrite Hv' in Hw. injection Hw as <-. cbn [nv_val demands]. rewrite members_of. split.
        + intros H e key y Ev I N1 N2. destruct (H e key y Ev I) as [K|[K|K]]; [exfalso; apply N1, declared_listed, K|exfalso; apply N2, matched_matched, K|].
          apply (acc_member _ e key y Sx Ev I), K.
        + intros H e key y Ev I. rewrite declared_listed, matched_matched. destruct (listed_dec key); [auto|]. destruct (matched_dec key); [auto|]. right; right.
          apply (acc_member _ e key y Sx Ev I). apply (H e key y Ev I); assumption.
    Qed.
    Lemma K_names x w : dget (u "propertyNames") d = Some x -> usable E G d KwPropertyNames x -> view x = Ok w -> distinct x ->
      (D KwPropertyNames x (nv_val w) <-> forall e key y, v = VDict e -> In (key, y) e -> valid (M x) (VStr key)).
    Proof.
      intros Hx (Ox & Gx) Hw Dx. pose proof (sub_self _ _ Hx Gx) as Sx. destruct (seen x Sx Ox) as (o & r & _ & Hv' & _). rewrite Hv' in Hw. injection Hw as <-. cbn [nv_val demands]. rewrite members_of.
      assert (K : forall e key y, v = VDict e -> In (key, y) e -> (Acc x (VStr key) (c ++ [key]) <-> valid (M x) (VStr key))).
      { intros e key y Ev I. destruct (member_ok e key y Ev I) as (_ & _ & C & P). apply IH; try assumption; [|apply text_sharp]. left. rewrite Ev. pose proof (weight_member _ _ _ I). assert (1 <= weight y)%nat by (destruct y; cbn [weight]; lia). cbn [weight] in *. lia. }
      split; intros H e key y Ev I; apply (K e key y Ev I); exact (H e key y Ev I).
    Qed.
    Lemma no_reference m : dget (u "$ref") (tab M d) <> Some m.
    Proof. rewrite dget_tab, (proj1 Hsd (u "$ref")); [discriminate|left; reflexivity]. Qed.
    Lemma K_unevaluated x w : dget (u "unevaluatedProperties") d = Some x -> usable E G d KwUnevaluatedProperties x -> view x = Ok w ->
      (D KwUnevaluatedProperties x (nv_val w) <-> forall e key y, v = VDict e -> In (key, y) e -> ~ evaluated (re_matches E) (tab M d) v key -> valid (M x) y).
    Proof.
      intros Hx [->|(-> & Na & No)] Hw; injection Hw as <-; cbn [nv_val demands]; [split; [intros; apply HMb; reflexivity|intros; exact Logic.I]|].
      assert (Ra : (exists m, dget (u "additionalProperties") (tab M d) = Some m) <-> additional_restricts view voc d).
      { split.
        - intros [m Hm]. apply tab_get in Hm as (y & Hy & _). destruct (Hall KwAdditionalProperties y Hy) as [Ik Gy]. split; [exact Ik|].
          pose proof (sub_self _ _ Hy Gy) as Sy. destruct (schema_shape y Sy) as [[b ->]|Oy]; [|destruct (seen y Sy Oy) as (o & r & _ & Hv' & _)]; eexists _, _; (split; [exact Hy|]); (split; [first [exact Hv'|reflexivity]|]); cbn; [intros [= ->]; exact (Na Hy)|discriminate].
        - intros (_ & n & w & Hn & _). exists (opd M n). exact (tab_some _ _ _ _ Hn). }
      assert (Ev : forall key, evaluated (re_matches E) (tab M d) v key <-> declared view voc d key \/ pattern_matched view E voc d key \/ additional_restricts view voc d).
      { intro key. rewrite declared_listed, matched_matched, <- Ra. unfold evaluated. split; [|tauto].
        assert (Ab : forall k, In k [u "allOf"; u "anyOf"; u "oneOf"; u "if"; u "dependentSchemas"] -> dget k (tab M d) = None) by (intros k Ik; rewrite dget_tab, (No k Ik); reflexivity).
        intros [H|[H|[H|[H|[H|[H|[H|[H|H]]]]]]]]; auto; exfalso.
        - destruct H as (m & s & H & _). rewrite Ab in H; [discriminate|cbn; tauto].
        - destruct H as (k & m & s & Ek & H & _). rewrite Ab in H; [discriminate|destruct Ek as [->| ->]; cbn; tauto].
        - destruct H as (m & H & _). rewrite Ab in H; [discriminate|cbn; tauto].
        - destruct H as (m & n & H & _). rewrite Ab in H; [discriminate|cbn; tauto].
        - destruct H as (m & k & s & e & H & _). rewrite Ab in H; [discriminate|cbn; tauto].
        - destruct H as (m & H & _). exact (no_reference m H). }
      assert (Rd : additional_restricts view voc d \/ ~ additional_restricts view voc d).
      { rewrite <- Ra. destruct (dget (u "additionalProperties") (tab M d)); [left; eauto|right; intros [m [=]]]. }
      rewrite members_of. split.
      - intros H e key y Ed I N. exfalso. apply N, Ev, (H e key y Ed I).
      - intros H e key y Ed I. rewrite declared_listed, matched_matched. destruct (listed_dec key); [auto|]. destruct (matched_dec key); [auto|]. destruct Rd as [Rd|Rd]; [auto|]. exfalso.
        assert (K : false = true) by (apply (HMb false y), (H e key y Ed I); rewrite Ev, declared_listed, matched_matched; tauto). discriminate K.
    Qed.
    Lemma K_items x w : dget (u "items") d = Some x -> usable E G d KwItems x -> view x = Ok w -> distinct x ->
      (D KwItems x (nv_val w) <-> forall l i y, v = VList l -> (before_items (tab M d) <= i)%nat -> nth_error l i = Some y -> valid (M x) y).
    Proof.
      intros Hx (T & Gx) Hw Dx. pose proof (sub_self _ _ Hx Gx) as S1. destruct (is_list T) as [l El].
      assert (B : before_items (tab M d) = O).
      { unfold before_items. destruct (dget (u "prefixItems") (tab M d)) as [m|] eqn:Hm; [|reflexivity]. apply tab_get in Hm as (y & Hy & _). destruct (proj2 (Hall KwPrefixItems y Hy)). }
      rewrite B. assert (K : forall i y, nth_error l i = Some y -> (Acc x y (c ++ [nat_str i]) <-> valid (M x) y)).
      { intros i y I. destruct (elem_ok l i y El I) as (Sy & Py & Cy). apply IH; try assumption. left. rewrite El. exact (weight_elem _ _ (nth_error_In _ _ I)). }
      assert (K2 : (exists vals, v = VList vals /\ forall i y, nth_error vals i = Some y -> Acc x y (c ++ [nat_str i])) <->
        (forall l i y, v = VList l -> (0 <= i)%nat -> nth_error l i = Some y -> valid (M x) y)).
      { split.
        - intros (vals & Ev & H) l' i y El' _ I. rewrite Ev in El, El'. injection El as ->. injection El' as <-. exact (proj1 (K i y I) (H i y I)).
        - intro H. exists l. split; [exact El|]. intros i y I. apply (K i y I). apply (H l i y El); [lia|exact I]. }
      destruct (schema_shape x S1) as [[b ->]|Ox].
      - injection Hw as <-. cbn [nv_val demands]. destruct b; [|exact K2]. split; [intros; apply HMb; reflexivity|intros _; eauto].
      - destruct (seen x S1 Ox) as (o & r & _ & Hv' & _). rewrite Hv' in Hw. injection Hw as <-. cbn [nv_val demands]. exact K2.
    Qed.
    Lemma counted (P : pv -> Prop) l flags n : Forall2 (fun y (b : bool) => if b then P y else ~ P y) l flags -> count P l n -> n = count_true flags.
    Proof.
      intro F. revert n. induction F as [|y b l flags Hb F IHF]; intros n Hn; inversion Hn; subst; cbn [count_true]; [reflexivity| |].
      - destruct b; [|contradiction]. rewrite (IHF _ ltac:(eassumption)). reflexivity.
      - destruct b; [contradiction|]. rewrite (IHF _ ltac:(eassumption)). reflexivity.
    Qed.
    Lemma flags_count (P : pv -> Prop) l flags : Forall2 (fun y (b : bool) => if b then P y else ~ P y) l flags -> count P l (count_true flags).
    Proof. induction 1 as [|y [|] l flags Hb F IHF]; cbn [count_true]; constructor; assumption. Qed.
    Lemma K_contains x w : dget (u "contains") d = Some x -> usable E G d KwContains x -> view x = Ok w -> distinct x ->
      (D KwContains x (nv_val w) <-> forall l, v = VList l -> exists n, count (valid (M x)) l n /\
        match dget (u "minContains") (tab M d) with Some b => forall z, whole (raw b) z -> z <= n | None => 1 <= n end /\
        given (tab M d) "maxContains" (fun b => forall z, whole (raw b) z -> n <= z)).
    Proof.
      intros Hx (T & Ox & Gx & M1 & M2) Hw Dx. pose proof (sub_self _ _ Hx Gx) as S1. destruct (is_list T) as [l El].
      destruct (seen x S1 Ox) as (o & r & _ & Hv' & _). rewrite Hv' in Hw. injection Hw as <-. cbn [nv_val demands].
      assert (K : forall y, In y l -> (Acc x y [] <-> valid (M x) y) /\ (Rej x y [] <-> ~ valid (M x) y)).
      { intros y I. apply In_nth_error in I as [i I]. destruct (elem_ok l i y El I) as (Sy & Py & _). assert (L : later x y) by (left; rewrite El; exact (weight_elem _ _ (nth_error_In _ _ I))). split; [apply IH|apply rej]; try assumption; constructor. }
      assert (B : forall n, (forall z, int_member view d (u "minContains") z -> z <= n) /\ (dget (u "minContains") d = None -> 1 <= n) <->
        match dget (u "minContains") (tab M d) with Some b => forall z, whole (raw b) z -> z <= n | None => 1 <= n end).
      { intro n. rewrite dget_tab. destruct (dget (u "minContains") d) as [b|] eqn:Hb; cbn [option_map opd raw].
        - destruct (M1 b eq_refl) as [k ->]. split.
          + intros [A _] z W. apply whole_int in W. subst z. apply A. eexists _, _, (Dec k 0). split; [exact Hb|]. split; [reflexivity|]. split; [reflexivity|]. symmetry. apply dec_int_Z.
          + intro A. split; [|discriminate]. intros z (m & w & e & Hm & Hw & He & ->). rewrite Hb in Hm. injection Hm as <-. injection Hw as <-. injection He as <-. rewrite dec_int_Z. apply A, whole_int. reflexivity.
        - split; [intros [_ A]; exact (A eq_refl)|]. intro A. split; [|intros _; exact A]. intros z (m & w & e & Hm & _). congruence. }
      assert (C : forall n, (forall z, int_member view d (u "maxContains") z -> z <> 0 -> n <= z) <-> given (tab M d) "maxContains" (fun b => forall z, whole (raw b) z -> n <= z)).
      { intro n. split.
        - intros A m Hm z W. apply tab_get in Hm as (b & Hb & ->). destruct (M2 b Hb) as (k & -> & Nz). cbn [opd raw] in W. apply whole_int in W. subst z. apply A; [|exact Nz].
          eexists _, _, (Dec k 0). split; [exact Hb|]. split; [reflexivity|]. split; [reflexivity|]. symmetry. apply dec_int_Z.
        - intros A z (m & w & e & Hm & Hw & He & ->) Nz. destruct (M2 m Hm) as (k & -> & _). injection Hw as <-. injection He as <-. rewrite dec_int_Z. apply (A _ (tab_some _ _ _ _ Hm)). apply whole_int. reflexivity. }
      split.
      - intros (elems & flags & It & F & H1 & H2 & H3) l' El'. rewrite El in El'. injection El' as <-. rewrite El in It. cbn [iterable] in It. subst elems.
        exists (count_true flags). split; [|split; [apply B; split; assumption|apply C, H3]]. apply flags_count.
        clear -F K. induction F as [|y b l flags Hb F IHF]; constructor; [destruct (K y (or_introl eq_refl)); destruct b; [apply H|apply H0]; assumption|].
        apply IHF. intros z Iz. apply K. right. exact Iz.
      - intro H. destruct (H l El) as (n & Cn & H1 & H2).
        assert (F : exists flags, Forall2 (fun y (b : bool) => if b then Acc x y [] else Rej x y []) l flags /\ count_true flags = n).
        { clear -Cn K. induction Cn as [|y l n Py _ IHc|y l n Py _ IHc]; [exists []; split; [constructor|reflexivity]| |].
          - destruct IHc as (flags & F & <-); [intros z Iz; apply K; right; exact Iz|]. exists (true :: flags). split; [|reflexivity]. constructor; [apply K; [left; reflexivity|exact Py]|exact F].
          - destruct IHc as (flags & F & <-); [intros z Iz; apply K; right; exact Iz|]. exists (false :: flags). split; [|reflexivity]. constructor; [apply K; [left; reflexivity|exact Py]|exact F]. }
        destruct F as (flags & F & Ef). exists l, flags. rewrite El. split; [reflexivity|]. split; [exact F|]. rewrite Ef. apply B in H1 as [H1 H3]. split; [exact H1|]. split; [exact H3|]. apply C, H2.
    Qed.

    (** **** All of them *)
    Lemma all_seen k x : dget (kw_key k) d = Some x -> exists w, view x = Ok w.
    Proof using HGd Hsd Hs Htb.
      clear -HGd Hsd Hs Htb. intro Hx. destruct (Hall k x Hx) as [_ U]. pose proof (proj2 dd _ _ (dget_In _ _ _ Hx)) as Dx. destruct x as [| | | | | | |e]; try (eexists; reflexivity).
      assert (Sc : G (VDict e) -> exists w, view (VDict e) = Ok w) by (intro Gx; destruct (seen _ (conj Gx Dx) (ex_intro _ e eq_refl)) as (o & r & _ & Hv' & _); eauto).
      assert (Ta : In (kw_key k) tables -> exists w, view (VDict e) = Ok w) by (intro It; eexists; exact (table _ e It Hx)).
      destruct k; cbn [usable] in U; try (apply Ta; cbn; tauto); try (apply Sc; tauto); exfalso; unfold typed, texts_only in U; decompose [ex and or] U; try discriminate; try contradiction; cbn [kw_key] in Hx; congruence.
    Qed.
    Lemma at_keyword k m : dget (kw_key k) (tab M d) = Some m -> exists x w, dget (kw_key k) d = Some x /\ m = opd M x /\ view x = Ok w /\ distinct x /\ In k voc /\ usable E G d k x.
    Proof. intro Hm. apply tab_get in Hm as (x & Hx & ->). destruct (Hall k x Hx) as [Ik U]. destruct (all_seen k x Hx) as [w Hw]. exists x, w. split; [exact Hx|]. split; [reflexivity|]. split; [exact Hw|]. split; [exact (proj2 dd _ _ (dget_In _ _ _ Hx))|]. split; assumption. Qed.
    Definition demanded : Prop := forall k m x, In k voc -> dget (kw_key k) d = Some m -> view m = Ok x -> D k m (nv_val x).
    Lemma all_keywords_agree : demanded <-> object_valid (re_matches E) (fmt_conforms E) (tab M d) v.
    Proof.
      split.
      - intro H. constructor.
        + intros m Hm. destruct (at_keyword KwType m Hm) as (x & w & Hx & -> & Hw & Dx & Ik & U). exact (proj1 (K_type x w Hx U Hw) (H _ _ _ Ik Hx Hw)).
        + intros m Hm. destruct (at_keyword KwEnum m Hm) as (x & w & Hx & -> & Hw & Dx & Ik & U). pose proof (H _ _ _ Ik Hx Hw) as K. destruct U as (l & -> & Hl). injection Hw as <-. exact (proj1 (K_enum l Hl) K).
        + intros m Hm. destruct (at_keyword KwConst m Hm) as (x & w & Hx & -> & Hw & Dx & Ik & U). exact (proj1 (K_const x w U Hw) (H _ _ _ Ik Hx Hw)).
        + intros m Hm. destruct (at_keyword KwMultipleOf m Hm) as (x & w & Hx & -> & Hw & Dx & Ik & U). exact (proj1 (K_multiple x w Hx U Hw) (H _ _ _ Ik Hx Hw)).
        + intros m Hm. destruct (at_keyword KwMaximum m Hm) as (x & w & Hx & -> & Hw & Dx & Ik & U). exact (proj1 (K_max x w U Hw) (H _ _ _ Ik Hx Hw)).
        + intros m Hm. destruct (at_keyword KwExclusiveMaximum m Hm) as (x & w & Hx & -> & Hw & Dx & Ik & U). exact (proj1 (K_xmax x w U Hw) (H _ _ _ Ik Hx Hw)).
        + intros m Hm. destruct (at_keyword KwMinimum m Hm) as (x & w & Hx & -> & Hw & Dx & Ik & U). exact (proj1 (K_min x w U Hw) (H _ _ _ Ik Hx Hw)).
        + intros m Hm. destruct (at_keyword KwExclusiveMinimum m Hm) as (x & w & Hx & -> & Hw & Dx & Ik & U). exact (proj1 (K_xmin x w U Hw) (H _ _ _ Ik Hx Hw)).
        + intros m Hm. destruct (at_keyword KwMaxLength m Hm) as (x & w & Hx & -> & Hw & Dx & Ik & U). exact (proj1 (K_max_length x w U Hw) (H _ _ _ Ik Hx Hw)).
        + intros m Hm. destruct (at_keyword KwMinLength m Hm) as (x & w & Hx & -> & Hw & Dx & Ik & U). exact (proj1 (K_min_length x w U Hw) (H _ _ _ Ik Hx Hw)).
        + intros m Hm. destruct (at_keyword KwPattern m Hm) as (x & w & Hx & -> & Hw & Dx & Ik & U). exact (proj1 (K_pattern x w U Hw) (H _ _ _ Ik Hx Hw)).
        + intros m Hm. destruct (at_keyword KwMaxItems m Hm) as (x & w & Hx & -> & Hw & Dx & Ik & U). exact (proj1 (K_max_items x w U Hw) (H _ _ _ Ik Hx Hw)).
        + intros m Hm. destruct (at_keyword KwMinItems m Hm) as (x & w & Hx & -> & Hw & Dx & Ik & U). exact (proj1 (K_min_items x w U Hw) (H _ _ _ Ik Hx Hw)).
        + intros m Hm. destruct (at_keyword KwUniqueItems m Hm) as (x & w & Hx & -> & Hw & Dx & Ik & U). exact (proj1 (K_unique x w Hx U Hw) (H _ _ _ Ik Hx Hw)).
        + intros m Hm. destruct (at_keyword KwContains m Hm) as (x & w & Hx & -> & Hw & Dx & Ik & U). exact (proj1 (K_contains x w Hx U Hw Dx) (H _ _ _ Ik Hx Hw)).
        + intros m Hm. destruct (at_keyword KwMaxProperties m Hm) as (x & w & Hx & -> & Hw & Dx & Ik & U). exact (proj1 (K_max_properties x w U Hw) (H _ _ _ Ik Hx Hw)).
        + intros m Hm. destruct (at_keyword KwMinProperties m Hm) as (x & w & Hx & -> & Hw & Dx & Ik & U). exact (proj1 (K_min_properties x w U Hw) (H _ _ _ Ik Hx Hw)).
        + intros m Hm. destruct (at_keyword KwRequired m Hm) as (x & w & Hx & -> & Hw & Dx & Ik & U). exact (proj1 (K_required x w U Hw) (H _ _ _ Ik Hx Hw)).
        + intros m Hm. destruct (at_keyword KwDependentRequired m Hm) as (x & w & Hx & -> & Hw & Dx & Ik & U). exact (proj1 (K_dependent_required x w Hx U Hw Dx) (H _ _ _ Ik Hx Hw)).
        + intros m Hm. destruct (at_keyword KwFormat m Hm) as (x & w & Hx & -> & Hw & Dx & Ik & U). exact (proj1 (K_format x w U Hw) (H _ _ _ Ik Hx Hw)).
        + intros m Hm. destruct (at_keyword KwAllOf m Hm) as (x & w & Hx & -> & Hw & Dx & Ik & U). exact (proj1 (K_all x w Hx U Hw) (H _ _ _ Ik Hx Hw)).
        + intros m Hm. destruct (at_keyword KwAnyOf m Hm) as (x & w & Hx & -> & Hw & Dx & Ik & U). exact (proj1 (K_any x w Hx U Hw) (H _ _ _ Ik Hx Hw)).
        + intros m Hm. destruct (at_keyword KwOneOf m Hm) as (x & w & Hx & -> & Hw & Dx & Ik & U). exact (proj1 (K_one x w Hx U Hw) (H _ _ _ Ik Hx Hw)).
        + intros m Hm. destruct (at_keyword KwNot m Hm) as (x & w & Hx & -> & Hw & Dx & Ik & U). exact (proj1 (K_not x w Hx U Hw Dx) (H _ _ _ Ik Hx Hw)).
        + intros m Hm. destruct (at_keyword KwIf m Hm) as (x & w & Hx & -> & Hw & Dx & Ik & U). intros V n Hn. apply tab_get in Hn as (y & Hy & ->). exact (proj1 (proj1 (K_if x w Hx U Hw Dx) (H _ _ _ Ik Hx Hw)) V y Hy).
        + intros m Hm. destruct (at_keyword KwIf m Hm) as (x & w & Hx & -> & Hw & Dx & Ik & U). intros V n Hn. apply tab_get in Hn as (y & Hy & ->). exact (proj2 (proj1 (K_if x w Hx U Hw Dx) (H _ _ _ Ik Hx Hw)) V y Hy).
        + intros m Hm. destruct (at_keyword KwDependentSchemas m Hm) as (x & w & Hx & -> & Hw & Dx & Ik & U). exact (proj1 (K_dependent_schemas x w Hx U Hw Dx) (H _ _ _ Ik Hx Hw)).
        + intros m Hm. destruct (at_keyword KwPrefixItems m Hm) as (x & w & Hx & -> & Hw & Dx & Ik & U). destruct U.
        + intros m Hm. destruct (at_keyword KwItems m Hm) as (x & w & Hx & -> & Hw & Dx & Ik & U). exact (proj1 (K_items x w Hx U Hw Dx) (H _ _ _ Ik Hx Hw)).
        + intros m Hm. destruct (at_keyword KwProperties m Hm) as (x & w & Hx & -> & Hw & Dx & Ik & U). exact (proj1 (K_properties x w Hx U Hw Dx) (H _ _ _ Ik Hx Hw)).
        + intros m Hm. destruct (at_keyword KwPatternProperties m Hm) as (x & w & Hx & -> & Hw & Dx & Ik & U). exact (proj1 (K_patterns x w Hx U Hw Dx) (H _ _ _ Ik Hx Hw)).
        + intros m Hm. destruct (at_keyword KwAdditionalProperties m Hm) as (x & w & Hx & -> & Hw & Dx & Ik & U). exact (proj1 (K_additional x w Hx U Hw Dx) (H _ _ _ Ik Hx Hw)).
        + intros m Hm. destruct (at_keyword KwPropertyNames m Hm) as (x & w & Hx & -> & Hw & Dx & Ik & U). exact (proj1 (K_names x w Hx U Hw Dx) (H _ _ _ Ik Hx Hw)).
        + intros m Hm. destruct (at_keyword KwUnevaluatedProperties m Hm) as (x & w & Hx & -> & Hw & Dx & Ik & U). exact (proj1 (K_unevaluated x w Hx U Hw) (H _ _ _ Ik Hx Hw)).
        + intros m Hm. destruct (no_reference m Hm).
      - intros H k x w Ik Hx Hw. pose proof (proj2 (Hall k x Hx)) as U. pose proof (proj2 dd _ _ (dget_In _ _ _ Hx)) as Dx. destruct k.
        + exact (proj2 (K_additional x w Hx U Hw Dx) (st_additional _ _ _ _ H _ (tab_some _ _ _ _ Hx))).
        + exact (proj2 (K_all x w Hx U Hw) (st_all _ _ _ _ H _ (tab_some _ _ _ _ Hx))).
        + exact (proj2 (K_any x w Hx U Hw) (st_any _ _ _ _ H _ (tab_some _ _ _ _ Hx))).
        + exact (proj2 (K_const x w U Hw) (st_const _ _ _ _ H _ (tab_some _ _ _ _ Hx))).
        + exact (proj2 (K_contains x w Hx U Hw Dx) (st_contains _ _ _ _ H _ (tab_some _ _ _ _ Hx))).
        + exact (proj2 (K_dependent_required x w Hx U Hw Dx) (st_dependent_required _ _ _ _ H _ (tab_some _ _ _ _ Hx))).
        + exact (proj2 (K_dependent_schemas x w Hx U Hw Dx) (st_dependent_schemas _ _ _ _ H _ (tab_some _ _ _ _ Hx))).
        + destruct U as [Ox Gx]; destruct (seen x (conj Gx Dx) Ox) as (o & r & _ & Hv' & _); rewrite Hv' in Hw; injection Hw as <-; exact Logic.I.
        + destruct U as (l & -> & Hl); injection Hw as <-; exact (proj2 (K_enum l Hl) (st_enum _ _ _ _ H _ (tab_some _ _ _ _ Hx))).
        + exact (proj2 (K_xmax x w U Hw) (st_xmax _ _ _ _ H _ (tab_some _ _ _ _ Hx))).
        + exact (proj2 (K_xmin x w U Hw) (st_xmin _ _ _ _ H _ (tab_some _ _ _ _ Hx))).
        + exact (proj2 (K_format x w U Hw) (st_format _ _ _ _ H _ (tab_some _ _ _ _ Hx))).
        + apply (K_if x w Hx U Hw Dx); split; intros V y Hy; [exact (st_then _ _ _ _ H _ (tab_some _ _ _ _ Hx) V _ (tab_some _ _ _ _ Hy))|exact (st_else _ _ _ _ H _ (tab_some _ _ _ _ Hx) V _ (tab_some _ _ _ _ Hy))].
        + exact (proj2 (K_items x w Hx U Hw Dx) (st_items _ _ _ _ H _ (tab_some _ _ _ _ Hx))).
        + exact (proj2 (K_max_items x w U Hw) (st_max_items _ _ _ _ H _ (tab_some _ _ _ _ Hx))).
        + exact (proj2 (K_max_length x w U Hw) (st_max_length _ _ _ _ H _ (tab_some _ _ _ _ Hx))).
        + exact (proj2 (K_max_properties x w U Hw) (st_max_properties _ _ _ _ H _ (tab_some _ _ _ _ Hx))).
        + exact (proj2 (K_max x w U Hw) (st_max _ _ _ _ H _ (tab_some _ _ _ _ Hx))).
        + exact (proj2 (K_min_items x w U Hw) (st_min_items _ _ _ _ H _ (tab_some _ _ _ _ Hx))).
        + exact (proj2 (K_min_length x w U Hw) (st_min_length _ _ _ _ H _ (tab_some _ _ _ _ Hx))).
        + exact (proj2 (K_min_properties x w U Hw) (st_min_properties _ _ _ _ H _ (tab_some _ _ _ _ Hx))).
        + exact (proj2 (K_min x w U Hw) (st_min _ _ _ _ H _ (tab_some _ _ _ _ Hx))).
        + exact (proj2 (K_multiple x w Hx U Hw) (st_multiple _ _ _ _ H _ (tab_some _ _ _ _ Hx))).
        + exact (proj2 (K_not x w Hx U Hw Dx) (st_not _ _ _ _ H _ (tab_some _ _ _ _ Hx))).
        + exact (proj2 (K_one x w Hx U Hw) (st_one _ _ _ _ H _ (tab_some _ _ _ _ Hx))).
        + exact (proj2 (K_pattern x w U Hw) (st_pattern _ _ _ _ H _ (tab_some _ _ _ _ Hx))).
        + exact (proj2 (K_patterns x w Hx U Hw Dx) (st_pattern_properties _ _ _ _ H _ (tab_some _ _ _ _ Hx))).
        + destruct U.
        + exact (proj2 (K_properties x w Hx U Hw Dx) (st_properties _ _ _ _ H _ (tab_some _ _ _ _ Hx))).
        + exact (proj2 (K_names x w Hx U Hw Dx) (st_names _ _ _ _ H _ (tab_some _ _ _ _ Hx))).
        + exact (proj2 (K_required x w U Hw) (st_required _ _ _ _ H _ (tab_some _ _ _ _ Hx))).
        + destruct U as [Ox Gx]; destruct (seen x (conj Gx Dx) Ox) as (o & r & _ & Hv' & _); rewrite Hv' in Hw; injection Hw as <-; exact Logic.I.
        + exact (proj2 (K_type x w Hx U Hw) (st_type _ _ _ _ H _ (tab_some _ _ _ _ Hx))).
        + exact (proj2 (K_unevaluated x w Hx U Hw) (st_unevaluated _ _ _ _ H _ (tab_some _ _ _ _ Hx))).
        + exact (proj2 (K_unique x w Hx U Hw) (st_unique _ _ _ _ H _ (tab_some _ _ _ _ Hx))).
    Qed.
  End Object.

  (** *** Every schema, every value *)
  Lemma object_agrees s v c : Gd s -> an_object s -> fine v -> plain_names v -> plain c ->
    (forall s' y c', Gd s' -> (weight y < weight v)%nat \/ (y = v /\ (rk s' < rk s)%nat) -> fine y -> plain_names y -> plain c' -> (Acc s' y c' <-> valid (M s') y)) ->
    (Acc s v c <-> valid (M s) v).
  Proof.
    intros Gs Os S P C IH. destruct (seen s Gs Os) as (d & r & _ & Hv & GD & Sd & Ln & Hm).
    rewrite (accepts_object view strx E voc Hwf s _ d v c Hv eq_refl), Hm.
    assert (IHd : forall s' y c', Gd s' -> later d v s' y -> fine y -> plain_names y -> plain c' -> (Acc s' y c' <-> valid (M s') y)).
    { intros s' y c' G' [L|[L1 L2]]; apply IH; auto; right; split; [exact L1|lia]. }
    split.
    - intros [_ H]. apply (all_keywords_agree d v c GD Sd S P C IHd); [|exact H]. apply passes. intros x Hx. destruct (proj2 Sd KwType x Hx) as [Ik U].
      destruct (all_seen d GD Sd KwType x Hx) as [w Hw]. exact (proj1 (K_type d v c S x w Hx U Hw) (H KwType x w Ik Hx Hw)).
    - intro H. split; [exact (compiles_d s Gs Os)|]. apply (all_keywords_agree d v c GD Sd S P C IHd); [|exact H]. apply passes. intros x Hx.
      exact (st_type _ _ _ _ H _ (tab_some _ _ _ _ Hx)).
  Qed.
  Lemma agrees n : forall v, (weight v < n)%nat -> forall m s c, (rk s < m)%nat -> Gd s -> fine v -> plain_names v -> plain c -> (Acc s v c <-> valid (M s) v).
  Proof.
    induction n as [|n IHn]; intros v W; [lia|]. induction m as [|m IHm]; intros s c L Gs S P C; [lia|]. destruct (schema_shape s Gs) as [[b ->]|Os].
    - rewrite (accepts_bool view strx E voc (VBool b) _ b v c eq_refl eq_refl), HMb. reflexivity.
    - apply object_agrees; try assumption. intros s' y c' G' [L'|[-> L']] S' P' C'; [eapply IHn; try eassumption; [lia|apply Nat.lt_succ_diag_r]|apply IHm; try assumption; lia].
  Qed.
  (** accepted is valid, rejected is not valid, and there is nothing else *)
  Theorem agreement s v c : G s -> distinct s -> fine v -> plain_names v -> plain c ->
    (Acc s v c <-> valid (M s) v) /\ (Rej s v c <-> ~ valid (M s) v) /\ (Acc s v c \/ Rej s v c).
  Proof.
    intros Gs Ds F P C. pose proof (agrees _ v (Nat.lt_succ_diag_r _) _ s c (Nat.lt_succ_diag_r _) (conj Gs Ds) F P C) as K.
    pose proof (outcome s v c (conj Gs Ds) F P C) as Ei. split; [exact K|]. split; [|exact Ei]. split.
    - intros H V. apply K in V. exact (accepts_not_rejects _ _ _ _ _ _ _ V H).
    - intro N. destruct Ei as [H|H]; [|exact H]. exfalso. apply N, K, H.
  Qed.
End Agreement.

(** ** Schemas without references *)
Section Plain.
  Variables (E : env) (voc : list akw) (strx : pv -> pystr) (G : pv -> Prop).
  Hypothesis Hs : forall s, G s -> supported E voc G s.
  Hypothesis Htf : exists rest, voc = KwType :: rest.
  Notation fine v := (sharp_inside v /\ small_quotients G v /\ plain_arrays G v) (only parsing).
  Notation M := (means (re_matches E) (fmt_conforms E)).
  Notation Acc := (Accepts dview strx E voc).
  Notation Rej := (Rejects dview strx E voc).
  Lemma plain_agreement s v c : G s -> distinct s -> fine v -> plain_names v -> plain c ->
    (Acc s v c <-> valid (M s) v) /\ (Rej s v c <-> ~ valid (M s) v) /\ (Acc s v c \/ Rej s v c).
  Proof.
    apply (agreement E voc strx G plain_dicts M weight dview_wf).
    - intros x [Gx Dx]. destruct (Hs x Gx) as [H|(d & -> & B & H)]; [left; exact H|right]. exists d, false. split; [exists d; reflexivity|].
      split; [exact (plain_dict d (proj1 (distinct_inv _ Dx)))|]. split; [split; assumption|]. split; [split; assumption|]. split; [lia|]. reflexivity.
    - intros d k tb [_ Dd] _ _ Hk. apply plain_dict. apply dget_In in Hk. exact (proj1 (distinct_inv _ (proj2 (distinct_inv _ Dd) _ _ Hk))).
    - intros d k x s' _ _ Hx St _. apply dget_In, weight_member in Hx. destruct k; cbn in St; try contradiction; try (subst; exact Hx);
        first [destruct St as (l & -> & I); apply weight_elem in I|destruct St as (tb & key & -> & I); apply weight_member in I]; lia.
    - reflexivity.
    - exact Htf.
  Qed.
  Lemma either s v c : Gd G s -> fine v -> plain_names v -> plain c -> Acc s v c \/ Rej s v c.
  Proof. intros [Gs Ds] F P C. apply plain_agreement; assumption. Qed.

  (** C112, the part that holds: on the schemas above, accepted is valid and
      rejected is not valid. *)
  Theorem C112_partial s v c : G s -> distinct s -> sharp_inside v -> small_quotients G v -> plain_arrays G v -> plain_names v -> plain c ->
    (Accepts pv_view strx E voc s v c <-> valid (means (re_matches E) (fmt_conforms E) s) v) /\
    (Rejects pv_view strx E voc s v c <-> ~ valid (means (re_matches E) (fmt_conforms E) s) v).
  Proof.
    intros Gs Ds S Q T P C. pose proof (conj S (conj Q T)) as F. assert (A : Accepts pv_view strx E voc s v c <-> Acc s v c).
    { split; intros [f H]; exists f; [rewrite <- dview_validate|rewrite dview_validate]; assumption. }
    assert (R : Rejects pv_view strx E voc s v c <-> Rej s v c).
    { split; intros (f & e & H); exists f, e; [rewrite <- dview_validate|rewrite dview_validate]; assumption. }
    rewrite A, R. destruct (plain_agreement s v c Gs Ds F P C) as (K1 & K2 & _). split; assumption.
  Qed.

  (** ... and with a document: validating settles, for every fuel from some point *)
  Theorem C112_document_partial auth dig (strd : heap -> addr -> pystr) fetch w V d s w0 v :
    V = VDict d -> fit_document auth V -> free V -> opened w V s w0 ->
    (forall w' a f y, part V (f, y) -> stands auth w' s a (f, y) -> strd (w_heap w') a = strx y) ->
    G V -> distinct V -> sharp_inside v -> small_quotients G v -> plain_arrays G v -> plain_names v ->
    exists n0 f0, forall n fuel, (n0 <= n)%nat -> (f0 <= fuel)%nat ->
      let outcome := snd (document_validate auth dig strd fetch E voc n fuel s v w0) in
      (outcome = Ok tt <-> valid (means (re_matches E) (fmt_conforms E) V) v) /\
      ((exists e, outcome = Raise (EValid e)) <-> ~ valid (means (re_matches E) (fmt_conforms E) V) v).
  Proof.
    intros EV Ft Fr O Sy GV DV S Q T P. destruct (C71_plain auth dig strd fetch w V s w0 strx Ft Fr O Sy E voc) as [n0 Hn]. exists n0.
    destruct (C112_partial V v [] GV DV S Q T P ltac:(constructor)) as [A R].
    assert (D : exists f0 r, (r = Ok tt \/ exists e, r = Raise (EValid e)) /\ validate pv_view strx E voc f0 V v [] = r).
    { destruct (either V v [] (conj GV DV) (conj S (conj Q T)) P ltac:(constructor)) as [[f H]|(f & e & H)]; rewrite <- (dview_validate strx E voc f V v [] DV) in H; eexists _, _; (split; [|exact H]); eauto. }
    destruct D as (f0 & r & Hr & Hf). exists f0. intros n fuel Ln Lf. cbv zeta. rewrite (Hn n Ln fuel v).
    assert (Er : schema_validate pv_view strx E voc fuel V v = r).
    { rewrite EV. unfold schema_validate. cbn [pv_view bind nv_val]. rewrite <- EV. destruct (le_validate pv_view strx E voc f0 fuel V v [] Lf) as [K|K]; [rewrite K in Hf; subst r; destruct Hr as [[=]|(e & [=])]|congruence]. }
    rewrite Er. rewrite <- R, <- A. split; split.
    - intros ->. exists f0. exact Hf.
    - intros A'. destruct Hr as [->|(e & ->)]; [reflexivity|]. exfalso. eapply (accepts_not_rejects pv_view strx E voc); [exact A'|]. exists f0, e. exact Hf.
    - intros (e & ->). exists f0, e. exact Hf.
    - intros R'. destruct Hr as [->|(e & ->)]; [|eauto]. exfalso. eapply (accepts_not_rejects pv_view strx E voc); [|exact R']. exists f0. exact Hf.
  Qed.
End Plain.

(** ** What does not hold *)
Local Open Scope string_scope.
Definition std_kws : list akw := KwType :: all_keywords.
Notation std := (means (re_matches ex_env) (fmt_conforms ex_env)).
Definition std_run (s v : pv) : res unit := validate pv_view (fun _ => []) ex_env std_kws 9 s v [].
Definition overlap : pv := jdict [("properties", jdict [("a", VBool true)]); ("patternProperties", jdict [("a", jdict [("type", VStr (u "integer"))])])].
Definition no_strings : pv := jdict [("contains", jdict [("type", VStr (u "string"))]); ("minContains", VInt 0); ("maxContains", VInt 0)].
Definition closed_all : pv := jdict [("allOf", VList [jdict [("properties", jdict [("a", jdict [])])]]); ("unevaluatedProperties", VBool false)].
Definition open_closed : pv := jdict [("additionalProperties", VBool true); ("unevaluatedProperties", VBool false)].
Definition two_bounds : pv := jdict [("minimum", VInt 5); ("exclusiveMinimum", VInt 1)].
Ltac each_keyword := rewrite ?M_dict; constructor; let m := fresh "m" in let Hm := fresh "Hm" in let x := fresh "x" in let Hx := fresh "Hx" in
  intros m Hm; apply tab_get in Hm as (x & Hx & ->); vm_compute in Hx; try discriminate Hx; injection Hx as <-.
Lemma empty_valid v : valid (std (jdict [])) v.
Proof. each_keyword. Qed.

(** C112 fails on other schemas: accepted though invalid, rejected though valid,
    neither though valid, and a keyword of the standard that is not in force. *)
Theorem C112_refuted :
  (* a pattern is not tried on declared names; [maxContains: 0] is no bound *)
  (std_run overlap (jdict [("a", VStr (u "x"))]) = Ok tt /\ ~ valid (std overlap) (jdict [("a", VStr (u "x"))])) /\
  (std_run no_strings (VList [VStr (u "x")]) = Ok tt /\ ~ valid (std no_strings) (VList [VStr (u "x")])) /\
  (* 1.0 is no integer, 1 and true are no different, [items] asks for an array *)
  (let s := jdict [("type", VStr (u "integer"))] in let v := VFloat (PFloat 1 0 (Dec 10 (-1))) in
   (exists e, std_run s v = Raise (EValid e)) /\ valid (std s) v) /\
  (let s := jdict [("uniqueItems", VBool true)] in let v := VList [VInt 1; VBool true] in
   (exists e, std_run s v = Raise (EValid e)) /\ valid (std s) v) /\
  (let s := jdict [("items", jdict [])] in (exists e, std_run s (VInt 1) = Raise (EValid e)) /\ valid (std s) (VInt 1)) /\
  (* [unevaluatedProperties] looks neither inside applicators nor at [additionalProperties: true] *)
  ((exists e, std_run closed_all (jdict [("a", VInt 1)]) = Raise (EValid e)) /\ valid (std closed_all) (jdict [("a", VInt 1)])) /\
  ((exists e, std_run open_closed (jdict [("a", VInt 1)]) = Raise (EValid e)) /\ valid (std open_closed) (jdict [("a", VInt 1)])) /\
  (* an exclusive bound of 1 is taken for a flag *)
  ((exists e, std_run two_bounds (VInt 5) = Raise (EValid e)) /\ valid (std two_bounds) (VInt 5)) /\
  (* neither accepted nor rejected *)
  (let s := jdict [("minLength", VInt 3)] in std_run s (VInt 5) = Raise EType /\ valid (std s) (VInt 5)) /\
  (let s := jdict [("if", jdict [("type", VStr (u "string"))])] in std_run s (VInt 1) = Raise (EKey (u "else")) /\ valid (std s) (VInt 1)) /\
  (let s := jdict [("const", VList [VInt 1])] in std_run s (VList [VInt 1]) = Raise ESchemaParse /\ valid (std s) (VList [VInt 1])) /\
  (* the vocabulary of the package itself does not have [required] *)
  (let s := jdict [("required", VList [VStr (u "a")])] in
   validate pv_view (fun _ => []) ex_env validator_vocabulary 9 s (jdict []) [] = Ok tt /\ ~ valid (std s) (jdict [])).
Proof.
  split; [|split; [|split; [|split; [|split; [|split; [|split; [|split; [|split; [|split; [|split]]]]]]]]]]; cbv zeta; (split; [first [reflexivity|eexists; reflexivity]|]).
  - intro H. assert (K : valid (std (jdict [("type", VStr (u "integer"))])) (VStr (u "x"))).
    { refine (st_pattern_properties _ _ _ _ H _ eq_refl _ (u "a") _ (u "a") _ eq_refl (or_introl eq_refl) _ eq_refl). left. reflexivity. }
    destruct (st_type _ _ _ _ K _ eq_refl) as [(t & [= <-] & K')|(l & t & [=] & _)]. vm_compute in K'. discriminate K'.
  - intro H. destruct (st_contains _ _ _ _ H _ eq_refl _ eq_refl) as (n & Hn & _ & Hx). pose proof (Hx _ eq_refl 0 (proj2 (whole_int 0 0) eq_refl)) as L.
    inversion Hn as [|? ? ? Y N|? ? ? No N]; subst; [inversion N; subst; lia|]. apply No. each_keyword. left. exists (u "string"). split; reflexivity.
  - each_keyword. left. exists (u "integer"). split; [reflexivity|]. right. split; [reflexivity|]. exists 1, (dec_q (Dec 10 (-1))). split; reflexivity.
  - each_keyword. intros _ l i j x y [= <-] L Hi Hj S. destruct i as [|[|i]], j as [|[|j]]; cbn in Hi, Hj; try discriminate; try lia; try (destruct i; discriminate); try (destruct j; discriminate).
    injection Hi as <-. injection Hj as <-. inversion S; subst; discriminate.
  - each_keyword. discriminate.
  - each_keyword.
    + intros s [<-|[]]. each_keyword. intros d key y s' [= <-] [[= <- <-]|[]] [[= <-]|[]]. apply empty_valid.
    + intros d key y [= <-] [[= <- <-]|[]] N. exfalso. apply N. right; right; right; left. eexists _, _. split; [reflexivity|]. split; [left; reflexivity|].
      left. left. eexists _, _. split; [reflexivity|]. left. reflexivity.
  - each_keyword.
    + intros. reflexivity.
    + intros d key y [= <-] [[= <- <-]|[]] N. exfalso. apply N. right; right; left. eexists. reflexivity.
  - each_keyword; intros p q [= <-] [= <-]; vm_compute; congruence.
  - each_keyword. discriminate.
  - each_keyword.
    + intros _ n Hn. apply tab_get in Hn as (x & Hx & _). discriminate Hx.
    + intros _ n Hn. apply tab_get in Hn as (x & Hx & _). discriminate Hx.
  - each_keyword. constructor. constructor; [|constructor]. eapply same_number; reflexivity.
  - intro H. pose proof (st_required _ _ _ _ H _ eq_refl _ _ _ eq_refl (or_introl eq_refl) eq_refl) as K. destruct K.
Qed.

(** ** A case: a document with seven schemas *)
Definition case_name : pv := jdict [("type", VStr (u "string")); ("minLength", VInt 2); ("pattern", VStr (u "a"))].
Definition case_tag : pv := jdict [("enum", VList [VStr (u "a"); VStr (u "b"); VInt 1])].
Definition case_a : pv := jdict [("const", VStr (u "a"))].
Definition case_tags : pv := jdict [("type", VStr (u "array")); ("items", case_tag); ("contains", case_a); ("maxContains", VInt 2); ("uniqueItems", VBool true)].
Definition case_big : pv := jdict [("type", VStr (u "integer")); ("minimum", VInt 3); ("multipleOf", VInt 2)].
Definition case_null : pv := jdict [("type", VStr (u "null"))].
Definition case_n : pv := jdict [("oneOf", VList [case_big; case_null])].
Definition case_schema : pv := jdict [("type", VStr (u "object")); ("required", VList [VStr (u "name")]);
  ("properties", jdict [("name", case_name); ("tags", case_tags); ("n", case_n)]); ("patternProperties", jdict [("x", VBool true)]); ("additionalProperties", VBool false)].
Definition case_schemas (s : pv) : Prop := In s [VBool true; VBool false; case_name; case_tag; case_a; case_tags; case_big; case_null; case_n; case_schema].
Ltac case_in := cbn [case_schemas In]; repeat (first [left; reflexivity|right]).
Ltac kw_in := vm_compute; repeat (first [left; reflexivity|right]).
Ltac case_type := eexists; (split; [reflexivity|]); left; eexists; (split; [reflexivity|]); kw_in.
Lemma case_supported s : case_schemas s -> supported ex_env std_kws case_schemas s.
Proof.
  assert (B : forall d : list (pystr * pv), forallb (fun k => negb (dmem k d)) beyond = true -> forall k, In k beyond -> dget k d = None).
  { intros d H k Ik. rewrite forallb_forall in H. specialize (H k Ik). unfold dmem in H. destruct (dget k d); [discriminate|reflexivity]. }
  unfold case_schemas at 1. cbn [In]. intro H.
  repeat (destruct H as [<-|H]; [first [left; eexists; reflexivity|right; eexists; (split; [reflexivity|]); (split; [apply B; reflexivity|]); intros k x Hx; destruct k; vm_compute in Hx; try discriminate Hx; injection Hx as <-; (split; [kw_in|])]|]); try destruct H; cbn [usable].
  all: try case_type.
  - split; [eexists; reflexivity|case_type].
  - split; [case_type|]. eexists. split; reflexivity.
  - eexists. split; [reflexivity|]. intros y Iy. repeat (destruct Iy as [<-|Iy]; [exact I|]). destruct Iy.
  - split; [case_type|]. split; [eexists; reflexivity|]. split; [case_in|]. split; intros b Hb; vm_compute in Hb; [discriminate Hb|]. injection Hb as <-. eexists. split; [reflexivity|discriminate].
  - split; [case_type|case_in].
  - right. split; [reflexivity|case_type].
  - split; [discriminate|]. split; [case_type|]. intros e He. vm_compute in He. discriminate He.
  - split; [|case_type]. eexists. split; [reflexivity|discriminate].
  - eexists. split; [reflexivity|]. split; [discriminate|]. intros y Iy. repeat (destruct Iy as [<-|Iy]; [case_in|]). destruct Iy.
  - case_in.
  - eexists. split; [reflexivity|]. intros p s [[= <- <-]|[]]. split; [reflexivity|]. split; [case_in|]. intros props key Hp Ik. vm_compute in Hp. injection Hp as <-.
    repeat (destruct Ik as [<-|Ik]; [reflexivity|]). destruct Ik.
  - eexists. split; [reflexivity|]. intros key s Is. repeat (destruct Is as [[= <- <-]|Is]; [case_in|]). destruct Is.
  - split; [case_type|]. eexists. split; [reflexivity|]. intros y Iy. repeat (destruct Iy as [<-|Iy]; [eexists; reflexivity|]). destruct Iy.
Qed.
Definition case_world : world := fst (make_schema case_schema core (World [] [] [])).
Definition case_good : pv := jdict [("name", VStr (u "ab")); ("tags", VList [VStr (u "b"); VStr (u "a"); VInt 1]); ("n", VInt 4); ("x1", VNone)].
Definition case_bad : pv := jdict [("name", VStr (u "ab")); ("tags", VList [VStr (u "a"); VStr (u "b"); VStr (u "b")])].
Lemma case_sharp v : (fix ok (v : pv) : bool := match v with VList l => forallb ok l | VDict d => forallb (fun kx => ok (snd kx)) d | VFloat _ | VDec _ => false | _ => true end) v = true -> sharp_inside v.
Proof.
  intros Hv p y L. induction L as [v| | ]; [destruct v; try exact I; discriminate| |]; apply IHL; rewrite forallb_forall in Hv.
  - eapply (Hv (_, _)). eassumption.
  - eapply Hv, nth_error_In. eassumption.
Qed.
Lemma case_small v : (fix ok (v : pv) : bool := match v with VList l => forallb ok l | VDict d => forallb (fun kx => ok (snd kx)) d | VInt z => (Z.abs z <? 1000)%Z | VFloat _ | VDec _ => false | _ => true end) v = true -> small_quotients case_schemas v.
Proof.
  intros Hv p y q d x r L Hq Gd Hx Hr. assert (r = inject_Z 2).
  { unfold case_schemas in Gd. cbn [In] in Gd. repeat (destruct Gd as [Gd|Gd]; [try discriminate Gd; injection Gd as <-; vm_compute in Hx; try discriminate Hx; injection Hx as <-; cbn in Hr; congruence|]). destruct Gd. }
  subst r. clear Gd Hx Hr. induction L as [v|d' k x' p y Ix L IHL|l i x' p y Ix L IHL].
  - destruct v; try discriminate. injection Hq as <-. change (inject_Z (Z.abs z) < inject_Z (10 ^ 28) * inject_Z 2)%Q. rewrite <- inject_Z_mult, <- Zlt_Qlt. lia.
  - apply IHL; [|exact Hq]. rewrite forallb_forall in Hv. exact (Hv (k, x') Ix).
  - apply IHL; [|exact Hq]. rewrite forallb_forall in Hv. eapply Hv, nth_error_In, Ix.
Qed.
Lemma case_arrays v : (fix ok (v : pv) : bool := match v with VList l => forallb ok l && forallb (fun x => match x with VBool _ | VList _ | VDict _ => false | _ => true end) l | VDict d => forallb (fun kx => ok (snd kx)) d | _ => true end)%bool v = true ->
  forall G, plain_arrays G v.
Proof.
  intros Hv G p l d L _ _ x y Ix _. remember (VList l) as y' eqn:Ey. revert l Ey x Ix. induction L as [v|d' k x' p y' Ix' L IHL|l' i x' p y' Ix' L IHL]; intros l Ey x Ix.
  - subst v. apply andb_prop in Hv as [_ Hv]. rewrite forallb_forall in Hv. specialize (Hv x Ix). destruct x; try discriminate; (split; [exact I|discriminate]).
  - rewrite forallb_forall in Hv. exact (IHL (Hv (k, x') Ix') l Ey x Ix).
  - apply andb_prop in Hv as [Hv _]. rewrite forallb_forall in Hv. exact (IHL (Hv x' (nth_error_In _ _ Ix')) l Ey x Ix).
Qed.
Lemma case_plain v : (fix ok (v : pv) : bool := match v with VList l => forallb ok l
  | VDict d => forallb (fun kx => forallb (fun x => negb (x =? 123)%N && negb (x =? 125)%N) (fst kx) && ok (snd kx))%bool d | _ => true end) v = true -> plain_names v.
Proof.
  intros Hv p y L. induction L as [v|d k x p y Ix L IHL|l i x p y Ix L IHL]; [constructor| |]; rewrite forallb_forall in Hv.
  - specialize (Hv (k, x) Ix). cbn [fst snd] in Hv. apply andb_prop in Hv as [H1 H2]. constructor; [exact (plain_text_b k H1)|exact (IHL H2)].
  - constructor; [apply plain_nat_str|]. apply IHL, Hv. eapply nth_error_In. exact Ix.
Qed.
Example C112_some : (forall s, case_schemas s -> supported ex_env std_kws case_schemas s) /\ case_schemas case_schema /\ distinct case_schema /\
  fit_document toy case_schema /\ free case_schema /\ opened (World [] [] []) case_schema 0 case_world /\
  sharp_inside case_good /\ small_quotients case_schemas case_good /\ plain_arrays case_schemas case_good /\ plain_names case_good /\ sharp_inside case_bad /\ small_quotients case_schemas case_bad /\ plain_arrays case_schemas case_bad /\ plain_names case_bad /\
  valid (std case_schema) case_good /\ ~ valid (std case_schema) case_bad /\
  let run v := snd (document_validate toy ex_dig (fun _ _ => []) (fun _ => Raise EFileNotFound) ex_env std_kws 20 20 0 v case_world) in
  run case_good = Ok tt /\ exists e, run case_bad = Raise (EValid e).
Proof.
  assert (D : distinct case_schema) by (apply distinctb_ok; vm_compute; reflexivity).
  assert (S1 : sharp_inside case_good) by (apply case_sharp; reflexivity). assert (S2 : sharp_inside case_bad) by (apply case_sharp; reflexivity).
  assert (Q1 : small_quotients case_schemas case_good) by (apply case_small; reflexivity). assert (Q2 : small_quotients case_schemas case_bad) by (apply case_small; reflexivity).
  assert (T1 : plain_arrays case_schemas case_good) by (apply case_arrays; reflexivity). assert (T2 : plain_arrays case_schemas case_bad) by (apply case_arrays; reflexivity).
  assert (P1 : plain_names case_good) by (apply case_plain; reflexivity). assert (P2 : plain_names case_bad) by (apply case_plain; reflexivity).
  assert (Gs : case_schemas case_schema) by case_in.
  pose proof (C112_partial ex_env std_kws (fun _ => []) case_schemas case_supported (ex_intro _ _ eq_refl) case_schema case_good [] Gs D S1 Q1 T1 P1 ltac:(constructor)) as [A _].
  pose proof (C112_partial ex_env std_kws (fun _ => []) case_schemas case_supported (ex_intro _ _ eq_refl) case_schema case_bad [] Gs D S2 Q2 T2 P2 ltac:(constructor)) as [_ R].
  split; [exact case_supported|]. do 2 (split; [assumption|]). split; [apply fit_documentb_ok; vm_compute; reflexivity|]. split.
  { intros d P. apply part_listed in P. vm_compute in P. repeat (destruct P as [P|P]; [try discriminate P; injection P as <-; split; reflexivity|]). destruct P. }
  split; [reflexivity|]. do 8 (split; [assumption|]). split; [apply A; exists 20%nat; vm_compute; reflexivity|]. split; [apply R; exists 20%nat; eexists; vm_compute; reflexivity|].
  cbv zeta. split; [vm_compute; reflexivity|]. eexists. vm_compute. reflexivity.
Qed.
