(** C120: where a malformed schema is reported, and how. *)
From Verif Require Import PyBase PyBaseFacts PyVal OrderFacts Regex Numbers Uri Pointer Store Errors Validators Keywords Spec Heap HeapFacts PropsWrap PropsPlaces Doc DocMono DocFacts PropsAnchor Parametric Interrupt Validate Claims PropsScalar ExBase PropsUriEx PropsRef PropsStandard PropsRefStandard PropsQuery  SchemaError SchemaErrorFacts.
Local Open Scope nat_scope.
Local Notation length := List.length (only parsing).

(** ** The specification *)
(** a JSON value as the operand of a keyword *)
Definition operand_of (x : pv) : nval pv := match pv_view x with Ok w => nv_val w | _ => NNull end.
Definition is_number (x : pv) : Prop := exists n, operand_of x = NNum n.
(** the member of this object that a keyword reads is one it cannot read; [k] is the
    keyword, [d] the members *)
Inductive malformed (E : env) (d : list (pystr * pv)) : akw -> Prop :=
| mf_kind k x : dget (kw_key k) d = Some x -> unsupported k (operand_of x) = true -> malformed E d k
| mf_name s : dget (u "type") d = Some (VStr s) -> ~ In s type_names -> malformed E d KwType
| mf_names l y : dget (u "type") d = Some (VList l) -> In y l -> (forall s, y = VStr s -> ~ In s type_names) -> malformed E d KwType
| mf_maximum b : dget (u "exclusiveMaximum") d = Some (VBool b) -> dget (u "maximum") d = None -> malformed E d KwExclusiveMaximum
| mf_minimum b : dget (u "exclusiveMinimum") d = Some (VBool b) -> dget (u "minimum") d = None -> malformed E d KwExclusiveMinimum
| mf_format s : dget (u "format") d = Some (VStr s) -> fmt E s = None -> malformed E d KwFormat
| mf_contains o key x : dget (u "contains") d = Some (VDict o) -> key = u "minContains" \/ key = u "maxContains" ->
    dget key d = Some x -> ~ is_number x -> malformed E d KwContains.
(** a list of types with an element that is no string: its text is not modelled *)
Definition odd_types (d : list (pystr * pv)) (k : akw) : Prop := k = KwType /\ exists l y, dget (u "type") d = Some (VList l) /\ In y l /\ forall s, y <> VStr s.
(** the text of the error, for the keyword [k] of the object at [p] *)
Definition not_a_number (x : option pv) : bool := match x with Some y => match operand_of y with NNum _ => false | _ => true end | None => false end.
Definition said (d : list (pystr * pv)) (k : akw) (p : list pystr) : pystr :=
  match k, dget (kw_key k) d with
  | KwFormat, Some (VStr s) => u "Parsing failed at `" ++ pointer_str p ++ u "`. Unrecognized format type `" ++ s ++ u "`.Please use _StringFormat to register your custom format type."
  | KwContains, Some (VDict _) => u "`" ++ (if not_a_number (dget (u "minContains") d) then u "minContains" else u "maxContains") ++ u "` property must be a positive integer."
  | _, _ => u "Parsing failed at `" ++ pointer_str p ++ u "`. Passed document is not a valid json schema object. "
  end.

(** ** One object *)
Section Object.
  Variables (view : addr -> res (nview addr)) (strx : addr -> pystr) (E : env).
  Hypothesis Hview : forall a, quiet (view a).
  Notation data := (list (pystr * vobj addr addr)).

  (** why applying a keyword raises the error *)
  Definition wrong (k : akw) (items : list (pystr * addr)) (w : nview addr) : Prop :=
    unsupported k (nv_val w) = true \/
    (k = KwType /\ exists s, nv_val w = NStr s /\ ~ In s type_names) \/
    (k = KwType /\ exists l c, nv_val w = NArr l /\ In c l /\ forall s, In s type_names -> view c <> Ok (NView (NStr s) false)) \/
    (k = KwExclusiveMaximum /\ (exists b, nv_val w = NBool b) /\ dget (u "maximum") items = None) \/
    (k = KwExclusiveMinimum /\ (exists b, nv_val w = NBool b) /\ dget (u "minimum") items = None) \/
    (k = KwFormat /\ exists s, nv_val w = NStr s /\ fmt E s = None) \/
    (k = KwContains /\ exists o key c w', nv_val w = NObj o /\ (key = u "minContains" \/ key = u "maxContains") /\ dget key items = Some c /\ view c = Ok w' /\ forall n, nv_val w' <> NNum n).

  Lemma raise_bind {A B} (r : res A) (f : A -> res B) : bind r f = Raise ESchemaParse -> r = Raise ESchemaParse \/ exists a, r = Ok a /\ f a = Raise ESchemaParse.
  Proof. destruct r as [a|e|]; cbn [bind]; [right; eauto|intros [= ->]; left; reflexivity|discriminate]. Qed.
  Lemma quiet_objv (d : data) : quiet (get_objv d).
  Proof. unfold get_objv. quiet. Qed.
  Lemma quiet_condv (d : data) : quiet (get_condv d).
  Proof. unfold get_condv. quiet. Qed.
  Lemma quiet_opnd items k : quiet (opnd view items k).
  Proof. unfold opnd. destruct (dget k items); [apply Hview|quiet]. Qed.
  Lemma quiet_opnd_node items k : quiet (@opnd_node addr items k).
  Proof. unfold opnd_node. quiet. Qed.
  Lemma quiet_iter n : quiet (iter_strs view strx n).
  Proof. unfold iter_strs. apply quiet_bind; [apply Hview|]. intro. quiet. Qed.
  Lemma quiet_map {A B} (f : A -> res B) l : (forall a, quiet (f a)) -> quiet (map_res f l).
  Proof. intro H. induction l as [|x l IH]; cbn [map_res]; [quiet|]. apply quiet_bind; [apply H|]. intro. apply quiet_bind; [exact IH|]. intro. quiet. Qed.
  Lemma bound_wrong items key : opt_bound view items key = Raise ESchemaParse -> exists c w, dget key items = Some c /\ view c = Ok w /\ forall n, nv_val w <> NNum n.
  Proof.
    unfold opt_bound, dmem, opnd. destruct (dget key items) as [c|] eqn:G; [|discriminate]. intro H. apply raise_bind in H as [H|(w & Hw & H)]; [exfalso; eapply Hview, H|].
    exists c, w. split; [reflexivity|]. split; [exact Hw|]. intros n N. unfold as_num in H. rewrite N in H. destruct (nv_ref w); discriminate.
  Qed.

  Lemma apply_wrong k items d : apply view strx E k items d = Raise ESchemaParse ->
    exists c w, dget (kw_key k) items = Some c /\ view c = Ok w /\ wrong k items w.
  Proof.
    intro H. unfold apply in H. apply raise_bind in H as [H|(w & Hw & H)]; [exfalso; eapply quiet_opnd, H|]. apply raise_bind in H as [H|(c & Hc & H)]; [exfalso; eapply quiet_opnd_node, H|].
    unfold opnd in Hw. unfold opnd_node in Hc. destruct (dget (kw_key k) items) as [c'|] eqn:G; [|discriminate]. injection Hc as ->. exists c, w. split; [reflexivity|]. split; [exact Hw|].
    unfold wrong. destruct (unsupported k (nv_val w)) eqn:U; [left; reflexivity|right].
    destruct k; unfold as_num, as_str, as_arr, as_obj in H; destruct (nv_val w) as [|b|n|s|l|o] eqn:V; try discriminate U; cbn [bind] in H.
    all: try (destruct (nv_ref w); discriminate H).
    all: try (exfalso; match type of H with ?r = _ => enough (Q : quiet r) by exact (Q H) end; clear H; quiet; first [apply quiet_objv|apply quiet_condv|apply quiet_map; intros; try apply quiet_bind; intros; quiet; first [apply quiet_iter|apply Hview]|apply quiet_opnd|apply quiet_opnd_node]; fail).
    all: try (exfalso; match type of H with ?r = _ => enough (Q : quiet r) by exact (Q H) end; clear H; unfold exclusive_flag, enum_item; quiet; first [apply quiet_opnd|apply quiet_opnd_node]; fail).
    - (* contains *)
      right. right. right. right. right. split; [reflexivity|].
      apply raise_bind in H as [H|(mn & _ & H)]; [destruct (bound_wrong _ _ H) as (c1 & w1 & K1 & K2 & K3); exists o, (u "minContains"), c1, w1; auto|].
      apply raise_bind in H as [H|(mx & _ & H)]; [|discriminate]. destruct (bound_wrong _ _ H) as (c1 & w1 & K1 & K2 & K3); exists o, (u "maxContains"), c1, w1; auto.
    - right. right. left. split; [reflexivity|]. split; [eauto|]. unfold dmem in H. destruct (dget (u "maximum") items); [discriminate|reflexivity].
    - right. right. right. left. split; [reflexivity|]. split; [eauto|]. unfold dmem in H. destruct (dget (u "minimum") items); [discriminate|reflexivity].
    - right. right. right. right. left. split; [reflexivity|]. exists s. split; [reflexivity|]. destruct (nv_ref w); [discriminate|]. cbn [bind] in H. destruct (fmt E s); [discriminate|reflexivity].
    - left. split; [reflexivity|]. exists s. split; [reflexivity|]. intro I. destruct (nv_ref w); [discriminate|]. cbn [bind forallb] in H. replace (str_mem s valid_types) with true in H; [discriminate|]. symmetry. apply str_mem_In. exact I.
    - right. left. split; [reflexivity|]. exists l. destruct (nv_ref w); [discriminate|]. cbn [bind] in H. destruct (forallb _ _) eqn:F; [discriminate|].
      assert (K : exists c0, In c0 l /\ str_mem (item_str view strx c0) valid_types = false).
      { clear -F. induction l as [|x l IH]; [discriminate|]. cbn [map forallb] in F. destruct (str_mem (item_str view strx x) valid_types) eqn:M; [|exists x; split; [left; reflexivity|exact M]]. destruct (IH F) as (c0 & I & R). exists c0. split; [right; exact I|exact R]. }
      destruct K as (c0 & I & M). exists c0. split; [reflexivity|]. split; [exact I|]. intros s T Ev. unfold item_str in M. rewrite Ev in M. assert (N : str_mem s valid_types = true) by (apply str_mem_In; exact T). congruence.
  Qed.

  Lemma quiet_contains_str key l : quiet (arr_contains_str view key l).
  Proof. induction l as [|m l IH]; cbn [arr_contains_str]; [quiet|]. apply quiet_bind; [apply quiet_node, Hview|]. intros [|]; [quiet|exact IH]. Qed.
  Lemma step_wrong w k d : step_kw view strx E w k d = Raise ESchemaParse -> exists items c w', nv_val w = NObj items /\ dget (kw_key k) items = Some c /\ view c = Ok w' /\ wrong k items w'.
  Proof.
    intro H. unfold step_kw in H. apply raise_bind in H as [H|(b & _ & H)].
    - exfalso. unfold can_apply in H. destruct (nv_val w); try discriminate H. eapply quiet_contains_str, H.
    - destruct b; [|discriminate]. destruct (nv_val w) as [| | | | |items] eqn:V; try discriminate H. destruct (apply_wrong k items d H) as (c & w' & K). exists items, c, w'. split; [reflexivity|exact K].
  Qed.
  (** a keyword the error is not for: it can read its operand *)
  Definition plainly_wrong (k : akw) (items : list (pystr * addr)) (w : nview addr) : Prop :=
    unsupported k (nv_val w) = true \/
    (k = KwType /\ exists s, nv_val w = NStr s /\ ~ In s type_names) \/
    (k = KwType /\ exists l c s, nv_val w = NArr l /\ In c l /\ view c = Ok (NView (NStr s) false) /\ ~ In s type_names) \/
    (k = KwExclusiveMaximum /\ (exists b, nv_val w = NBool b) /\ dget (u "maximum") items = None) \/
    (k = KwExclusiveMinimum /\ (exists b, nv_val w = NBool b) /\ dget (u "minimum") items = None) \/
    (k = KwFormat /\ exists s, nv_val w = NStr s /\ fmt E s = None) \/
    (k = KwContains /\ exists o key c w', nv_val w = NObj o /\ (key = u "minContains" \/ key = u "maxContains") /\ dget key items = Some c /\ view c = Ok w' /\ forall n, nv_val w' <> NNum n).
  Lemma bound_fine items key z c w : opt_bound view items key = Ok z -> dget key items = Some c -> view c = Ok w -> exists n, nv_val w = NNum n.
  Proof. unfold opt_bound, dmem, opnd. intros H G Hc. rewrite G in H. cbn [bind] in H. rewrite Hc in H. cbn [bind] in H. unfold as_num in H. destruct (nv_val w); try discriminate H. eauto. Qed.
  Lemma ok_bind {A B} (r : res A) (f : A -> res B) b : bind r f = Ok b -> exists a, r = Ok a /\ f a = Ok b.
  Proof. destruct r; try discriminate. cbn [bind]. eauto. Qed.
  Lemma step_fine w k d d' items c w' : step_kw view strx E w k d = Ok d' -> nv_val w = NObj items -> dget (kw_key k) items = Some c -> view c = Ok w' -> ~ plainly_wrong k items w'.
  Proof.
    intros H V G Hc Wr. unfold step_kw, can_apply in H. rewrite V in H. cbn [bind] in H. unfold dmem in H. rewrite G in H.
    unfold apply, opnd, opnd_node in H. rewrite G in H. cbn [bind] in H. rewrite Hc in H. cbn [bind] in H.
    unfold plainly_wrong in Wr. destruct Wr as [U|[(-> & s & Z & N)|[(-> & l & c0 & s & Z & I & Lc & N)|[(-> & (b & Z) & N)|[(-> & (b & Z) & N)|[(-> & s & Z & N)|(-> & o & key & c1 & x1 & Z & Hk & G1 & L1 & N)]]]]]]; try (rewrite Z in H).
    - unfold as_num, as_str, as_arr, as_obj in H. destruct k, (nv_val w'); try discriminate U; discriminate H.
    - destruct (nv_ref w'); [discriminate|]. cbn [bind forallb] in H. destruct (str_mem s valid_types) eqn:M; [|discriminate]. apply N. apply str_mem_In. exact M.
    - destruct (nv_ref w'); [discriminate|]. cbn [bind] in H. destruct (forallb _ _) eqn:F; [|discriminate]. rewrite forallb_forall in F. specialize (F s). apply N. apply str_mem_In. apply F. apply in_map_iff. exists c0. split; [unfold item_str; rewrite Lc; reflexivity|exact I].
    - unfold dmem in H. rewrite N in H. discriminate.
    - unfold dmem in H. rewrite N in H. discriminate.
    - unfold as_str in H. rewrite Z in H. destruct (nv_ref w'); [discriminate|]. cbn [bind] in H. rewrite N in H. discriminate.
    - apply ok_bind in H as (? & _ & H). apply ok_bind in H as (mn & Hn & H). apply ok_bind in H as (mx & Hx & H).
      destruct Hk as [-> | ->]; [destruct (bound_fine _ _ _ _ _ Hn G1 L1) as [m M]|destruct (bound_fine _ _ _ _ _ Hx G1 L1) as [m M]]; exact (N m M).
  Qed.
  Lemma kws_wrong w voc : forall d, run_kws view strx E w voc d = Raise ESchemaParse ->
    exists v1 k v2 items c w', voc = v1 ++ k :: v2 /\ raising_keyword view strx E w voc d = Some k /\ nv_val w = NObj items /\ dget (kw_key k) items = Some c /\ view c = Ok w' /\ wrong k items w' /\
      forall k' c' x, In k' v1 -> dget (kw_key k') items = Some c' -> view c' = Ok x -> ~ plainly_wrong k' items x.
  Proof.
    induction voc as [|k voc IH]; intros d H; cbn [run_kws raising_keyword] in *; [discriminate|]. apply raise_bind in H as [H|(d' & Hd & H)].
    - destruct (step_wrong w k d H) as (items & c & w' & V & K1 & K2 & K3). exists [], k, voc, items, c, w'. rewrite H. repeat (split; [first [reflexivity|assumption]|]). intros ? ? ? [].
    - destruct (IH d' H) as (v1 & k1 & v2 & items & c & w' & -> & R & V & K1 & K2 & K3 & K4). exists (k :: v1), k1, v2, items, c, w'. rewrite Hd. repeat (split; [first [reflexivity|assumption]|]).
      intros k' c' x [<-|I] G Hc; [eapply step_fine; eassumption|eapply K4; eassumption].
  Qed.
  Lemma compile_wrong voc a : compile view strx E voc a = Raise ESchemaParse ->
    exists w, view a = Ok w /\ run_kws view strx E w voc [] = Raise ESchemaParse.
  Proof.
    unfold compile. intro H. apply raise_bind in H as [H|(w & Hw & H)]; [exfalso; eapply Hview, H|]. exists w. split; [exact Hw|]. destruct (nv_val w); try exact H. discriminate.
  Qed.
End Object.

(** ** Documents made of plain values have no references *)
Definition shown (p : payload) : option (nval addr) :=
  match p with PNull => Some NNull | PBool b => Some (NBool b) | PNum d => Some (NNum d) | PStr t => Some (NStr t) | PArr l => Some (NArr l) | PObj d => Some (NObj d) | PRef _ => None end.
Definition plain_node (m : node) : Prop := shown (n_val m) <> None.
Lemma wrap_plain v : forall base p key, Forall plain_node (wrap base p key v).
Proof.
  induction v as [v Hl Hd|l IH|d IH] using pv_ind_deep; intros base p key.
  - destruct v; try (exfalso; eapply Hl; reflexivity); try (exfalso; eapply Hd; reflexivity); cbn [wrap mk_number]; repeat constructor; discriminate.
  - rewrite wrap_list. constructor; [discriminate|]. generalize (S base), 0. induction IH as [|x l Hx _ IHl]; intros b i; [constructor|]. rewrite wrap_elems_cons. cbn [snd]. apply Forall_app. split; [apply Hx|apply IHl].
  - rewrite wrap_dict. constructor; [discriminate|]. generalize (S base). induction IH as [|[k x] d Hx _ IHd]; intro b; [constructor|]. rewrite wrap_items_cons. cbn [snd]. apply Forall_app. split; [apply Hx|apply IHd].
Qed.
Lemma hset_plain h a p : Forall plain_node h -> shown p <> None -> Forall plain_node (hset h a p).
Proof.
  intros F S. unfold hset. destruct (hget h a) as [m|]; [|exact F]. generalize (n_parent m), (n_key m). intros q k. revert a. induction F as [|x h Hx F IH]; intros [|a]; cbn [hput]; constructor; auto.
Qed.
Lemma history_plain es : Forall plain_edit es -> forall h, Forall plain_node h -> Forall plain_node (history h es).
Proof.
  induction 1 as [|e es He _ IH]; intros h F; [exact F|]. cbn [history fold_left]. apply IH. destruct e as [v|a k v|a k|a k x|a i]; cbn [plain_edit] in He; try contradiction; cbn [edited].
  - unfold new. cbn [snd]. apply Forall_app. split; [exact F|apply wrap_plain].
  - unfold obj_set. destruct (obj_items h a); cbn [bind]; try exact F. apply hset_plain; [|discriminate]. apply Forall_app. split; [exact F|apply wrap_plain].
  - unfold obj_del. destruct (obj_items h a); cbn [bind]; try exact F. destruct (dmem _ _); [|exact F]. apply hset_plain; [exact F|discriminate].
Qed.

(** ** A whole schema *)
Section Whole.
  Variables (auth : pystr -> option authority) (dig : N -> option Z) (strx : heap -> addr -> pystr) (fetch : uri -> res pv).
  Variables (w : world) (r : addr) (V : pv) (n : nat).
  Notation h := (w_heap w).
  Notation look := (see auth dig strx fetch (S n) w).

  Lemma look_val a p z : val h a p -> shown p = Some z -> look a = Ok (NView z false).
  Proof.
    intros (m & Hm & Em) S. unfold see. cbn [node_view]. unfold mbind. rewrite (node_at_ok _ _ _ Hm), Em. destruct p; try discriminate S; injection S as <-; reflexivity.
  Qed.
  Hypothesis Plain : Forall plain_node h.
  Lemma look_cases a : (exists z, look a = Ok (NView z false)) \/ look a = Raise EUnmodelled.
  Proof.
    destruct (hget h a) as [m|] eqn:G.
    - left. assert (P : plain_node m) by (rewrite Forall_forall in Plain; apply Plain; eapply nth_error_In, G). unfold plain_node in P. destruct (shown (n_val m)) as [z|] eqn:S; [|congruence]. exists z. eapply look_val; [eexists; split; [exact G|reflexivity]|exact S].
    - right. unfold see. cbn [node_view]. unfold mbind, node_at. rewrite G. reflexivity.
  Qed.
  Lemma look_quiet a : quiet (look a).
  Proof. destruct (look_cases a) as [[z ->]| ->]; discriminate. Qed.
  Lemma look_clean a : clean (look a).
  Proof. destruct (look_cases a) as [[z ->]| ->]; clean. Qed.

  (** a place of the document *)
  Definition place (a : addr) : Prop := exists p y, walk h r p a /\ at_path V p y /\ holds h a y /\ distinct y.
  Lemma at_snoc v p d k x : at_path v p (VDict d) -> dget k d = Some x -> at_path v (p ++ [k]) x.
  Proof. intros A G. remember (VDict d) as y eqn:Ey. induction A as [v|d' k' x' p v G' _ IH|l i x' p v G' _ IH]; subst; cbn [app]; [eapply ap_member; [exact G|constructor]|eapply ap_member; [exact G'|auto]|eapply ap_elem; [exact G'|auto]]. Qed.
  Lemma at_snoc_elem v p l i x : at_path v p (VList l) -> nth_error l i = Some x -> at_path v (p ++ [nat_str i]) x.
  Proof. intros A G. remember (VList l) as y eqn:Ey. induction A as [v|d' k' x' p v G' _ IH|l' i' x' p v G' _ IH]; subst; cbn [app]; [eapply ap_elem; [exact G|constructor]|eapply ap_member; [exact G'|auto]|eapply ap_elem; [exact G'|auto]]. Qed.
  Lemma holds_look a y : holds h a y -> exists z, look a = Ok (NView z false) /\
    match z, y with
    | NNull, VNone => True | NBool b, VBool b' => b = b' | NStr s, VStr s' => s = s'
    | NNum m, (VInt _ | VFloat _ | VDec _) => operand_of y = NNum m
    | NArr els, VList l => Forall2 (holds h) els l
    | NObj its, VDict d => val h a (PObj its) /\ Forall2 (fun ka kx => fst ka = fst kx /\ holds h (snd ka) (snd kx)) its d
    | _, _ => False
    end.
  Proof.
    intro H. inversion H as [? Hv|? b Hv|? s Hv|? z d Hv Ed|? f d Hv Ed|? e d Hv Ed|? l els Hv F|? d its Hv F]; subst; (eexists; split; [eapply look_val; [exact Hv|reflexivity]|]); try reflexivity; try exact I; try exact F. split; [exact Hv|exact F].
  Qed.
  Lemma dget_both its d k c : Forall2 (fun ka kx => fst ka = fst kx /\ holds h (snd ka) (snd kx)) its d -> dget k its = Some c -> exists x, dget k d = Some x /\ holds h c x.
  Proof. induction 1 as [|[k1 c1] [k2 x2] its d [Ek Hc] F IH]; cbn [dget fst snd] in *; [discriminate|]. subst k2. destruct (str_eqb k k1); [intros [= ->]; eauto|exact IH]. Qed.
  Lemma dget_none its d k : Forall2 (fun ka kx => fst ka = fst kx /\ holds h (snd ka) (snd kx)) its d -> dget k its = None -> dget k d = None.
  Proof. induction 1 as [|[k1 c1] [k2 x2] its d [Ek Hc] F IH]; cbn [dget fst snd] in *; [reflexivity|]. subst k2. destruct (str_eqb k k1); [discriminate|exact IH]. Qed.
  Lemma distinct_member d k x : distinct (VDict d) -> dget k d = Some x -> distinct x.
  Proof. intros D G. inversion D as [? _ C|?|? _ F]; subst; [exfalso; eapply C; reflexivity|]. rewrite Forall_forall in F. apply (F (k, x)), dget_In, G. Qed.
  Lemma place_member a x d k c : place a -> look a = Ok x -> nv_val x = NObj d -> In (k, c) d -> place c.
  Proof.
    intros (p & y & W & A & H & D) L N I. destruct (holds_look a y H) as (z & Hz & K). rewrite L in Hz. injection Hz as ->. cbn [nv_val] in N. subst z. destruct y as [| | | | | | |e]; try contradiction. destruct K as [Hv F].
    assert (Nd : NoDup (dkeys e)) by (inversion D as [? _ C|?|]; subst; [exfalso; eapply C; reflexivity|assumption]).
    assert (Ek : dkeys d = dkeys e) by (clear -F; unfold dkeys; induction F as [|? ? ? ? [E1 _] _ IH]; cbn [map]; [reflexivity|]; rewrite E1, IH; reflexivity).
    assert (G : dget k d = Some c) by (apply In_dget; [rewrite Ek; exact Nd|exact I]). destruct (dget_both _ _ _ _ F G) as (x & Gx & Hx).
    exists (p ++ [k]), x. split; [eapply walk_snoc; [exact W|eapply w_member; [exact Hv|exact G|constructor]]|]. split; [eapply at_snoc; eassumption|]. split; [exact Hx|]. eapply distinct_member; eassumption.
  Qed.
  Lemma place_elem a x l c : place a -> look a = Ok x -> nv_val x = NArr l -> In c l -> place c.
  Proof.
    intros (p & y & W & A & H & D) L N I. inversion H as [? Hv|? b Hv|? s Hv|? z d Hv Ed|? f d Hv Ed|? e d Hv Ed|? l0 els Hv F|? d its Hv F]; subst; rewrite (look_val _ _ _ Hv eq_refl) in L; injection L as <-; cbn [nv_val] in N; try discriminate N. injection N as ->.
    apply In_nth_error in I as [i I]. assert (K : exists x, nth_error l0 i = Some x /\ holds h c x) by (clear -F I; revert i I; induction F as [|c1 x1 l l0 H1 F IH]; intros [|i] I; try discriminate; cbn in *; [injection I as ->; eauto|apply IH, I]).
    destruct K as (x & Gx & Hx). exists (p ++ [nat_str i]), x. split; [eapply walk_snoc; [exact W|eapply w_elem; [exact Hv|exact I|constructor]]|]. split; [eapply at_snoc_elem; eassumption|]. split; [exact Hx|].
    inversion D as [? C _|? Fd|? _]; subst; [exfalso; eapply C; reflexivity|]. rewrite Forall_forall in Fd. apply Fd. eapply nth_error_In, Gx.
  Qed.

  (** what the keyword sees of its operand is the JSON value *)
  Lemma seen_kind k c x z : holds h c x -> look c = Ok (NView z false) -> unsupported k z = unsupported k (operand_of x).
  Proof. intros H L. destruct (holds_look c x H) as (z' & Hz & K). rewrite L in Hz. injection Hz as <-. destruct z, x; try contradiction; destruct k; reflexivity. Qed.
  Lemma seen_number c x z : holds h c x -> look c = Ok (NView z false) -> (exists m, z = NNum m) <-> is_number x.
  Proof. intros H L. destruct (holds_look c x H) as (z' & Hz & K). rewrite L in Hz. injection Hz as <-. unfold is_number. destruct z, x; try contradiction; split; intros [m Hm]; try discriminate Hm; eauto. Qed.
  Lemma look_flag a x : look a = Ok x -> nv_ref x = false.
  Proof. intro L. destruct (look_cases a) as [[z E]|E]; rewrite E in L; [injection L as <-; reflexivity|discriminate]. Qed.
  Lemma wrong_malformed E k items d c x : Forall2 (fun ka kx => fst ka = fst kx /\ holds h (snd ka) (snd kx)) items d ->
    dget (kw_key k) items = Some c -> look c = Ok x -> wrong look E k items x -> malformed E d k.
  Proof.
    intros F G L Wr. destruct (dget_both _ _ _ _ F G) as (y & Gy & Hy). pose proof (look_flag c x L) as Fl. destruct x as [z fl]. cbn [nv_ref nv_val] in *. subst fl. destruct (holds_look c y Hy) as (z' & Hz & K). rewrite L in Hz. injection Hz as <-. unfold wrong in Wr. cbn [nv_val] in Wr.
    destruct Wr as [U|[(-> & s & -> & N)|[(-> & l & c0 & -> & I & N)|[(-> & (b & ->) & N)|[(-> & (b & ->) & N)|[(-> & s & -> & N)|(-> & o & key & c1 & x1 & -> & Hk & G1 & L1 & N)]]]]]]; cbn [nv_val] in *.
    - eapply mf_kind; [exact Gy|]. rewrite <- (seen_kind k c y z Hy L). exact U.
    - destruct y; try contradiction. subst. eapply mf_name; [exact Gy|exact N].
    - destruct y as [| | | | | |l'|]; try contradiction. assert (J : exists y0, In y0 l' /\ holds h c0 y0) by (clear -K I; induction K as [|? ? ? ? H1 K IH]; [destruct I|destruct I as [->|I]; [eexists; split; [left; reflexivity|exact H1]|destruct (IH I) as (y0 & I0 & R); exists y0; split; [right; exact I0|exact R]]]).
      destruct J as (y0 & I0 & H0). eapply mf_names; [exact Gy|exact I0|]. intros s -> T. inversion H0 as [| |? ? Hv| | | | |]; subst. apply (N s T). eapply look_val; [exact Hv|reflexivity].
    - destruct y; try contradiction. eapply mf_maximum; [exact Gy|eapply dget_none; eassumption].
    - destruct y; try contradiction. eapply mf_minimum; [exact Gy|eapply dget_none; eassumption].
    - destruct y; try contradiction. subst. eapply mf_format; [exact Gy|exact N].
    - destruct y as [| | | | | | |o']; try contradiction. destruct (dget_both _ _ _ _ F G1) as (y1 & Gy1 & H1). eapply mf_contains; [exact Gy|exact Hk|exact Gy1|]. pose proof (look_flag c1 x1 L1) as Fl. destruct x1 as [z1 fl]. cbn [nv_ref nv_val] in *. subst fl.
      intro Nu. apply (seen_number c1 y1 z1 H1 L1) in Nu as [m ->]. eapply N. reflexivity.
  Qed.
  Lemma malformed_wrong E k items d : Forall2 (fun ka kx => fst ka = fst kx /\ holds h (snd ka) (snd kx)) items d -> malformed E d k ->
    (exists c x, dget (kw_key k) items = Some c /\ look c = Ok x /\ plainly_wrong look E k items x) \/ odd_types d k.
  Proof.
    intros F M. assert (Q : forall key y, dget key d = Some y -> exists c z, dget key items = Some c /\ holds h c y /\ look c = Ok (NView z false)).
    { intros key y G. pose proof (dget_forall2 (holds h) items d key F) as J. rewrite G in J. destruct J as (c & Gc & Hc). destruct (holds_look c y Hc) as (z & Hz & _). eauto. }
    assert (Q0 : forall key, dget key d = None -> dget key items = None).
    { intros key G. pose proof (dget_forall2 (holds h) items d key F) as J. rewrite G in J. exact J. }
    assert (P : forall y, (exists c z, dget (kw_key k) items = Some c /\ holds h c y /\ look c = Ok (NView z false)) -> (forall c z, holds h c y -> look c = Ok (NView z false) -> plainly_wrong look E k items (NView z false)) -> exists c x, dget (kw_key k) items = Some c /\ look c = Ok x /\ plainly_wrong look E k items x).
    { intros y (c & z & G & Hc & L) R. exists c, (NView z false). eauto. }
    destruct M as [k x G U|s G N|l y G I N|b G N|b G N|s G N|o key x G Hk G1 N].
    - left. eapply P; [apply (Q _ _ G)|]. intros c z Hc L. left. cbn [nv_val]. rewrite (seen_kind k c x z Hc L). exact U.
    - left. eapply P; [apply (Q _ _ G)|]. intros c z Hc L. inversion Hc; subst. right. left. split; [reflexivity|]. exists s. split; [|exact N]. cbn [nv_val]. erewrite look_val in L; [|eassumption|reflexivity]. injection L as <-. reflexivity.
    - destruct y as [| | | | |s| |]; try (right; split; [reflexivity|]; eexists; eexists; split; [exact G|]; split; [exact I|]; discriminate). left. eapply P; [apply (Q _ _ G)|]. intros c z Hc L. inversion Hc as [| | | | | |? ? els Hv Fl|]; subst. right. right. left. split; [reflexivity|].
      erewrite look_val in L; [|eassumption|reflexivity]. injection L as <-. assert (J : exists c0, In c0 els /\ holds h c0 (VStr s)) by (clear -Fl I; induction Fl as [|? ? ? ? H1 K IH]; [destruct I|destruct I as [<-|I]; [eexists; split; [left; reflexivity|exact H1]|destruct (IH I) as (y0 & I0 & R); exists y0; split; [right; exact I0|exact R]]]).
      destruct J as (c0 & I0 & H0). exists els, c0, s. split; [reflexivity|]. split; [exact I0|]. split; [inversion H0; subst; eapply look_val; [eassumption|reflexivity]|]. exact (N s eq_refl).
    - left. eapply P; [apply (Q _ _ G)|]. intros c z Hc L. inversion Hc; subst. erewrite look_val in L; [|eassumption|reflexivity]. injection L as <-. right. right. right. left. split; [reflexivity|]. split; [eexists; reflexivity|auto].
    - left. eapply P; [apply (Q _ _ G)|]. intros c z Hc L. inversion Hc; subst. erewrite look_val in L; [|eassumption|reflexivity]. injection L as <-. right. right. right. right. left. split; [reflexivity|]. split; [eexists; reflexivity|auto].
    - left. eapply P; [apply (Q _ _ G)|]. intros c z Hc L. inversion Hc; subst. erewrite look_val in L; [|eassumption|reflexivity]. injection L as <-. right. right. right. right. right. left. split; [reflexivity|]. eexists; split; [reflexivity|auto].
    - left. eapply P; [apply (Q _ _ G)|]. intros c z Hc L. inversion Hc; subst. erewrite look_val in L; [|eassumption|reflexivity]. injection L as <-. right. right. right. right. right. right. split; [reflexivity|].
      destruct (Q _ _ G1) as (c1 & z1 & Gc & H1 & L1). exists its, key, c1, (NView z1 false). split; [reflexivity|]. split; [exact Hk|]. split; [exact Gc|]. split; [exact L1|]. intros m E1. apply N. apply (seen_number c1 x z1 H1 L1). cbn [nv_val] in E1. eauto.
  Qed.
  Lemma text_said k items d p : Forall2 (fun ka kx => fst ka = fst kx /\ holds h (snd ka) (snd kx)) items d -> raised_text look k items p = said d k p.
  Proof.
    intro F. unfold raised_text, said. assert (Q : forall key, match dget key items with Some c => exists y z, dget key d = Some y /\ look c = Ok (NView z false) /\ match z, y with NStr s, VStr s' => s = s' | NStr _, _ | _, VStr _ => False | NObj _, VDict _ => True | NObj _, _ | _, VDict _ => False | NNum m, _ => operand_of y = NNum m | _, _ => match operand_of y with NNum _ => False | _ => True end end | None => dget key d = None end).
    { intro key. destruct (dget key items) as [c|] eqn:G; [|eapply dget_none; eassumption]. destruct (dget_both _ _ _ _ F G) as (y & Gy & Hy). destruct (holds_look c y Hy) as (z & Hz & K). exists y, z. split; [exact Gy|]. split; [exact Hz|]. destruct z, y; try contradiction; try exact I; try exact K; try reflexivity. }
    destruct k; try reflexivity.
    - pose proof (Q (kw_key KwContains)) as Q1. pose proof (Q (u "minContains")) as Q2. unfold not_number, opnd. destruct (dget (kw_key KwContains) items) as [c|]; [|rewrite Q1; reflexivity]. destruct Q1 as (y & z & -> & -> & K). 
      destruct z, y; try contradiction; try reflexivity. destruct (dget (u "minContains") items) as [c1|]; [|rewrite Q2; reflexivity]. destruct Q2 as (y1 & z1 & -> & -> & K1). unfold not_a_number. destruct z1, y1; try contradiction; try reflexivity; discriminate K1.
    - pose proof (Q (kw_key KwFormat)) as Q1. unfold opnd. destruct (dget (kw_key KwFormat) items) as [c|]; [|rewrite Q1; reflexivity]. destruct Q1 as (y & z & -> & -> & K). destruct z, y; try contradiction; subst; reflexivity.
  Qed.
End Whole.

(** ** C120 *)
(** Any history of new documents, assignments and deletions; the document with the
    root [r] then reads as the JSON value [V].  The validation tells a place exactly
    when [validate] raises SchemaParseError, and otherwise they agree. *)
Section Report.
  Variables (auth : pystr -> option authority) (dig : N -> option Z) (strx : heap -> addr -> pystr) (fetch : uri -> res pv).
  Variables (es : list edit) (w : world) (r : addr) (V : pv) (E : env) (voc : list akw).
  Notation h := (w_heap w).
  Hypothesis Edits : Forall plain_edit es.
  Hypothesis Heap : h = history [] es.
  Hypothesis Root : is_root h r = true.
  Hypothesis Holds : holds h r V.
  Hypothesis Names : distinct V.
  Hypothesis Tame : tame E.
  Hypothesis Calm : calm E.
  Notation look n := (see auth dig strx fetch (S n) w).
  Notation outcome n fuel v := (schema_validate (look n) (strx h) E voc fuel r v).
  Notation error n fuel v := (validate_error (look n) (strx h) E h voc fuel r v).

  Lemma plain_heap : Forall plain_node h.
  Proof. rewrite Heap. apply history_plain; [exact Edits|constructor]. Qed.
  Lemma blamed_error n fuel v s : schema_validate_at (look n) (strx h) E voc fuel r v = Raise (ENeeds s) ->
    exists p d v1 k v2, error_for (look n) (strx h) E h voc s = Ok (ParseError (said d k p) p) /\ at_path V p (VDict d) /\ voc = v1 ++ k :: v2 /\ malformed E d k /\
      forall k', In k' v1 -> malformed E d k' -> odd_types d k'.
  Proof.
    intro H. pose proof plain_heap as Pl.
    destruct (schema_blames (look n) (strx h) E voc Tame (look_clean auth dig strx fetch w n Pl) (place w r V) (place_member auth dig strx fetch w r V n) (place_elem auth dig strx fetch w r V n) fuel r v s) as [(p & y & W & A & Hs & D) C]; [exists [], V; repeat split; [constructor|constructor|assumption|assumption]|exact H|].
    destruct (compile_wrong (look n) (strx h) E (look_quiet auth dig strx fetch w n Pl) voc s C) as (x & L & R).
    destruct (kws_wrong (look n) (strx h) E (look_quiet auth dig strx fetch w n Pl) x voc [] R) as (v1 & k & v2 & items & c & x' & Ev & Rk & Nv & G & Lc & Wr & Be).
    destruct (holds_look auth dig strx fetch w n s y Hs) as (z & Hz & K). rewrite L in Hz. injection Hz as ->. cbn [nv_val] in Nv. subst z. destruct y as [| | | | | | |d]; try contradiction. destruct K as [Hv F].
    exists p, d, v1, k, v2. split; [|split; [exact A|split; [exact Ev|split; [eapply wrong_malformed; eassumption|]]]].
    - unfold error_for. assert (P : node_path h s = Ok p) by (rewrite Heap in *; apply (proj1 (C40_places es r p s Edits Root W))). rewrite P, L. cbn [bind nv_val]. rewrite Rk. f_equal. f_equal. eapply text_said; eassumption.
    - intros k' I M. destruct (malformed_wrong auth dig strx fetch w n E k' items d F M) as [(c' & x0 & Gc & Lc' & Wr')|O]; [exfalso; exact (Be k' c' x0 I Gc Lc' Wr')|exact O].
  Qed.
  Theorem C120_report_partial n fuel v :
    match error n fuel v with
    | Ok (Some e) => outcome n fuel v = Raise ESchemaParse /\
        exists d before k after, at_path V (pe_path e) (VDict d) /\ voc = before ++ k :: after /\ malformed E d k /\ pe_text e = said d k (pe_path e) /\
          forall k', In k' before -> malformed E d k' -> odd_types d k'
    | Ok None => outcome n fuel v <> Raise ESchemaParse /\ outcome n fuel v <> OutOfFuel
    | OutOfFuel => outcome n fuel v = OutOfFuel
    | Raise _ => False
    end.
  Proof.
    pose proof plain_heap as Pl. unfold validate_error. pose proof (schema_tells (look n) (strx h) E (look_quiet auth dig strx fetch w n Pl) Calm voc fuel r v) as T.
    destruct (schema_validate_at _ _ _ _ _ _ _) as [a|e|] eqn:Ea.
    - destruct T as [[<- Q]|(s & C & _)]; [split; discriminate|discriminate C].
    - destruct e; try (destruct T as [[<- Q]|(s & C & _)]; [split; [exact Q|discriminate]|discriminate C]).
      destruct (blamed_error n fuel v a Ea) as (p & d & v1 & k & v2 & -> & K1 & K2 & K3 & K4). cbn [bind pe_path pe_text]. split.
      + destruct T as [[T Q]|(s & _ & T)]; [|exact T]. exfalso.
        refine (schema_clean (look n) (strx h) E voc Tame (look_clean auth dig strx fetch w n Pl) (place w r V) (place_member auth dig strx fetch w r V n) (place_elem auth dig strx fetch w r V n) fuel r v _ (ENeeds a) (eq_sym T) a eq_refl).
        exists [], V. repeat split; [constructor|constructor|assumption|assumption].
      + exists d, v1, k, v2. auto.
    - destruct T as [[<- Q]|(s & C & _)]; [reflexivity|discriminate C].
  Qed.
End Report.

(** ** What does not hold *)
Local Open Scope string_scope.
Definition error_of (V v : pv) : res (option parse_error) :=
  snd (document_error toy ex_dig (fun _ _ => []) (fun _ => Raise EFileNotFound) ex_env all_keywords 20 20 0 v (doc_world V)).
Definition two_level (name : string) (x : pv) : pv := jdict [("properties", jdict [("a", jdict [(name, x)])])].
Definition some_value : pv := jdict [("a", VInt 1)].
(** The text does not name the keyword, the kind found or the kind expected: for two
    schemas that are malformed in different ways the errors are equal *)
Theorem C120_refuted : exists k1 x1 k2 x2 e,
  k1 <> k2 /\ malformed ex_env [(u k1, x1)] KwMinLength /\ malformed ex_env [(u k2, x2)] KwAllOf /\
  error_of (two_level k1 x1) some_value = Ok (Some e) /\ error_of (two_level k2 x2) some_value = Ok (Some e) /\
  pe_path e = [u "properties"; u "a"] /\ str_in (u k1) (pe_text e) = false /\ str_in (u k2) (pe_text e) = false.
Proof.
  exists "minLength", (VStr (u "3")), "allOf", (VInt 5), (ParseError (u "Parsing failed at `/properties/a`. Passed document is not a valid json schema object. ") [u "properties"; u "a"]).
  split; [discriminate|]. split; [eapply mf_kind; reflexivity|]. split; [eapply mf_kind; reflexivity|]. repeat split; vm_compute; reflexivity.
Qed.
(** Through a reference the error tells the place of the reference, an object with no
    malformed keyword, not the place of the schema that is malformed *)
Definition referring : pv := jdict [("properties", jdict [("a", ref_to "#/d")]); ("d", jdict [("minLength", VStr (u "3"))])].
Theorem C120_reference_refuted : exists V v e p d p' d',
  error_of V v = Ok (Some e) /\ pe_path e = p /\ at_path V p (VDict d) /\ (forall k, ~ malformed ex_env d k) /\
  at_path V p' (VDict d') /\ malformed ex_env d' KwMinLength /\ str_in (pointer_str p') (pe_text e) = false.
Proof.
  exists referring, some_value, (ParseError (u "Parsing failed at `/properties/a`. Passed document is not a valid json schema object. ") [u "properties"; u "a"]), [u "properties"; u "a"], [(u "$ref", VStr (u "#/d"))], [u "d"], [(u "minLength", VStr (u "3"))].
  split; [vm_compute; reflexivity|]. split; [reflexivity|]. split; [eapply ap_member; [reflexivity|]; eapply ap_member; [reflexivity|constructor]|].
  split; [intros k M; inversion M as [? ? G|? G|? ? G|? G|? G|? G|? ? ? G]; subst; try discriminate G; destruct k; discriminate G|].
  split; [eapply ap_member; [reflexivity|constructor]|]. split; [eapply mf_kind; reflexivity|vm_compute; reflexivity].
Qed.

(** a document that was edited, with a malformed schema three levels down *)
Definition C120_edits : list edit := [ENew (two_level "minLength" (VInt 2)); ESet 2 (u "maxLength") (VStr (u "4"))].
Definition C120_document : pv := jdict [("properties", jdict [("a", jdict [("minLength", VInt 2); ("maxLength", VStr (u "4"))])])].
Definition C120_world : world := World (history [] C120_edits) [] [].
Lemma C120_tame : tame ex_env.
Proof.
  constructor; [intros name f v H e E; cbn in H; destruct (str_eqb _ _) in H; [injection H as <-; destruct v; try discriminate; injection E as <-; intros a C; discriminate|discriminate]|intros t e [= <-] a C; discriminate].
Qed.
Lemma C120_calm : calm ex_env.
Proof.
  constructor; [intros name f v H; cbn in H; destruct (str_eqb _ _) in H; [injection H as <-; destruct v; discriminate|discriminate]|intros t; discriminate].
Qed.
Example C120_some : Forall plain_edit C120_edits /\ is_root (w_heap C120_world) 0 = true /\ holds (w_heap C120_world) 0 C120_document /\ distinct C120_document /\ tame ex_env /\ calm ex_env /\
  let look := see toy ex_dig (fun _ _ => []) (fun _ => Raise EFileNotFound) 5 C120_world in
  validate_error look (fun _ => []) ex_env (w_heap C120_world) all_keywords 5 0 some_value =
    Ok (Some (ParseError (u "Parsing failed at `/properties/a`. Passed document is not a valid json schema object. ") [u "properties"; u "a"])) /\
  validate_error look (fun _ => []) ex_env (w_heap C120_world) all_keywords 5 0 (VInt 3) = Ok None /\
  error_of (two_level "format" (VStr (u "odd"))) some_value = Ok (Some (ParseError (u "Parsing failed at `/properties/a`. Unrecognized format type `odd`.Please use _StringFormat to register your custom format type.") [u "properties"; u "a"])).
Proof.
  split; [repeat constructor|]. split; [reflexivity|]. split.
  { repeat first [eapply h_dict; [eexists; split; reflexivity|]|eapply h_str; eexists; split; reflexivity|eapply h_int; [eexists; split; reflexivity|reflexivity]|apply Forall2_cons; [split; [reflexivity|]|]|apply Forall2_nil]. }
  split; [apply distinctb_ok; vm_compute; reflexivity|]. split; [exact C120_tame|]. split; [exact C120_calm|]. repeat split; vm_compute; reflexivity.
Qed.
