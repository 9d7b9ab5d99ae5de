(** C86: indexing a reference to an array. *)
From Verif Require Import PyBase PyBaseFacts PyVal OrderFacts Regex Numbers Uri Pointer PropsPointer Store Validators Heap HeapFacts PropsNumber PropsWrap PropsPlaces PropsUriEx Doc DocMono DocFacts PropsQuery DocLoad PropsLoad DocDocument PropsAnchor PropsRef PropsRefEdge.
Local Open Scope nat_scope.
Local Notation length := List.length (only parsing).

Section RefArray.
  Variables (auth : pystr -> option authority) (dig : N -> option Z) (strx : heap -> addr -> pystr) (fetch : uri -> res pv).
  Notation Runs := (Runs auth dig strx fetch).
  Notation ev := (ev auth dig strx fetch).
  Lemma eq_verdict w a v k : holds (w_heap w) a v -> exists r, Runs (CEq a k) w w r /\ verdict v (plain_key k) r.
  Proof.
    intro H. exists (eq_node (hview (w_heap w)) (plain_key k) a). split; [|apply compare_verdict, H].
    destruct H as [a V|a b V|a s V|a y d V E|a f d V E|a e d V E|a l els V F|a d its V F]; pose proof V as (n & Hn & En);
      (apply ev_step; cbn [Doc.step]; unfold node_eq; eapply ev_known; [apply node_at_ok, Hn|]; rewrite En; apply ev_pure; intro rec);
      apply view_val in V; unfold ret, lift, raise; f_equal; symmetry; (destruct k; cbn [eq_node plain_key]; rewrite V; reflexivity).
  Qed.
  (** not equal to [z], and comparing does not fail *)
  Definition differs (z : Z) (v : pv) : Prop := ~ same_json v (VInt z) /\ ~ clash v (VInt z).
  Lemma any_differs w z vs els : Forall2 (holds (w_heap w)) els vs -> Forall (differs z) vs -> forall more r, ev (fun rec => any_eq rec more (KI z)) w w r -> ev (fun rec => any_eq rec (els ++ more) (KI z)) w w r.
  Proof.
    induction 1 as [|x v els vs Hx _ IH]; intros F more r R; [exact R|]. inversion F as [|? ? [D1 D2] F']; subst. cbn [app any_eq].
    destruct (eq_verdict w x v (KI z) Hx) as (o & Ro & Vo). assert (o = Ok false) as -> by (destruct Vo as [(_ & C & _)|[(E & _)|(_ & C & _)]]; [contradiction|exact E|contradiction]).
    eapply ev_bind; [exact Ro|]. exact (IH F' more r R).
  Qed.
  Variables (w : world) (a : addr) (rf : refdata) (x : schema) (f : addr) (vs : list pv).
  (** a reference of a loaded document, whose target is an array *)
  Definition array_reference : Prop :=
    val (w_heap w) a (PRef rf) /\ nth_error (w_schemas w) (r_schema rf) = Some x /\ s_ready x = true /\ Runs (CQuery (r_schema rf) (r_pointer rf)) w w (Ok f) /\ holds (w_heap w) f (VList vs).
  Hypothesis Ref : array_reference.
  Lemma array_raw : Runs (CRaw a) w w (Ok (RNode f)).
  Proof.
    destruct Ref as ((n & Hn & En) & Hx & Rx & Q & H). apply ev_step. cbn [Doc.step]. unfold ref_raw. eapply ev_known; [apply node_at_ok, Hn|]. rewrite En. eapply ev_known; [apply schema_at_ok, Hx|]. rewrite Rx.
    eapply ev_bind; [exact Q|]. inversion H as [| | | | | |? ? els V F|]; subst. destruct V as (m & Hm & Em). eapply ev_bind with (a := JArr); [apply ev_step; cbn [Doc.step]; unfold node_type; eapply ev_known; [apply node_at_ok, Hm|]; rewrite Em; apply ev_ret|]. apply ev_ret.
  Qed.
  Lemma array_has z r els : val (w_heap w) f (PArr els) -> ev (fun rec => any_eq rec els (KI z)) w w r -> Runs (CHas f (KI z)) w w r.
  Proof. intros (m & Hm & Em) R. apply ev_step. cbn [Doc.step]. unfold node_has. eapply ev_known; [apply node_at_ok, Hm|]. rewrite Em. exact R. Qed.
  Lemma array_get z r : Runs (CHas f (KI z)) w w r -> r = Ok false -> Runs (CGet a (KI z)) w w (Raise (EKey [])).
  Proof.
    intros R ->. destruct Ref as ((n & Hn & En) & _). apply ev_step. cbn [Doc.step]. unfold node_get. eapply ev_known; [apply node_at_ok, Hn|]. rewrite En. eapply ev_bind; [exact array_raw|]. eapply ev_bind; [exact R|]. apply ev_pure. intro. reflexivity.
  Qed.
  (** ** C86 *)
  (** No element equals the index: KeyError.  An element that cannot be compared comes
      before one that equals it: TypeError.  Else the element at that index. *)
  Theorem C86_exact z :
    (Forall (differs z) vs -> Runs (CGet a (KI z)) w w (Raise (EKey []))) /\
    (forall l1 v l2, vs = l1 ++ v :: l2 -> Forall (differs z) l1 -> clash v (VInt z) -> Runs (CGet a (KI z)) w w (Raise EType)) /\
    (forall l1 v l2, vs = l1 ++ v :: l2 -> Forall (differs z) l1 -> same_json v (VInt z) -> ~ clash v (VInt z) ->
      exists r, Runs (CGet a (KI z)) w w r /\ Runs (CGet f (KI z)) w w r /\
        (forall i y, z = Z.of_nat i -> nth_error vs i = Some y -> exists c, r = Ok c /\ holds (w_heap w) c y)).
  Proof.
    pose proof Ref as ((n & Hn & En) & _ & _ & _ & H). inversion H as [| | | | | |? ? els V F|]; subst.
    assert (Split : forall l1 v l2, vs = l1 ++ v :: l2 -> exists e1 c e2, els = e1 ++ c :: e2 /\ Forall2 (holds (w_heap w)) e1 l1 /\ holds (w_heap w) c v).
    { intros l1 v l2 ->. apply Forall2_app_inv_r in F as (e1 & e2 & F1 & F2 & ->). inversion F2 as [|c ? e3 ? Hc F3]; subst. eauto 8. }
    split; [|split].
    - intro D. apply (array_get z (Ok false)); [|reflexivity]. apply (array_has z _ els V). rewrite <- (app_nil_r els). apply (any_differs w z vs els F D). apply ev_ret.
    - intros l1 v l2 E D C. destruct (Split l1 v l2 E) as (e1 & c & e2 & -> & F1 & Hc). apply ev_step. cbn [Doc.step]. unfold node_get. eapply ev_known; [apply node_at_ok, Hn|]. rewrite En. eapply ev_bind; [exact array_raw|].
      eapply ev_bind_raise. apply (array_has z _ _ V). apply (any_differs w z l1 e1 F1 D). cbn [any_eq]. destruct (eq_verdict w c v (KI z) Hc) as (o & Ro & Vo).
      assert (o = Raise EType) as -> by (destruct Vo as [(_ & _ & C')|[(_ & _ & C')|(E' & _)]]; [contradiction|contradiction|exact E']). eapply ev_bind_raise. exact Ro.
    - intros l1 v l2 E D S NC. destruct (Split l1 v l2 E) as (e1 & c & e2 & Es & F1 & Hc). exists (index els z).
      assert (G : Runs (CGet f (KI z)) w w (index els z)). { destruct V as (m & Hm & Em). apply ev_step. cbn [Doc.step]. unfold node_get. eapply ev_known; [apply node_at_ok, Hm|]. rewrite Em. apply ev_pure. intro. reflexivity. }
      split; [|split; [exact G|]].
      + apply ev_step. cbn [Doc.step]. unfold node_get. eapply ev_known; [apply node_at_ok, Hn|]. rewrite En. eapply ev_bind; [exact array_raw|].
        eapply ev_bind with (a := true); [|exact G]. apply (array_has z _ _ V). rewrite Es. apply (any_differs w z l1 e1 F1 D). cbn [any_eq]. destruct (eq_verdict w c v (KI z) Hc) as (o & Ro & Vo).
        assert (o = Ok true) as -> by (destruct Vo as [(E' & _)|[(_ & C' & _)|(_ & C' & _)]]; [exact E'|contradiction|contradiction]). eapply ev_bind; [exact Ro|]. apply ev_ret.
      + intros i y -> Hy. unfold index. cbv zeta. destruct (Z.ltb_spec (Z.of_nat i) 0); [lia|]. cbv iota. destruct (Z.ltb_spec (Z.of_nat i) 0); [lia|]. rewrite Nat2Z.id.
        assert (Q : forall es l j, Forall2 (holds (w_heap w)) es l -> nth_error l j = Some y -> exists c, nth_error es j = Some c /\ holds (w_heap w) c y).
        { clear. intros es l j F. revert j. induction F as [|e v es l He F IH]; intros [|j] Hj; cbn in *; try discriminate; [injection Hj as <-; eauto|exact (IH j Hj)]. }
        destruct (Q els vs i F Hy) as (c' & Hc' & Hh). rewrite Hc'. eauto.
  Qed.
End RefArray.

(** The first element of an array of texts: found directly, not by way of a reference. *)
Definition C86_value : pv := VDict [(u "a", VList [VStr (u "x"); VStr (u "y")]); (u "r", VDict [(u "$ref", VStr (u "#/a"))])].
Theorem C86_refuted strx fetch : exists w0 w1 w2 c, opened (World [] [] []) C86_value 0 w0 /\ Runs toy ex_dig strx fetch (CQuery 0 [u "a"; u "0"]) w0 w1 (Ok c) /\ holds (w_heap w1) c (VStr (u "x")) /\
  Runs toy ex_dig strx fetch (CQuery 0 [u "r"; u "0"]) w0 w2 (Raise (EKey [])).
Proof.
  do 4 eexists. split; [vm_compute; reflexivity|]. split; [apply (Runs_once _ _ _ _ _ _ _ _ 8); [vm_compute; reflexivity|discriminate]|]. split; [apply h_str; eexists; split; reflexivity|].
  apply (Runs_once _ _ _ _ _ _ _ _ 8); [vm_compute; reflexivity|discriminate].
Qed.
(** the cases of [C86_exact] *)
Example C86_some strx fetch : exists w a rf x f, array_reference toy ex_dig strx fetch w a rf x f [VStr (u "x"); VInt 1; VBool true] /\
  differs 1 (VStr (u "x")) /\ same_json (VInt 1) (VInt 1) /\ ~ clash (VInt 1) (VInt 1) /\ clash (VBool true) (VInt 2).
Proof.
  set (V := VDict [(u "a", VList [VStr (u "x"); VInt 1; VBool true]); (u "r", VDict [(u "$ref", VStr (u "#/a"))])]).
  set (w0 := fst (make_schema V core (World [] [] []))). vm_compute in w0. set (w1 := fst (load (exec toy ex_dig strx fetch 8) 0 w0)). vm_compute in w1.
  exists w1, 7. do 3 eexists. split; [|split; [|split; [|split]]].
  - split; [eexists; split; reflexivity|]. split; [reflexivity|]. split; [reflexivity|]. split; [apply (Runs_once _ _ _ _ _ _ _ _ 8); [vm_compute; reflexivity|discriminate]|].
    eapply h_list; [eexists; split; reflexivity|]. constructor; [apply h_str; eexists; split; reflexivity|]. constructor; [eapply h_int; [eexists; split; reflexivity|reflexivity]|]. constructor; [apply h_bool; eexists; split; reflexivity|constructor].
  - split; intro C; inversion C; subst; contradiction.
  - eapply s_num; [exact I|constructor|constructor|reflexivity].
  - intro C. inversion C as [? ? _ K| | |]; subst. eapply K. constructor.
  - apply c_bool. discriminate.
Qed.
