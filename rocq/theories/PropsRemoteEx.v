(** C78-C80, C82, C85 on concrete documents: the cases of the theorems, and the claims that fail. *)
From Verif Require Import PyBase PyBaseFacts PyVal OrderFacts Regex Numbers Uri Pointer PropsPointer Store Validators Heap HeapFacts PropsWrap PropsPlaces PropsUriEx Doc DocMono DocFacts PropsQuery DocLoad PropsLoad DocDocument PropsAnchor PropsRef PropsRefEdge DocLibrary DocReading PropsRemote.
Local Open Scope nat_scope.
Local Notation length := List.length (only parsing).

(** A loader for documents by the text of their base URI *)
Definition shelf (l : list (pystr * pv)) (k : pystr) : option pv := dget k l.
Definition from (l : list (pystr * pv)) (v : uri) : res pv :=
  match key_of toy v with Ok k => match dget k l with Some x => Ok x | None => Raise EFileNotFound end | Raise e => Raise e | OutOfFuel => OutOfFuel end.

(** ** Two documents that refer to each other, and a third *)
Definition ex_a : pv := VDict [
  (u "$id", VStr (u "http://h/a.json"));
  (u "defs", VDict [(u "x", VDict [(u "type", VStr (u "string")); (u "back", VDict [(u "$ref", VStr (u "http://h/b.json#/y"))])])])].
Definition ex_b : pv := VDict [
  (u "y", VDict [(u "minimum", VInt 3)]);
  (u "z", VDict [(u "$ref", VStr (u "http://h/a.json#/defs/x")); (u "title", VStr (u "t"))])].
Definition ex_m : pv := VDict [(u "m", VDict [(u "$ref", VStr (u "http://h/a.json#/defs/x")); (u "title", VStr (u "m"))])].
Definition ex_shelf : list (pystr * pv) := [(u "http://h/a.json", ex_a); (u "http://h/b.json", ex_b)].
Definition start_world : world := World [] [] [].

Lemma ex_remote_a : exists v, remote toy (u "http://h/a.json#/defs/x") v (u "http://h/a.json") [u "defs"; u "x"].
Proof. eexists. split; [vm_compute; reflexivity|]. split; [vm_compute; reflexivity|]. split; [eexists; split; [vm_compute; reflexivity|reflexivity]|vm_compute; reflexivity]. Qed.
Lemma ex_remote_b : exists v, remote toy (u "http://h/b.json#/y") v (u "http://h/b.json") [u "y"].
Proof. eexists. split; [vm_compute; reflexivity|]. split; [vm_compute; reflexivity|]. split; [eexists; split; [vm_compute; reflexivity|reflexivity]|vm_compute; reflexivity]. Qed.
Lemma ex_no_anchor_a : forall q k, ~ declares ex_a q k.
Proof. apply no_anchor. reflexivity. Qed.
Lemma ex_no_anchor_b : forall q k, ~ declares ex_b q k.
Proof. apply no_anchor. reflexivity. Qed.
Lemma ex_place_a : exists e, place ex_a [u "defs"; u "x"] (false, VDict e) /\ plain_object (false, VDict e).
Proof.
  eexists. split; [left; split; [discriminate|split; [discriminate|]]; do 2 (eapply pl_member; [right; split; [reflexivity|discriminate]|reflexivity|]); apply pl_here|].
  do 2 eexists. split; [reflexivity|]. split; [reflexivity|]. split; [discriminate|reflexivity].
Qed.
Lemma ex_place_b : exists e, place ex_b [u "y"] (false, VDict e) /\ plain_object (false, VDict e).
Proof.
  eexists. split; [left; split; [discriminate|split; [intros; apply ex_no_anchor_b|]]; eapply pl_member; [right; split; [reflexivity|discriminate]|reflexivity|apply pl_here]|].
  do 2 eexists. split; [reflexivity|]. split; [reflexivity|]. split; [discriminate|reflexivity].
Qed.
Lemma ex_ref_a V top d : dget (u "$ref") d = Some (VStr (u "http://h/a.json#/defs/x")) -> dget (u "$anchor") d = None -> id_member d = None -> sound_object toy (shelf ex_shelf) V top d.
Proof.
  intros E1 E2 E3. left. destruct ex_remote_a as [v Rv]. destruct ex_place_a as (e & Pe & Ne). do 3 eexists. split; [exact E1|]. split; [exact E2|]. split; [exact E3|]. right. do 3 eexists. split; [exact Rv|]. split; [reflexivity|]. split; [exact Pe|exact Ne].
Qed.
Lemma ex_ref_b V top d : dget (u "$ref") d = Some (VStr (u "http://h/b.json#/y")) -> dget (u "$anchor") d = None -> id_member d = None -> sound_object toy (shelf ex_shelf) V top d.
Proof.
  intros E1 E2 E3. left. destruct ex_remote_b as [v Rv]. destruct ex_place_b as (e & Pe & Ne). do 3 eexists. split; [exact E1|]. split; [exact E2|]. split; [exact E3|]. right. do 3 eexists. split; [exact Rv|]. split; [reflexivity|]. split; [exact Pe|exact Ne].
Qed.
Lemma ex_plain V top d : dget (u "$ref") d = None -> dget (u "$anchor") d = None -> id_member d = None -> sound_object toy (shelf ex_shelf) V top d.
Proof. intros E1 E2 E3. right. split; [exact E1|]. split; [left; exact E2|left; exact E3]. Qed.
Ltac sounds := repeat first
  [ apply so_leaf; discriminate
  | apply so_dict; [first [apply ex_plain; reflexivity|apply ex_ref_a; reflexivity|apply ex_ref_b; reflexivity]|]
  | apply Forall_nil | apply Forall_cons; [cbn [snd]|] ].
Lemma ex_sound_a : sound_document toy (shelf ex_shelf) ex_a.
Proof.
  split; [eexists; reflexivity|]. split; [apply distinctb_ok; vm_compute; reflexivity|]. apply so_dict; [|sounds].
  right. split; [reflexivity|]. split; [left; reflexivity|]. right. split; [reflexivity|]. do 3 eexists. split; [reflexivity|]. split; [vm_compute; reflexivity|]. split; [reflexivity|]. split; [vm_compute; reflexivity|]. split; [vm_compute; reflexivity|]. right. reflexivity.
Qed.
Lemma ex_sound_b : sound_document toy (shelf ex_shelf) ex_b.
Proof. split; [eexists; reflexivity|]. split; [apply distinctb_ok; vm_compute; reflexivity|]. sounds. Qed.
Lemma ex_sound_m : sound_document toy (shelf ex_shelf) ex_m.
Proof. split; [eexists; reflexivity|]. split; [apply distinctb_ok; vm_compute; reflexivity|]. sounds. Qed.

Lemma ex_library : library toy (from ex_shelf) (shelf ex_shelf) start_world.
Proof.
  constructor.
  - intros k V H. unfold shelf, ex_shelf in H. cbn [dget] in H. destruct (str_eqb _ _) in H; [injection H as <-; exact ex_sound_a|]. destruct (str_eqb _ _) in H; [injection H as <-; exact ex_sound_b|discriminate].
  - intros t v k p V (_ & _ & _ & K) L. unfold from. rewrite K. unfold shelf in L. rewrite L. reflexivity.
  - reflexivity.
Qed.
Lemma ex_means_y : means toy ex_dig (shelf ex_shelf) (ex_b, (false, VDict [(u "minimum", VInt 3)])) (VMembers (below_it ex_b false [(u "minimum", VInt 3)])).
Proof. apply (mn_obj toy ex_dig (shelf ex_shelf) ex_b [(u "minimum", VInt 3)]). reflexivity. Qed.
Lemma ex_leads_y : leads toy ex_dig (shelf ex_shelf) ex_b [u "y"] (ex_b, (false, VDict [(u "minimum", VInt 3)])).
Proof. apply ld_steps; [discriminate|intros; apply ex_no_anchor_b|]. eapply ps_member; [apply mn_obj; reflexivity|reflexivity|]. apply ps_here. Qed.
Definition ex_x : list (pystr * pv) := [(u "type", VStr (u "string")); (u "back", VDict [(u "$ref", VStr (u "http://h/b.json#/y"))])].
Lemma ex_leads_x : leads toy ex_dig (shelf ex_shelf) ex_a [u "defs"; u "x"] (ex_a, (false, VDict ex_x)).
Proof. apply ld_steps; [discriminate|discriminate|]. do 2 (eapply ps_member; [apply mn_obj; reflexivity|reflexivity|]). apply ps_here. Qed.
Lemma ex_names_a V : names toy (shelf ex_shelf) V (u "http://h/a.json#/defs/x") ex_a [u "defs"; u "x"].
Proof. right. destruct ex_remote_a as [v H]. exists v. eexists. split; [exact H|reflexivity]. Qed.
Lemma ex_names_b V : names toy (shelf ex_shelf) V (u "http://h/b.json#/y") ex_b [u "y"].
Proof. right. destruct ex_remote_b as [v H]. exists v. eexists. split; [exact H|reflexivity]. Qed.
Lemma ex_leads_m : leads toy ex_dig (shelf ex_shelf) ex_m [u "m"; u "back"; u "minimum"] (ex_b, (false, VInt 3)).
Proof.
  apply ld_steps; [discriminate|discriminate|]. eapply ps_member; [apply mn_obj; reflexivity|reflexivity|].
  eapply ps_member; [eapply mn_ref_obj; [reflexivity|apply ex_names_a|exact ex_leads_x|apply mn_obj; reflexivity]|reflexivity|].
  eapply ps_member; [eapply mn_ref_obj; [reflexivity|apply ex_names_b|exact ex_leads_y|exact ex_means_y]|reflexivity|]. apply ps_here.
Qed.
(** a history: open the third document, load it, look at a place that is not there *)
Example C79_some strx : library toy (from ex_shelf) (shelf ex_shelf) start_world /\ digits_ok ex_dig /\
  (exists d, history toy ex_dig strx (from ex_shelf) (sound_document toy (shelf ex_shelf)) (Desk start_world [] []) d /\ In (0, ex_m) (d_docs d) /\ is_ready (d_world d) 0 /\ length (w_schemas (d_world d)) = 2) /\
  leads toy ex_dig (shelf ex_shelf) ex_m [u "m"; u "back"; u "minimum"] (ex_b, (false, VInt 3)).
Proof.
  split; [exact ex_library|]. split; [exact ex_dig_ok|]. split; [|exact ex_leads_m].
  eexists. split.
  - eapply hs_then; [eapply hs_then; [eapply hs_then; [apply hs_none|]|]|].
    + apply (a_open _ _ _ _ _ _ [] [] ex_m 0); [exact ex_sound_m|reflexivity].
    + eapply (a_load _ _ _ _ _ _ _ _ 0 ex_m); [left; reflexivity|apply (ev_once _ _ _ _ (fun rec => load rec 0) _ _ _ 8); [intros; apply mono_load; assumption|vm_compute; reflexivity|discriminate]|discriminate].
    + eapply (a_query _ _ _ _ _ _ _ _ 0 ex_m [u "nothing"] _ (Raise (EKey (u "nothing")))); [left; reflexivity|apply (Runs_once _ _ _ _ _ _ _ _ 8); [vm_compute; reflexivity|discriminate]|discriminate].
  - split; [left; reflexivity|]. split; [eexists; split; [reflexivity|reflexivity]|reflexivity].
Qed.
(** the case of [C80_partial] *)
Example C80_some : exists y look, leads toy ex_dig (shelf ex_shelf) ex_m [u "m"] y /\ means toy ex_dig (shelf ex_shelf) y (VMembers look) /\ look (u "type") <> None /\ look (u "title") <> None.
Proof.
  exists (ex_m, (false, VDict [(u "$ref", VStr (u "http://h/a.json#/defs/x")); (u "title", VStr (u "m"))])). eexists. split; [|split; [eapply mn_ref_obj; [reflexivity|apply ex_names_a|exact ex_leads_x|apply mn_obj; reflexivity]|split; discriminate]].
  apply ld_steps; [discriminate|intros k q _; apply no_anchor; reflexivity|]. eapply ps_member; [apply mn_obj; reflexivity|reflexivity|]. apply ps_here.
Qed.

(** the case of [C80_exact]: the reference in the third document, just opened, waits
    for the first *)
Example C80_exact_some strx : exists w1, Runs toy ex_dig strx (from ex_shelf) (CQuery 0 [u "m"]) (fst (make_schema ex_m core start_world)) w1 (Ok 11) /\ awaiting w1 11.
Proof.
  eexists. split; [apply (Runs_once _ _ _ _ _ _ _ _ 8); [vm_compute; reflexivity|discriminate]|]. eexists. eexists. split; [eexists; split; reflexivity|]. split; reflexivity.
Qed.

(** ** C78 *)
(** The document [{"x": {"$ref": "http://h/a.json"}}] loads, but not after the other
    document, which has an id, was read. *)
Definition C78_value : pv := VDict [(u "x", VDict [(u "$ref", VStr (u "http://h/a.json"))])].
Definition C78_shelf : list (pystr * pv) := [(u "http://h/a.json", VDict [(u "$id", VStr (u "http://h/a.json")); (u "type", VStr (u "object"))])].
Theorem C78_refuted strx : let hist := history toy ex_dig strx (from C78_shelf) (fun _ => True) in
  exists d0 d1 w0 w1, hist (Desk start_world [] []) d0 /\ hist d0 d1 /\ In (1, C78_value) (d_docs d0) /\ d_docs d1 = d_docs d0 /\
    ev toy ex_dig strx (from C78_shelf) (fun rec => load rec 1) (d_world d0) w0 (Ok tt) /\ ev toy ex_dig strx (from C78_shelf) (fun rec => load rec 1) (d_world d1) w1 (Raise EValue).
Proof.
  intro hist. eexists. eexists. eexists. eexists. split; [|split].
  - eapply hs_then; [eapply hs_then; [apply hs_none|]|].
    + apply (a_open _ _ _ _ _ _ [] [] C78_value 0); [exact I|reflexivity].
    + apply (a_open _ _ _ _ _ _ _ [] C78_value 1); [exact I|reflexivity].
  - eapply hs_then; [eapply hs_then; [apply hs_none|]|].
    + eapply (a_query _ _ _ _ _ _ _ _ 0 C78_value [u "x"] _ (Ok 9)); [right; left; reflexivity|apply (Runs_once _ _ _ _ _ _ _ _ 8); [vm_compute; reflexivity|discriminate]|discriminate].
    + eapply (a_type _ _ _ _ _ _ _ _ 9 _ (Ok JObj)); [left; reflexivity|apply (Runs_once _ _ _ _ _ _ _ _ 8); [vm_compute; reflexivity|discriminate]|discriminate].
  - split; [left; reflexivity|]. split; [reflexivity|]. split; (apply (ev_once _ _ _ _ (fun rec => load rec 1) _ _ _ 8); [intros; apply mono_load; assumption|vm_compute; reflexivity|discriminate]).
Qed.

(** ** C80 *)
(** The reference in the third document, which is sound: [key in node] answers no,
    and after its type was asked, yes. *)
Theorem C80_refuted strx : let hist := history toy ex_dig strx (from ex_shelf) (sound_document toy (shelf ex_shelf)) in
  exists d0 d1 a w1, hist (Desk start_world [] []) d0 /\ In a (d_nodes d0) /\ Runs toy ex_dig strx (from ex_shelf) (CHas a (KS (u "type"))) (d_world d0) (d_world d0) (Ok false) /\
    hist d0 d1 /\ Runs toy ex_dig strx (from ex_shelf) (CHas a (KS (u "type"))) (d_world d1) w1 (Ok true).
Proof.
  intro hist. eexists. eexists. eexists. eexists. split; [|split; [|split; [|split]]].
  - eapply hs_then; [eapply hs_then; [apply hs_none|]|].
    + apply (a_open _ _ _ _ _ _ [] [] ex_m 0); [exact ex_sound_m|reflexivity].
    + eapply (a_query _ _ _ _ _ _ _ _ 0 ex_m [u "m"] _ (Ok _)); [left; reflexivity|apply (Runs_once _ _ _ _ _ _ _ _ 8); [vm_compute; reflexivity|discriminate]|discriminate].
  - left. reflexivity.
  - apply (Runs_once _ _ _ _ _ _ _ _ 8); [vm_compute; reflexivity|discriminate].
  - eapply hs_then; [apply hs_none|]. eapply (a_type _ _ _ _ _ _ _ _ _ _ (Ok JObj)); [left; reflexivity|apply (Runs_once _ _ _ _ _ _ _ _ 8); [vm_compute; reflexivity|discriminate]|discriminate].
  - apply (Runs_once _ _ _ _ _ _ _ _ 8); [vm_compute; reflexivity|discriminate].
Qed.

(** ** C85 *)
(** The document with id http://h/dir/main.json refers to "other.json"; the URI this
    means is found by the loader, but loading the document raises. *)
Definition C85_value : pv := VDict [(u "$id", VStr (u "http://h/dir/main.json")); (u "x", VDict [(u "$ref", VStr (u "other.json"))])].
Definition C85_shelf : list (pystr * pv) := [(u "http://h/dir/other.json", VDict [(u "type", VStr (u "object"))])].
Theorem C85_refuted strx : exists base ref full w s w1 w2,
  mk_uri toy (u "http://h/dir/main.json") = Ok base /\ mk_uri toy (u "other.json") = Ok ref /\ resolve toy base ref = Ok full /\ from C85_shelf full = Ok (VDict [(u "type", VStr (u "object"))]) /\
  opened w C85_value s w1 /\ ev toy ex_dig strx (from C85_shelf) (fun rec => load rec s) w1 w2 (Raise ELoad).
Proof.
  do 3 eexists. exists start_world, 0. do 2 eexists. split; [vm_compute; reflexivity|]. split; [vm_compute; reflexivity|]. split; [vm_compute; reflexivity|]. split; [vm_compute; reflexivity|]. split; [vm_compute; reflexivity|].
  apply (ev_once _ _ _ _ (fun rec => load rec 0) _ _ _ 8); [intros; apply mono_load; assumption|vm_compute; reflexivity|discriminate].
Qed.

(** ** C82 *)
(** Two documents, each with a reference to a place in the other that holds no
    further cycle. *)
Definition C82_a : pv := VDict [
  (u "z", VDict [(u "$ref", VStr (u "http://h/b#/x"))]);
  (u "y", VDict [(u "type", VStr (u "string"))]);
  (u "$id", VStr (u "http://h/a"))].
Definition C82_b : pv := VDict [
  (u "$id", VStr (u "http://h/b"));
  (u "x", VDict [(u "$ref", VStr (u "http://h/a#/y"))])].
Definition C82_shelf : list (pystr * pv) := [(u "http://h/a", C82_a); (u "http://h/b", C82_b)].
(** What is known to answer can be passed on the way to a computation without end. *)
Lemma pass auth dig strx fetch {A B} (f : (forall T, call T -> M T) -> M A) (k : A -> M B) w w1 a n :
  (forall x y, below x y -> mle (f x) (f y)) -> ev auth dig strx fetch f w w1 (Ok a) -> snd (k a w1) = OutOfFuel -> snd (mbind (f (exec auth dig strx fetch n)) k w) = OutOfFuel.
Proof.
  intros Mo (n0 & H) Hk. unfold mbind. specialize (Mo _ _ (below_le auth dig strx fetch n (n0 + n) ltac:(lia)) w). rewrite (H (n0 + n)) in Mo by lia.
  destruct (f (exec auth dig strx fetch n) w) as [w2 [b|e|]]; cbn in *; [| |reflexivity]; specialize (Mo ltac:(discriminate)); [injection Mo as <- <-; exact Hk|discriminate].
Qed.
Lemma bind_ok {A B} (m : M A) (k : A -> M B) w w1 a : m w = (w1, Ok a) -> snd (k a w1) = OutOfFuel -> snd (mbind m k w) = OutOfFuel.
Proof. unfold mbind. intros -> H. exact H. Qed.
Section C82.
  Variable strx : heap -> addr -> pystr.
  Notation hist := (history toy ex_dig strx (from C82_shelf) (fun _ => True)).
  Notation exec := (exec toy ex_dig strx (from C82_shelf)).
  Definition C82_w0 : world := Eval vm_compute in fst (make_schema C82_b core start_world).
  Definition C82_w1 : world := Eval vm_compute in fst (query_text toy ex_dig (fun _ _ => []) (from C82_shelf) 8 0 (u "/x") C82_w0).
  (** the same with more nodes *)
  Definition C82_more (l : heap) : world := World (w_heap C82_w1 ++ l) (w_schemas C82_w1) (w_store C82_w1).
  Definition C82_ref : node := Eval vm_compute in
    match mk_uri toy (u "http://h/b#/x") with Ok v => Node (PRef (RefData v 5 0 [u "x"])) (Some 4) (u "z") | _ => Node PNull None [] end.
  Lemma C82_new l : hget (w_heap (C82_more (l ++ [C82_ref]))) (11 + length l) = Some C82_ref.
  Proof. unfold hget, C82_more. cbn [w_heap]. rewrite nth_error_app2 by (cbn; lia). cbn [length C82_w1 w_heap]. replace (_ - _) with (length l) by lia. rewrite nth_error_app2, Nat.sub_diag by lia. reflexivity. Qed.
  Ltac skip f w x := eapply (pass _ _ _ _ f _ _ w x).
  Ltac known w c x := eapply (pass _ _ _ _ (fun rec => rec _ c) _ _ w x); [intros ? ? B; apply B|apply (Runs_once _ _ _ _ _ _ _ _ 8); [vm_compute; reflexivity|discriminate]|].
  Lemma C82_spins n : forall l, snd (exec n _ (CType 10) (C82_more l)) = OutOfFuel.
  Proof.
    induction n as [n IH] using lt_wf_ind. intro l. destruct n as [|n]; [reflexivity|]. cbn [Doc.exec step]. unfold node_type. eapply (bind_ok _ _ (C82_more l) (C82_more l) _); [reflexivity|]. cbn [n_val r_schema r_pointer]. apply bind_out.
    (* a.query("/y") loads a *)
    destruct n as [|n]; [reflexivity|]. cbn [Doc.exec step]. unfold query. apply bind_out. unfold load. eapply (bind_ok _ _ (C82_more l) (C82_more l) _); [reflexivity|]. cbn [s_ready s_value]. apply bind_out.
    (* the root of a, its member z *)
    destruct n as [|n]; [reflexivity|]. eapply process_out; [eexists; split; [reflexivity|reflexivity]|].
    destruct n as [|n]; [reflexivity|]. cbn [Doc.exec step]. unfold process. known (C82_more l) (CType 5) JObj. eapply (bind_ok _ _ (C82_more l) (C82_more l) [(u "$ref", 6)]); [reflexivity|].
    apply (pass toy ex_dig strx (from C82_shelf) (fun rec => mmap (fun kx => mbind (rec _ (CProcess 1 (snd kx))) (fun c => ret (fst kx, c))) [(u "$ref", 6)]) _ (C82_more l) (C82_more l) [(u "$ref", 6)]).
    { intros x y B. apply mle_mmap. intro kx. apply mle_bind; [apply B|intro; apply mle_refl]. }
    { apply (ev_once _ _ _ _ (fun rec => mmap (fun kx => mbind (rec _ (CProcess 1 (snd kx))) (fun c => ret (fst kx, c))) [(u "$ref", 6)]) _ _ _ 8); [|vm_compute; reflexivity|discriminate].
      intros x y B. apply mle_mmap. intro kx. apply mle_bind; [apply B|intro; apply mle_refl]. }
    eapply (bind_ok _ _ (C82_more l) (C82_more l) _); [reflexivity|]. cbn [n_val]. eapply (bind_ok _ _ (C82_more l) (C82_more l) tt); [reflexivity|]. eapply (bind_ok _ _ (C82_more l) (C82_more l) _); [reflexivity|]. cbn [s_voc].
    (* the reference to b, which is loaded *)
    cbn [apply_kws]. eapply (bind_ok _ _ (C82_more l) (C82_more l) true); [reflexivity|]. apply (bind_ok _ _ _ (C82_more (l ++ [C82_ref])) (11 + length l)); [vm_compute; reflexivity|].
    apply bind_out. cbn [any_has kw_names]. apply bind_out. unfold node_has. apply (bind_ok _ _ _ (C82_more (l ++ [C82_ref])) C82_ref); [exact (node_at_ok _ _ _ (C82_new l))|]. cbn [n_val C82_ref]. apply bind_out.
    destruct n as [|n]; [reflexivity|]. cbn [Doc.exec step]. unfold ref_raw. apply (bind_ok _ _ _ (C82_more (l ++ [C82_ref])) C82_ref); [exact (node_at_ok _ _ _ (C82_new l))|]. cbn [n_val C82_ref r_schema r_pointer r_node].
    eapply (bind_ok _ _ (C82_more (l ++ [C82_ref])) (C82_more (l ++ [C82_ref])) _); [reflexivity|]. cbn [s_ready]. known (C82_more (l ++ [C82_ref])) (CQuery 0 [u "x"]) 10. apply bind_out. apply IH. lia.
  Qed.
  (** The one read first, everything is there; the other read first, reading the
      reference never ends. *)
  Theorem C82_refuted :
    (exists d a w1 w2, hist (Desk start_world [] []) d /\ In (0, C82_a) (d_docs d) /\ Runs toy ex_dig strx (from C82_shelf) (CQuery 0 [u "z"]) (d_world d) w1 (Ok a) /\ Runs toy ex_dig strx (from C82_shelf) (CType a) w1 w2 (Ok JObj)) /\
    exists d a w1, hist (Desk start_world [] []) d /\ In (0, C82_b) (d_docs d) /\ Runs toy ex_dig strx (from C82_shelf) (CQuery 0 [u "x"]) (d_world d) w1 (Ok a) /\ Diverges toy ex_dig strx (from C82_shelf) (CType a) w1.
  Proof.
    split.
    - do 4 eexists. split; [eapply hs_then; [apply hs_none|]; apply (a_open _ _ _ _ _ _ [] [] C82_a 0); [exact I|reflexivity]|]. split; [left; reflexivity|].
      split; (apply (Runs_once _ _ _ _ _ _ _ _ 12); [vm_compute; reflexivity|discriminate]).
    - do 2 eexists. exists C82_w1. split; [eapply hs_then; [apply hs_none|]; apply (a_open _ _ _ _ _ _ [] [] C82_b 0); [exact I|reflexivity]|]. split; [left; reflexivity|].
      split; [apply (Runs_once _ _ _ _ _ _ _ _ 12); [vm_compute; reflexivity|discriminate]|]. intro n. exact (C82_spins n []).
  Qed.
End C82.

(** ** C84 *)
(** Data that looks like a keyword: {"const": {"id": "a"}} cannot be loaded, and in
    {"const": {"$ref": "#/x"}, "x": {"type": "string"}} the constant becomes what is
    at x. *)
Definition C84_id : pv := VDict [(u "const", VDict [(u "id", VStr (u "a"))])].
Definition C84_ref : pv := VDict [(u "const", VDict [(u "$ref", VStr (u "#/x"))]); (u "x", VDict [(u "type", VStr (u "string"))])].
Theorem C84_refuted strx fetch :
  (exists w0 w1, opened start_world C84_id 0 w0 /\ ev toy ex_dig strx fetch (fun rec => load rec 0) w0 w1 (Raise EValue)) /\
  exists w0 w1 a, opened start_world C84_ref 0 w0 /\ Runs toy ex_dig strx fetch (CQuery 0 [u "const"]) w0 w1 (Ok a) /\
    Runs toy ex_dig strx fetch (CHas a (KS (u "$ref"))) w1 w1 (Ok false) /\ Runs toy ex_dig strx fetch (CHas a (KS (u "type"))) w1 w1 (Ok true).
Proof.
  split.
  - do 2 eexists. split; [vm_compute; reflexivity|]. apply (ev_once _ _ _ _ (fun rec => load rec 0) _ _ _ 8); [intros; apply mono_load; assumption|vm_compute; reflexivity|discriminate].
  - do 3 eexists. split; [vm_compute; reflexivity|]. split; [apply (Runs_once _ _ _ _ _ _ _ _ 8); [vm_compute; reflexivity|discriminate]|]. split; (apply (Runs_once _ _ _ _ _ _ _ _ 8); [vm_compute; reflexivity|discriminate]).
Qed.
(** A schema with a property named "id"; [C84_text] is [str] of its schema. *)
Definition C84_property : pv := VDict [(u "properties", VDict [(u "id", VDict [(u "type", VStr (u "string"))])])].
Definition C84_text (h : heap) (a : addr) : pystr := u "{'type': string)})".
Theorem C84_property_refuted fetch : exists w0 w1, opened start_world C84_property 0 w0 /\ ev toy ex_dig C84_text fetch (fun rec => load rec 0) w0 w1 (Raise EValue).
Proof.
  do 2 eexists. split; [vm_compute; reflexivity|]. apply (ev_once _ _ _ _ (fun rec => load rec 0) _ _ _ 8); [intros; apply mono_load; assumption|vm_compute; reflexivity|discriminate].
Qed.
