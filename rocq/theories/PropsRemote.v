(** C78-C80: references to other documents, in every history. *)
From Verif Require Import PyBase PyBaseFacts PyVal OrderFacts Regex Numbers Uri Pointer PropsPointer Store Validators Heap HeapFacts PropsWrap PropsPlaces Doc DocMono DocFacts PropsQuery DocLoad DocDocument PropsAnchor PropsResolve PropsRef DocLibrary DocReading.
Local Open Scope nat_scope.
Local Notation length := List.length (only parsing).

(** ** Histories: what a program does with documents and nodes it holds *)
Record desk := Desk { d_world : world; d_docs : list (nat * pv); d_nodes : list addr }.
Section History.
  Variables (auth : pystr -> option authority) (dig : N -> option Z) (strx : heap -> addr -> pystr) (fetch : uri -> res pv).
  Notation Runs := (Runs auth dig strx fetch).
  Notation ev := (ev auth dig strx fetch).
  Variable ok : pv -> Prop.  (* the documents that are opened *)
  (** one call; it may raise *)
  Inductive act : desk -> desk -> Prop :=
  (* JsonSchema(value, vocabulary) *)
  | a_open w D N V s w' : ok V -> opened w V s w' -> act (Desk w D N) (Desk w' ((s, V) :: D) N)
  (* schema.load() *)
  | a_load w D N s V w' r : In (s, V) D -> ev (fun rec => load rec s) w w' r -> r <> OutOfFuel -> act (Desk w D N) (Desk w' D N)
  (* schema.query(pointer) *)
  | a_query w D N s V p w' r : In (s, V) D -> Runs (CQuery s p) w w' r -> r <> OutOfFuel -> act (Desk w D N) (Desk w' D (match r with Ok b => b :: N | _ => N end))
  (* node.type *)
  | a_type w D N a w' r : In a N -> Runs (CType a) w w' r -> r <> OutOfFuel -> act (Desk w D N) (Desk w' D N)
  (* node.items() *)
  | a_items w D N a w' r : In a N -> ev (fun rec => node_items rec a) w w' r -> r <> OutOfFuel -> act (Desk w D N) (Desk w' D (match r with Ok its => map snd its ++ N | _ => N end))
  (* node[key] *)
  | a_get w D N a k w' r : In a N -> Runs (CGet a k) w w' r -> r <> OutOfFuel -> act (Desk w D N) (Desk w' D (match r with Ok b => b :: N | _ => N end))
  (* key in node, node == key *)
  | a_has w D N a k w' r : In a N -> Runs (CHas a k) w w' r -> r <> OutOfFuel -> act (Desk w D N) (Desk w' D N)
  | a_eq w D N a k w' r : In a N -> Runs (CEq a k) w w' r -> r <> OutOfFuel -> act (Desk w D N) (Desk w' D N).
  Inductive history : desk -> desk -> Prop :=
  | hs_none d : history d d
  | hs_then d d1 d2 : history d d1 -> act d1 d2 -> history d d2.
End History.

Section Remote.
  Variables (auth : pystr -> option authority) (dig : N -> option Z) (strx : heap -> addr -> pystr) (fetch : uri -> res pv).
  Variable Lib : pystr -> option pv.
  Notation Runs := (Runs auth dig strx fetch).
  Notation ev := (ev auth dig strx fetch).
  Notation state := (state auth Lib).
  Notation history := (history auth dig strx fetch (sound_document auth Lib)).
  Notation act := (act auth dig strx fetch (sound_document auth Lib)).
  Notation means := (means auth dig Lib).
  Notation leads := (leads auth dig Lib).
  (** The loader finds the documents of the library, all of them sound, and none is
      in the store at first. *)
  Record library (w : world) : Prop := Library {
    lb_sound : forall k V, Lib k = Some V -> sound_document auth Lib V;
    lb_fetch : forall t v k p V, remote auth t v k p -> Lib k = Some V -> fetch v = Ok V;
    lb_store : forall k V, Lib k = Some V -> dget k (w_store w) = None
  }.
  (** At every later moment the node [a] reads as the value [y] of its document:
      its type, and then its members, which read as what is there, to depth [n]. *)
  Fixpoint denotes (n : nat) (d : desk) (a : addr) (y : piece) : Prop :=
    match n with
    | O => True
    | S n' => forall d' sh, history d d' -> means y sh ->
        exists w1, Runs (CType a) (d_world d') w1 (Ok (seen_type sh)) /\ Runs (CType a) w1 w1 (Ok (seen_type sh)) /\
          match sh with
          | VMembers look => exists its, ev (fun rec => node_items rec a) w1 w1 (Ok its) /\
              (forall k, Runs (CGet a k) w1 w1 (dict_get its k)) /\ (forall k, Runs (CHas a k) w1 w1 (Ok (dict_has its k))) /\
              forall k, match look k with Some z => exists c, dget k its = Some c /\ denotes n' (Desk w1 (d_docs d') (map snd its ++ d_nodes d')) c z | None => dget k its = None end
          | VValue z => exists c, target auth dig strx fetch w1 a c /\ holds (w_heap w1) c (piece_value z)
          end
    end.

  Hypothesis Dig : digits_ok dig.
  Section With.
    Hypothesis LibOk : forall k V, Lib k = Some V -> sound_document auth Lib V.
    Hypothesis Fetch : forall t v k p V, remote auth t v k p -> Lib k = Some V -> fetch v = Ok V.
    Definition in_order (G : ghost) (d : desk) : Prop :=
      state G None (d_world d) /\ (forall s V, In (s, V) (d_docs d) -> G s = Some V) /\ forall a, In a (d_nodes d) -> node_known auth Lib G (d_world d) a.
    Lemma in_order_with G d G' w' (N : list addr) : in_order G d -> state G' None w' -> later G (d_world d) G' w' -> (forall a, In a N -> node_known auth Lib G' w' a) -> in_order G' (Desk w' (d_docs d) (N ++ d_nodes d)).
    Proof.
      intros (St & Dd & Nn) St' La Nw. split; [exact St'|]. split; [intros s V I; exact (l_lib _ _ _ _ La _ _ (Dd s V I))|].
      intros a I. cbn [d_nodes d_world] in *. apply in_app_or in I as [I|I]; [exact (Nw a I)|]. eapply known_later; [exact La|exact (Nn a I)].
    Qed.
    Lemma opened_in_order G d V s w' : in_order G d -> sound_document auth Lib V -> opened (d_world d) V s w' ->
      exists G', in_order G' (Desk w' ((s, V) :: d_docs d) (d_nodes d)) /\ later G (d_world d) G' w'.
    Proof.
      intros (St & Dd & Nn) So O. pose proof So as ((e & ->) & _). destruct (opened_dict _ _ _ _ O) as (-> & Est & Ess & Eh). set (w := d_world d) in *. set (V := VDict e) in *. set (s := length (w_schemas w)) in *.
      pose proof (state_more auth Lib G None w (w_heap w') (w_schemas w') (w_store w') s V St So Eh Ess eq_refl) as Q.
      assert (St' : state (with_doc G s V) None (World (w_heap w') (w_schemas w') (w_store w'))) by (apply Q; [intros k Y j _ Gj; left; rewrite <- Est; exact Gj|discriminate]). clear Q.
      replace (World (w_heap w') (w_schemas w') (w_store w')) with w' in St' by (destruct w'; reflexivity).
      assert (Gn : G s = None). { destruct (G s) as [X|] eqn:E; [|reflexivity]. pose proof (known_lt auth Lib _ _ _ _ _ St E). unfold s in *. lia. }
      assert (Inc : forall j X, G j = Some X -> with_doc G s V j = Some X). { intros j X Gj. unfold with_doc. destruct (Nat.eqb_spec j s) as [->|N]; [congruence|exact Gj]. }
      assert (La : later G w (with_doc G s V) w').
      { constructor; [exact Inc| | |].
        - intros j X x Gj Hx Rx. rewrite Ess. rewrite nth_error_app1 by (apply nth_error_Some; congruence). exact Hx.
        - intros k j Gj. rewrite Est. exact Gj.
        - intros h2 A y L N. rewrite A.
          + rewrite Eh. unfold hget. rewrite nth_error_app1 by exact L. reflexivity.
          + rewrite Eh, app_length. lia.
          + intros j (x & X & Gj & Hx & Rx & Ly). rewrite Ess in Hx. unfold with_doc in Gj. destruct (Nat.eqb_spec j s) as [->|Nj].
            * unfold s in Hx. rewrite nth_error_app2, Nat.sub_diag in Hx by lia. cbn in Hx. injection Hx as <-. cbn [s_value fresh] in Ly. lia.
            * assert (j < length (w_schemas w)) by (eapply known_lt; eassumption). rewrite nth_error_app1 in Hx by lia. apply (N j). exists x, X. auto. }
      exists (with_doc G s V). split; [|exact La]. split; [exact St'|]. split.
      - intros j X [[= <- <-]|I]; [unfold with_doc; rewrite Nat.eqb_refl; reflexivity|exact (Inc _ _ (Dd j X I))].
      - intros a I. eapply known_later; [exact La|exact (Nn a I)].
    Qed.
    Lemma call_in_order G d A (c : call A) w' r : in_order G d -> call_known auth Lib G (d_world d) c -> Runs c (d_world d) w' r -> r <> OutOfFuel ->
      exists G', state G' None w' /\ later G (d_world d) G' w' /\ forall x, r = Ok x -> answer_known auth Lib c G' w' x.
    Proof. intros (St & _) K (n & H) Nr. exact (exec_orderly auth dig strx fetch Lib Dig LibOk Fetch n A c G (d_world d) St K w' r (H n (le_n n)) Nr). Qed.
    Lemma act_in_order G d d' : in_order G d -> act d d' -> exists G', in_order G' d' /\ later G (d_world d) G' (d_world d').
    Proof.
      intros Od Ac. pose proof Od as (St & Dd & Nn). destruct Ac as [w D N V s w' So O|w D N s V w' r I R Nr|w D N s V p w' r I R Nr|w D N a w' r I R Nr|w D N a w' r I R Nr|w D N a k w' r I R Nr|w D N a k w' r I R Nr|w D N a k w' r I R Nr]; cbn [d_world d_docs d_nodes] in *.
      - exact (opened_in_order G (Desk w D N) V s w' Od So O).
      - destruct (load_runs auth dig strx fetch Lib Dig LibOk Fetch s V w G St (Dd s V I)) as (w1 & G1 & L1 & St1 & La1 & _). destruct (ev_det auth dig strx fetch _ _ _ _ _ _ R L1) as [-> ->].
        exists G1. split; [|exact La1]. exact (in_order_with G _ G1 w1 [] Od St1 La1 ltac:(intros a [])).
      - destruct (call_in_order G _ _ (CQuery s p) w' r Od (ex_intro _ V (Dd s V I)) R Nr) as (G1 & St1 & La1 & An). exists G1. split; [|exact La1].
        destruct r as [b|e|]; [apply (in_order_with G _ G1 w' [b] Od St1 La1); intros a [<-|[]]; exact (An b eq_refl)|exact (in_order_with G _ G1 w' [] Od St1 La1 ltac:(intros a []))|congruence].
      - destruct (call_in_order G _ _ (CType a) w' r Od (Nn a I) R Nr) as (G1 & St1 & La1 & _). exists G1. split; [|exact La1]. exact (in_order_with G _ G1 w' [] Od St1 La1 ltac:(intros x [])).
      - destruct R as (n & H). destruct (items_orderly auth Lib (exec auth dig strx fetch n) ltac:(intros x G0 w0 St0 K0; exact (exec_orderly auth dig strx fetch Lib Dig LibOk Fetch n _ (CRaw x) G0 w0 St0 K0)) G w a St (Nn a I) w' r (H n (le_n n)) Nr) as (G1 & St1 & La1 & An).
        exists G1. split; [|exact La1]. destruct r as [its|e|]; [apply (in_order_with G _ G1 w' (map snd its) Od St1 La1)|exact (in_order_with G _ G1 w' [] Od St1 La1 ltac:(intros x []))|congruence].
        intros c Ic. apply in_map_iff in Ic as ([k c'] & E & Ic). cbn in E. subst c'. exact (An its eq_refl k c Ic).
      - destruct (call_in_order G _ _ (CGet a k) w' r Od (Nn a I) R Nr) as (G1 & St1 & La1 & An). exists G1. split; [|exact La1].
        destruct r as [b|e|]; [apply (in_order_with G _ G1 w' [b] Od St1 La1); intros x [<-|[]]; exact (An b eq_refl)|exact (in_order_with G _ G1 w' [] Od St1 La1 ltac:(intros x []))|congruence].
      - destruct (call_in_order G _ _ (CHas a k) w' r Od (Nn a I) R Nr) as (G1 & St1 & La1 & _). exists G1. split; [|exact La1]. exact (in_order_with G _ G1 w' [] Od St1 La1 ltac:(intros x [])).
      - destruct (call_in_order G _ _ (CEq a k) w' r Od (Nn a I) R Nr) as (G1 & St1 & La1 & _). exists G1. split; [|exact La1]. exact (in_order_with G _ G1 w' [] Od St1 La1 ltac:(intros x [])).
    Qed.
    Lemma history_in_order d d' : history d d' -> forall G, in_order G d -> exists G', in_order G' d' /\ later G (d_world d) G' (d_world d').
    Proof.
      induction 1 as [d|d d1 d2 _ IH Ac]; intros G Od; [exists G; split; [exact Od|apply later_refl]|]. destruct (IH G Od) as (G1 & O1 & L1). destruct (act_in_order G1 d1 d2 O1 Ac) as (G2 & O2 & L2). exists G2. split; [exact O2|eapply later_trans; eassumption].
    Qed.
    Lemma start_in_order w : (forall k V, Lib k = Some V -> dget k (w_store w) = None) -> in_order (fun _ => None) (Desk w [] []).
    Proof.
      intro Em. split; [|split; [intros s V []|intros a []]]. constructor; try discriminate.
      - intros s1 s2 y (x & V & C & _). discriminate.
      - intros k V d Lk Gk. cbn [d_world] in Gk. rewrite (Em k V Lk) in Gk. discriminate.
    Qed.
    Lemma stands_denotes n : forall G d a y, in_order G d -> stands_for auth Lib G (d_world d) a y -> denotes n d a y.
    Proof.
      induction n as [|n IH]; intros G d a y Od S; [exact I|]. intros d' sh Hs Mn. destruct (history_in_order d d' Hs G Od) as (G1 & O1 & L1). pose proof (stands_later auth Lib _ _ _ _ _ _ L1 S) as S1. pose proof O1 as (St1 & _).
      destruct (proj1 (saying auth dig strx fetch Lib Dig LibOk Fetch) y sh Mn G1 (d_world d') a St1 S1) as (G2 & w2 & R2 & St2 & L2 & T). exists w2. split; [exact R2|]. destruct sh as [look|z]; cbn [tells seen_type] in *.
      - destruct T as (its & Nd & Ki & T). destruct (T G2 w2 St2 (later_refl _ _)) as (Ty & It & Ge & Ha). split; [exact Ty|]. exists its. split; [exact It|]. split; [exact Ge|]. split; [exact Ha|]. intro k. pose proof Ki as Ki'. specialize (Ki k).
        destruct (look k) as [z|]; [|exact Ki]. destruct Ki as (c & Gc & Sc). exists c. split; [exact Gc|]. apply (IH G2); [|exact Sc]. apply (in_order_with G1 d' G2 w2 (map snd its) O1 St2 L2).
        intros b Ib. apply in_map_iff in Ib as ([k' b'] & E & Ib). cbn in E. subst b'. assert (Gb : dget k' its = Some b) by (apply In_dget; assumption). specialize (Ki' k'). destruct (look k') as [z'|]; [destruct Ki' as (b' & Gb' & Sb); rewrite Gb in Gb'; injection Gb' as <-; eexists; exact Sb|congruence].
      - destruct T as (Nz & c & Sc & T). destruct (T G2 w2 St2 (later_refl _ _)) as (Ty & Tc). split; [exact Ty|]. exists c. split; [exact Tc|].
        destruct z as [V [f x]]. unfold piece_value in *. cbn [snd] in *. apply (stands_leaf auth Lib G2 w2 c V f x Sc); [intros e ->; apply Nz; reflexivity|apply agree_self].
    Qed.
  End With.

  (** ** C78 *)
  (** A sound document loads, at every moment of every history. *)
  Theorem C78_partial w d s V : library w -> history (Desk w [] []) d -> In (s, V) (d_docs d) -> exists w', ev (fun rec => load rec s) (d_world d) w' (Ok tt) /\ is_ready w' s.
  Proof.
    intros [So Fe Em] Hs I. destruct (history_in_order So Fe _ _ Hs _ (start_in_order w Em)) as (G & (St & Dd & _) & _).
    destruct (load_runs auth dig strx fetch Lib Dig So Fe s V (d_world d) G St (Dd s V I)) as (w' & G' & L & _ & _ & R). exists w'. auto.
  Qed.
  (** ** C79 *)
  (** After any history, the pointer leads to a node that reads, then and ever
      after, as what the documents say is there. *)
  Theorem C79 w d s V p y : library w -> history (Desk w [] []) d -> In (s, V) (d_docs d) -> leads V p y ->
    exists w' b, Runs (CQuery s p) (d_world d) w' (Ok b) /\ forall n, denotes n (Desk w' (d_docs d) (b :: d_nodes d)) b y.
  Proof.
    intros [So Fe Em] Hs I Ld. destruct (history_in_order So Fe _ _ Hs _ (start_in_order w Em)) as (G & Od & _). pose proof Od as (St & Dd & _).
    destruct (proj1 (proj2 (saying auth dig strx fetch Lib Dig So Fe)) V p y Ld G (d_world d) s St (Dd s V I)) as (G1 & w1 & b & R & St1 & La & Sb & _). exists w1, b. split; [exact R|]. intro n.
    apply (stands_denotes So Fe n G1); [|exact Sb]. apply (in_order_with G d G1 w1 [b] Od St1 La). intros x [<-|[]]. eexists. exact Sb.
  Qed.
  (** the document stays in hand *)
  Theorem C79_docs d d' s V : history d d' -> In (s, V) (d_docs d) -> In (s, V) (d_docs d').
  Proof. induction 1 as [d|d d1 d2 _ IH Ac]; intro I; [exact I|]. specialize (IH I). destruct Ac; cbn [d_docs] in *; auto. right. exact IH. Qed.
  (** ** C80 *)
  (** Once its type was asked, a node that reads as an object has the same members
      at every later moment. *)
  Theorem C80_partial w d s V p y look : library w -> history (Desk w [] []) d -> In (s, V) (d_docs d) -> leads V p y -> means y (VMembers look) ->
    exists w1 b w2 its, Runs (CQuery s p) (d_world d) w1 (Ok b) /\ Runs (CType b) w1 w2 (Ok JObj) /\
      forall d', history (Desk w2 (d_docs d) (b :: d_nodes d)) d' -> let w' := d_world d' in
        Runs (CType b) w' w' (Ok JObj) /\ ev (fun rec => node_items rec b) w' w' (Ok its) /\ (forall k, Runs (CGet b k) w' w' (dict_get its k)) /\ forall k, Runs (CHas b k) w' w' (Ok (dict_has its k)).
  Proof.
    intros [So Fe Em] Hs I Ld Mn. destruct (history_in_order So Fe _ _ Hs _ (start_in_order w Em)) as (G & Od & _). pose proof Od as (St & Dd & _).
    destruct (proj1 (proj2 (saying auth dig strx fetch Lib Dig So Fe)) V p y Ld G (d_world d) s St (Dd s V I)) as (G1 & w1 & b & R & St1 & La & Sb & _).
    destruct (proj1 (saying auth dig strx fetch Lib Dig So Fe) y _ Mn G1 w1 b St1 Sb) as (G2 & w2 & R2 & St2 & L2 & its & _ & _ & T). exists w1, b, w2, its. split; [exact R|]. split; [exact R2|]. intros d' Hd'.
    assert (O2 : in_order G2 (Desk w2 (d_docs d) (b :: d_nodes d))).
    { apply (in_order_with G d G2 w2 [b] Od St2 (later_trans _ _ _ _ _ _ La L2)). intros x [<-|[]]. exists y. eapply stands_later; [exact L2|eassumption]. }
    destruct (history_in_order So Fe _ _ Hd' _ O2) as (G3 & (St3 & _) & L3). exact (T G3 _ St3 L3).
  Qed.
  (** In general: until the document it refers to is loaded, a reference has the
      members written beside it, [$ref] included; once its type was asked it has
      those it means, at every later moment. *)
  Definition awaiting (w : world) (a : addr) : Prop :=
    exists r x, val (w_heap w) a (PRef r) /\ nth_error (w_schemas w) (r_schema r) = Some x /\ s_ready x = false.
  Theorem C80_exact w d s V p V0 e t look : library w -> history (Desk w [] []) d -> In (s, V) (d_docs d) ->
    leads V p (V0, (false, VDict e)) -> dget (u "$ref") e = Some (VStr t) -> means (V0, (false, VDict e)) (VMembers look) ->
    exists w1 b w2, Runs (CQuery s p) (d_world d) w1 (Ok b) /\
      (awaiting w1 b -> forall k, Runs (CHas b (KS k)) w1 w1 (Ok (dmem k e))) /\
      Runs (CType b) w1 w2 (Ok JObj) /\
      forall d', history (Desk w2 (d_docs d) (b :: d_nodes d)) d' -> forall k,
        Runs (CHas b (KS k)) (d_world d') (d_world d') (Ok (match look k with Some _ => true | None => false end)).
  Proof.
    intros [So Fe Em] Hs I Ld Er Mn. destruct (history_in_order So Fe _ _ Hs _ (start_in_order w Em)) as (G & Od & _). pose proof Od as (St & Dd & _).
    destruct (proj1 (proj2 (saying auth dig strx fetch Lib Dig So Fe)) V p _ Ld G (d_world d) s St (Dd s V I)) as (G1 & w1 & b & R & St1 & La & Sb & _).
    destruct (proj1 (saying auth dig strx fetch Lib Dig So Fe) _ _ Mn G1 w1 b St1 Sb) as (G2 & w2 & R2 & St2 & L2 & its & _ & Ki & T).
    exists w1, b, w2. split; [exact R|]. split; [|split; [exact R2|]].
    - intros (r & x & Hr & Hx & Rx) k. destruct (stands_ref auth Lib _ _ _ _ _ _ Sb Er) as (s1 & v & m & e1 & p1 & oits & _ & _ & Hv & Hm & F).
      specialize (Hv _ (agree_self G1 w1)). specialize (Hm _ (agree_self G1 w1)). pose proof (val_unique _ _ _ _ Hr Hv) as Er'. injection Er' as ->. cbn [r_schema] in Hx.
      assert (dmem k e = dict_has oits (KS k)) as ->.
      { cbn [dict_has]. rewrite !dmem_get. pose proof (fields_get auth Lib _ _ _ _ _ _ k F) as Q. unfold below_it in Q. destruct (dget k e); cbn [option_map] in Q; [destruct Q as (c & -> & _)|rewrite Q]; reflexivity. }
      destruct Hv as (n & Hn & En). destruct Hm as (n' & Hn' & En').
      apply ev_step. cbn [Doc.step]. unfold node_has. eapply ev_known; [apply node_at_ok, Hn|]. rewrite En. eapply ev_bind with (a := RDict oits); [|apply ev_ret].
      apply ev_step. cbn [Doc.step]. unfold ref_raw. eapply ev_known; [apply node_at_ok, Hn|]. rewrite En. cbn [r_schema r_node]. eapply ev_known; [apply schema_at_ok, Hx|]. rewrite Rx.
      eapply ev_known; [apply node_at_ok, Hn'|]. rewrite En'. apply ev_ret.
    - intros d' Hd' k.
      assert (O2 : in_order G2 (Desk w2 (d_docs d) (b :: d_nodes d))).
      { apply (in_order_with G d G2 w2 [b] Od St2 (later_trans _ _ _ _ _ _ La L2)). intros x [<-|[]]. eexists. eapply stands_later; [exact L2|eassumption]. }
      destruct (history_in_order So Fe _ _ Hd' _ O2) as (G3 & (St3 & _) & L3). destruct (T G3 _ St3 L3) as (_ & _ & _ & Ha).
      assert ((match look k with Some _ => true | None => false end) = dict_has its (KS k)) as ->; [|apply Ha].
      cbn [dict_has]. rewrite dmem_get. specialize (Ki k). destruct (look k); [destruct Ki as (c & -> & _)|rewrite Ki]; reflexivity.
  Qed.
  (** hence every reference to an object in a document that is not loaded yet gives
      two answers to ["$ref" in node] *)
  Theorem C80_changes w d s V p V0 e t look : library w -> history (Desk w [] []) d -> In (s, V) (d_docs d) ->
    leads V p (V0, (false, VDict e)) -> dget (u "$ref") e = Some (VStr t) -> means (V0, (false, VDict e)) (VMembers look) -> look (u "$ref") = None ->
    exists w1 b w2, Runs (CQuery s p) (d_world d) w1 (Ok b) /\ Runs (CType b) w1 w2 (Ok JObj) /\
      (awaiting w1 b -> Runs (CHas b (KS (u "$ref"))) w1 w1 (Ok true) /\ Runs (CHas b (KS (u "$ref"))) w2 w2 (Ok false)).
  Proof.
    intros L Hs I Ld Er Mn Lk. destruct (C80_exact w d s V p V0 e t look L Hs I Ld Er Mn) as (w1 & b & w2 & R & A & R2 & B).
    exists w1, b, w2. split; [exact R|]. split; [exact R2|]. intro Aw. split.
    - specialize (A Aw (u "$ref")). rewrite dmem_get, Er in A. exact A.
    - specialize (B _ (hs_none _ _ _ _ _ _) (u "$ref")). rewrite Lk in B. exact B.
  Qed.
  (** ** C85 *)
  (** An absolute reference reads as the place in the document that its resolution
      against any base names. *)
  Theorem C85_partial V d t v base full b k p V' y look : dget (u "$ref") d = Some (VStr t) -> mk_uri auth t = Ok v -> is_absolute auth v = Ok true ->
    resolve auth base v = Ok full -> base_uri auth full = Ok b -> uri_bool b = true -> key_of auth full = Ok k -> pointer_parse (u_frag full) = Ok p ->
    Lib k = Some V' -> leads V' p y -> means y (VMembers look) -> exists look', means (V, (false, VDict d)) (VMembers look') /\ forall j z, look j = Some z -> look' j = Some z.
  Proof.
    intros Gd Mv Ab Rs Bu Bb K Pp L Ld Mn. assert (full = v) as ->. { unfold resolve in Rs. rewrite Ab in Rs. cbn [bind] in Rs. rewrite (C54_stable auth v (made_text auth t v Mv)) in Rs. congruence. }
    eexists. split; [eapply mn_ref_obj; [exact Gd| |exact Ld|exact Mn]|cbv beta; intros j z ->; reflexivity]. right. exists v, k. split; [|exact L]. split; [exact Mv|]. split; [exact Pp|]. split; [exists b; auto|exact K].
  Qed.
End Remote.
