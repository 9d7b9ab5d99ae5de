(** C107: what a reference reads, while documents are edited. *)
From Verif Require Import PyBase PyBaseFacts PyVal Regex Numbers Uri Pointer Store Validators Heap HeapFacts PropsWrap PropsPlaces PropsUriEx Doc DocMono DocFacts PropsQuery DocLoad DocDocument PropsAnchor PropsSession RefCache.
Local Open Scope nat_scope.
Local Notation length := List.length (only parsing).

Definition all_loaded (w : world) : Prop := forall s x, nth_error (w_schemas w) s = Some x -> s_ready x = true.
(** reading, not loading *)
Definition reads {A} (q : call A) : Prop := match q with CProcess _ _ => False | _ => True end.
Definition no_caches : caches := Caches [] [].

Section RefCache.
  Variables (auth : pystr -> option authority) (dig : N -> option Z) (strx : heap -> addr -> pystr) (fetch : uri -> res pv).
  Notation Runs := (Runs auth dig strx fetch).
  Notation exec := (exec auth dig strx fetch).

  (** what is remembered is what would be read now *)
  Definition right (w : world) (c : caches) : Prop :=
    (forall a f r, aget a (c_fragment c) = Some f -> val (w_heap w) a (PRef r) -> Runs (CQuery (r_schema r) (r_pointer r)) w w (Ok f)) /\
    (forall a x, aget a (c_value c) = Some x -> Runs (CRaw a) w w (Ok x)).

  Section World.
    Variable w : world.
    Hypothesis Ready : all_loaded w.
    Definition agrees {A} (m : C A) (m' : M A) : Prop := forall c w' o, right w c -> m' w = (w', o) -> o <> OutOfFuel -> w' = w /\ exists c', m w c = (c', o) /\ right w c'.
    Lemma agrees_ret {A} (a : A) : agrees (cret a) (ret a).
    Proof. intros c w' o R [= <- <-] _. split; [reflexivity|]. exists c. auto. Qed.
    Lemma agrees_raise {A} e : agrees (@craise A e) (raise e).
    Proof. intros c w' o R [= <- <-] _. split; [reflexivity|]. exists c. auto. Qed.
    Lemma agrees_lift {A} (r : res A) : agrees (clift r) (lift r).
    Proof. intros c w' o R [= <- <-] _. split; [reflexivity|]. exists c. auto. Qed.
    Lemma agrees_bind {A B} (m : C A) (m' : M A) (k : A -> C B) (k' : A -> M B) : agrees m m' -> (forall a, agrees (k a) (k' a)) -> agrees (cbind m k) (mbind m' k').
    Proof.
      intros Hm Hk c w' o R E N. unfold mbind in E. unfold cbind. destruct (m' w) as [w1 [a|e|]] eqn:E1.
      - destruct (Hm c w1 (Ok a) R E1 ltac:(discriminate)) as (-> & c1 & -> & R1). exact (Hk a c1 w' o R1 E N).
      - injection E as <- <-. destruct (Hm c w1 (Raise e) R E1 ltac:(discriminate)) as (-> & c1 & -> & R1). split; [reflexivity|]. eauto.
      - congruence.
    Qed.
    Lemma agrees_node {B} a (k : node -> C B) (k' : node -> M B) : (forall n, hget (w_heap w) a = Some n -> agrees (k n) (k' n)) -> agrees (cbind (c_node_at a) k) (mbind (node_at a) k').
    Proof.
      intros Hk c w' o R E N. unfold mbind, node_at in E. unfold cbind, c_node_at. destruct (hget (w_heap w) a) as [n|]; [exact (Hk n eq_refl c w' o R E N)|]. injection E as <- <-. split; [reflexivity|]. eauto.
    Qed.
    Lemma agrees_schema {B} s (k : schema -> C B) (k' : schema -> M B) : (forall x, nth_error (w_schemas w) s = Some x -> agrees (k x) (k' x)) -> agrees (cbind (c_schema_at s) k) (mbind (schema_at s) k').
    Proof.
      intros Hk c w' o R E N. unfold mbind, schema_at in E. unfold cbind, c_schema_at. destruct (nth_error (w_schemas w) s) as [n|]; [exact (Hk n eq_refl c w' o R E N)|]. injection E as <- <-. split; [reflexivity|]. eauto.
    Qed.

    Section Step.
      Variable n : nat.
      Notation rec := (c_exec dig n).
      Hypothesis IH : forall A (q : call A), reads q -> agrees (rec A q) (exec n A q).
      Ltac go := repeat (match goal with
        | |- agrees (cret _) (ret _) => apply agrees_ret
        | |- agrees (craise _) (raise _) => apply agrees_raise
        | |- agrees (clift _) (lift _) => apply agrees_lift
        | |- agrees (c_exec dig n _ _) _ => apply IH; exact I
        | |- agrees (cbind (c_node_at _) _) _ => apply agrees_node; intros ? ?
        | |- agrees (cbind (c_schema_at _) _) _ => apply agrees_schema; intros ? ?
        | |- agrees (cbind _ _) _ => apply agrees_bind; [|intro]
        | |- agrees (match ?x with _ => _ end) (match ?x with _ => _ end) => destruct x eqn:?
        end).
      Lemma frag_agrees a r : val (w_heap w) a (PRef r) -> agrees (c_frag rec a r) (exec n addr (CQuery (r_schema r) (r_pointer r))).
      Proof.
        intros V c w' o R E N. pose proof (Runs_once auth dig strx fetch _ _ _ _ n E N) as Q. unfold c_frag. destruct (aget a (c_fragment c)) as [f|] eqn:G.
        - destruct (ev_det _ _ _ _ _ _ _ _ _ _ Q (proj1 R _ _ _ G V)) as [-> ->]. split; [reflexivity|]. eauto.
        - destruct (IH addr (CQuery (r_schema r) (r_pointer r)) I c w' o R E N) as (-> & c1 & -> & R1). split; [reflexivity|]. eexists. split; [reflexivity|]. destruct o as [f|e|]; auto.
          destruct R1 as [Ra Rb]. split; [|exact Rb]. cbn [c_fragment aget]. intros b g r' Gb Vb. destruct (Nat.eqb_spec b a) as [->|]; [|exact (Ra b g r' Gb Vb)].
          injection Gb as <-. pose proof (val_unique _ _ _ _ V Vb) as [= <-]. exact Q.
      Qed.
      Lemma items_agrees a : agrees (c_items rec a) (node_items (exec n) a).
      Proof. unfold c_items, node_items. go. Qed.
      Lemma type_agrees a : agrees (c_type rec a) (node_type (exec n) a).
      Proof. unfold c_type, node_type. go. apply frag_agrees. eexists; split; eassumption. Qed.
      Lemma raw_agrees a : agrees (c_raw rec a) (ref_raw (exec n) a).
      Proof.
        intros c w' o R E N. assert (Q : Runs (CRaw a) w w' o) by (apply (Runs_once auth dig strx fetch _ _ _ _ (S n)); [exact E|exact N]).
        revert c w' o R E N Q. unfold c_raw, ref_raw. intros c w' o R E N Q. unfold mbind at 1 in E. unfold node_at in E. unfold cbind at 1. unfold c_node_at.
        destruct (hget (w_heap w) a) as [m|] eqn:Hm; [|injection E as <- <-; split; [reflexivity|]; eauto].
        destruct (n_val m) as [| | | | | |r] eqn:Em; [idtac ..|]; try (injection E as <- <-; split; [reflexivity|]; eexists; split; [reflexivity|exact R]).
        unfold mbind, schema_at in E. unfold cbind, c_schema_at. destruct (nth_error (w_schemas w) (r_schema r)) as [x|] eqn:Hx; [|injection E as <- <-; split; [reflexivity|]; eauto].
        rewrite (Ready _ _ Hx) in *. destruct (aget a (c_value c)) as [y|] eqn:G.
        - destruct (ev_det _ _ _ _ _ _ _ _ _ _ Q (proj2 R _ _ G)) as [-> ->]. split; [reflexivity|]. eauto.
        - assert (K : agrees (c_ref_value rec a r) (f <~ exec n addr (CQuery (r_schema r) (r_pointer r)) ;; t <~ exec n jtype (CType f) ;;
            match t with
            | JObj => own <~ node_items (exec n) (r_node r) ;; tgt <~ node_items (exec n) f ;;
                let own' := filter (fun kx => negb (str_eqb (fst kx) (u "$ref"))) own in
                ret (RDict (fold_left (fun acc kx => dset (fst kx) (snd kx) acc) tgt (fold_left (fun acc kx => dset (fst kx) (snd kx) acc) own' [])))
            | _ => ret (RNode f)
            end)).
          { unfold c_ref_value. apply agrees_bind; [apply frag_agrees; eexists; split; eassumption|]. intro f. go; apply items_agrees. }
          destruct (K c w' o R E N) as (-> & c1 & -> & R1). split; [reflexivity|]. eexists. split; [reflexivity|]. destruct o as [y|e|]; auto.
          destruct R1 as [Ra Rb]. split; [exact Ra|]. cbn [c_value aget]. intros b g Gb. destruct (Nat.eqb_spec b a) as [->|]; [|exact (Rb b g Gb)]. injection Gb as <-. exact Q.
      Qed.
      Lemma eq_agrees a k : agrees (c_eq rec a k) (node_eq (exec n) a k).
      Proof. unfold c_eq, node_eq. go. Qed.
      Lemma any_eq_agrees l k : agrees (c_any_eq rec l k) (any_eq (exec n) l k).
      Proof. induction l as [|x l IHl]; cbn [c_any_eq any_eq]; go. exact IHl. Qed.
      Lemma has_agrees a k : agrees (c_has rec a k) (node_has (exec n) a k).
      Proof. unfold c_has, node_has. go. apply any_eq_agrees. Qed.
      Lemma get_agrees a k : agrees (c_get rec a k) (node_get (exec n) a k).
      Proof. unfold c_get, node_get. go. Qed.
      Lemma follow_agrees p : forall a, agrees (c_follow dig rec a p) (follow dig (exec n) a p).
      Proof. induction p as [|k p IHp]; intro a; cbn [c_follow follow]; go; apply IHp. Qed.
      Lemma query_agrees s p : agrees (c_query dig rec s p) (query dig (exec n) s p).
      Proof.
        intros c w' o R E N. unfold c_query, cbind, c_schema_at. destruct (nth_error (w_schemas w) s) as [x|] eqn:Hx.
        2: { unfold query, load, mbind, schema_at in E. rewrite Hx in E. injection E as <- <-. split; [reflexivity|]. eauto. }
        unfold query in E. unfold mbind at 1 in E. rewrite (load_ready w s x Hx (Ready _ _ Hx)) in E. unfold mbind, schema_at in E. rewrite Hx in E. rewrite (Ready _ _ Hx).
        revert c w' o R E N. change (agrees (match p with [k] => match dget k (s_anchors x) with Some a => cret a | None => if str_eqb k [] then cret (s_value x) else c_follow dig rec (s_value x) p end | _ => c_follow dig rec (s_value x) p end)
          (match p with [k] => match dget k (s_anchors x) with Some a => ret a | None => if str_eqb k [] then ret (s_value x) else follow dig (exec n) (s_value x) p end | _ => follow dig (exec n) (s_value x) p end)).
        destruct p as [|k [|k' p]]; go; apply follow_agrees.
      Qed.
    End Step.
    Lemma exec_agrees n : forall A (q : call A), reads q -> agrees (c_exec dig n A q) (exec n A q).
    Proof.
      induction n as [|n IH]; intros A q Hq; [intros c w' o _ [= <- <-] N; congruence|]. destruct q; cbn [c_exec c_step Doc.exec Doc.step]; [apply query_agrees|apply type_agrees|apply raw_agrees|apply has_agrees|apply get_agrees|apply eq_agrees|destruct Hq]; exact IH.
    Qed.
  End World.

  (** ** Nothing is edited *)
  Lemma right_empty w : right w no_caches.
  Proof. split; intros; discriminate. Qed.
  Lemma reads_only n l w log w' c' : all_loaded w ->
    Forall (fun x => match x with Read q => reads q /\ snd (exec n _ q w) <> OutOfFuel | Edit _ => False end) l ->
    reading dig n l w no_caches = (log, w', c') ->
    w' = w /\ forall A (q : call A) v o, In (Entry v q o) log -> v = w /\ Runs q w w o.
  Proof.
    intros Hw. generalize (right_empty w). generalize no_caches. intros c R Hl. revert c log w' c' R. induction Hl as [|x l Hx _ IH]; intros c log w' c' R E.
    - injection E as <- <- <-. split; [reflexivity|]. intros A q v o [].
    - destruct x as [A q|f]; [|destruct Hx]. destruct Hx as [Hq Hn]. cbn [reading] in E. destruct (exec n A q w) as [w1 o1] eqn:E1. cbn [snd] in Hn.
      destruct (exec_agrees w Hw n A q Hq c w1 o1 R E1 Hn) as (-> & c1 & Ec & R1). rewrite Ec in E. destruct (reading dig n l w c1) as [[log1 w2] c2] eqn:E2. injection E as <- <- <-.
      destruct (IH _ _ _ _ R1 E2) as [-> K]. split; [reflexivity|]. intros A' q' v o [H|H]; [|exact (K _ _ _ _ H)].
      assert (Q : Entry w q o1 = Entry v q' o -> v = w /\ Runs q' w w o); [|exact (Q H)]. clear H. intro H.
      pose (P := fun e => match e with Entry v0 q0 o0 => v0 = w /\ Runs q0 w w o0 end). change (P (Entry v q' o)). rewrite <- H. split; [reflexivity|]. exact (Runs_once auth dig strx fetch _ _ _ _ n E1 Hn).
  Qed.
  (** C107, for programs that edit first and read then: whatever has been read
      before, every read gives what the documents, as they are now, give without
      the caches. *)
  Theorem C107_partial n edits l w0 log w' c' : let w := fold_left (fun v f => f v) edits w0 in
    all_loaded w ->
    Forall (fun x => match x with Read q => reads q /\ snd (exec n _ q w) <> OutOfFuel | Edit _ => False end) l ->
    reading dig n (map Edit edits ++ l) w0 no_caches = (log, w', c') ->
    w' = w /\ forall A (q : call A) v o, In (Entry v q o) log -> v = w /\ Runs q w w o.
  Proof.
    cbn zeta. revert w0. induction edits as [|f edits IH]; intros w0 Hw Hl E; [exact (reads_only n l w0 log w' c' Hw Hl E)|]. exact (IH (f w0) Hw Hl E).
  Qed.

  (** ** Something is edited *)
  (** what is remembered stays *)
  Definition grows (c c' : caches) : Prop := (forall a f, aget a (c_fragment c) = Some f -> aget a (c_fragment c') = Some f) /\ (forall a x, aget a (c_value c) = Some x -> aget a (c_value c') = Some x).
  Lemma grows_refl c : grows c c. Proof. split; auto. Qed.
  Lemma grows_trans c1 c2 c3 : grows c1 c2 -> grows c2 c3 -> grows c1 c3. Proof. intros [A1 A2] [B1 B2]. split; auto. Qed.
  Definition keeps {A} (m : C A) : Prop := forall w c, grows c (fst (m w c)).
  Lemma keeps_bind {A B} (m : C A) (k : A -> C B) : keeps m -> (forall a, keeps (k a)) -> keeps (cbind m k).
  Proof. intros Hm Hk w c. unfold cbind. pose proof (Hm w c) as G. destruct (m w c) as [c1 [a|e|]]; cbn [fst] in *; auto. eapply grows_trans; [exact G|apply Hk]. Qed.
  Section Keeps.
    Variable rec : forall A, call A -> C A.
    Hypothesis IH : forall A (q : call A), keeps (rec A q).
    Ltac go := repeat (match goal with
      | |- keeps (cret _) => intros ? ?; apply grows_refl
      | |- keeps (craise _) => intros ? ?; apply grows_refl
      | |- keeps (clift _) => intros ? ?; apply grows_refl
      | |- keeps (c_node_at _) => intros ? ?; apply grows_refl
      | |- keeps (c_schema_at _) => intros ? ?; apply grows_refl
      | |- keeps (rec _ _) => apply IH
      | |- keeps (cbind _ _) => apply keeps_bind; [|intro]
      | |- keeps (match ?x with _ => _ end) => destruct x eqn:?
      end).
    Lemma frag_keeps a r : keeps (c_frag rec a r).
    Proof.
      intros w c. unfold c_frag. destruct (aget a (c_fragment c)) as [f|] eqn:G; [apply grows_refl|]. pose proof (IH addr (CQuery (r_schema r) (r_pointer r)) w c) as K.
      destruct (rec addr _ w c) as [c1 [f|e|]]; cbn [fst] in *; auto. destruct K as [K1 K2]. split; [|exact K2]. cbn [c_fragment aget]. intros b g Gb. destruct (Nat.eqb_spec b a) as [->|]; [congruence|auto].
    Qed.
    Lemma items_keeps a : keeps (c_items rec a).
    Proof. unfold c_items. go. Qed.
    Lemma raw_keeps a : keeps (c_raw rec a).
    Proof.
      unfold c_raw. go. intros w c. destruct (aget a (c_value c)) as [x|] eqn:G; [apply grows_refl|].
      assert (K : keeps (c_ref_value rec a r)) by (unfold c_ref_value; go; try apply frag_keeps; apply items_keeps). specialize (K w c).
      destruct (c_ref_value rec a r w c) as [c1 [x|e|]]; cbn [fst] in *; auto. destruct K as [K1 K2]. split; [exact K1|]. cbn [c_value aget]. intros b g Gb. destruct (Nat.eqb_spec b a) as [->|]; [congruence|auto].
    Qed.
    Lemma follow_keeps p : forall a, keeps (c_follow dig rec a p).
    Proof. induction p as [|k p IHp]; intro a; cbn [c_follow]; go; apply IHp. Qed.
    Lemma any_eq_keeps l k : keeps (c_any_eq rec l k).
    Proof. induction l as [|x l IHl]; cbn [c_any_eq]; go. exact IHl. Qed.
    Lemma step_keeps A (q : call A) : keeps (c_step dig rec A q).
    Proof.
      destruct q; cbn [c_step]; [unfold c_query|unfold c_type|apply raw_keeps|unfold c_has|unfold c_get|unfold c_eq|]; go; try apply follow_keeps; try apply frag_keeps; apply any_eq_keeps.
    Qed.
  End Keeps.
  Lemma exec_keeps n : forall A (q : call A), keeps (c_exec dig n A q).
  Proof. induction n as [|n IH]; intros A q; [intros w c; apply grows_refl|]. apply step_keeps, IH. Qed.
  Definition entry_ok (P : forall A, world -> call A -> res A -> Prop) (e : entry) : Prop := match e with Entry v q o => P _ v q o end.
  (** what a reference to an object answers once its members [d] are remembered *)
  Lemma remembered n a d c w r x A (q : call A) : aget a (c_value c) = Some (RDict d) -> val (w_heap w) a (PRef r) -> nth_error (w_schemas w) (r_schema r) = Some x -> s_ready x = true ->
    match q in call A return res A -> Prop with
    | CHas b k => fun o => b = a -> o = Ok (dict_has d k)
    | CGet b k => fun o => b = a -> o = dict_get d k
    | _ => fun _ => True
    end (snd (c_exec dig (S (S n)) A q w c)).
  Proof.
    intros G (m & Hm & Em) Hx Rx.
    assert (K : c_exec dig (S n) raw (CRaw a) w c = (c, Ok (RDict d))).
    { change (c_raw (c_exec dig n) a w c = (c, Ok (RDict d))). unfold c_raw, cbind, c_node_at, c_schema_at. rewrite Hm, Em, Hx, Rx, G. reflexivity. }
    destruct q; try exact I; intros ->.
    - change (snd (c_has (c_exec dig (S n)) a k w c) = Ok (dict_has d k)). unfold c_has, cbind at 1, c_node_at. rewrite Hm, Em. unfold cbind. rewrite K. reflexivity.
    - change (snd (c_get (c_exec dig (S n)) a k w c) = dict_get d k). unfold c_get, cbind at 1, c_node_at. rewrite Hm, Em. unfold cbind. rewrite K. reflexivity.
  Qed.
  Lemma remembered_reading n a d : forall l w c log w' c', reading dig (S (S n)) l w c = (log, w', c') -> aget a (c_value c) = Some (RDict d) ->
    forall v r x, val (w_heap v) a (PRef r) -> nth_error (w_schemas v) (r_schema r) = Some x -> s_ready x = true ->
    (forall k o, In (Entry v (CHas a k) o) log -> o = Ok (dict_has d k)) /\ (forall k o, In (Entry v (CGet a k) o) log -> o = dict_get d k).
  Proof.
    intros l w c log w' c' E G v r x Hv Hx Rx.
    pose (P := fun A v' (q : call A) (o : res A) => v' = v -> match q in call A return res A -> Prop with CHas b k => fun o => b = a -> o = Ok (dict_has d k) | CGet b k => fun o => b = a -> o = dict_get d k | _ => fun _ => True end o).
    assert (F : forall e, In e log -> entry_ok P e).
    { revert w c log w' c' E G. induction l as [|[A q|f] l IH]; intros w c log w' c' E G.
      - injection E as <- <- <-. intros e [].
      - cbn [reading] in E. destruct (c_exec dig (S (S n)) A q w c) as [c1 o1] eqn:E1. destruct (reading dig (S (S n)) l w c1) as [[log1 w2] c2] eqn:E2. injection E as <- <- <-.
        intros e [<-|H].
        + intros ->. pose proof (remembered n a d c v r x A q G Hv Hx Rx) as K. rewrite E1 in K. exact K.
        + refine (IH _ _ _ _ _ E2 _ e H). pose proof (exec_keeps (S (S n)) A q w c) as K. rewrite E1 in K. exact (proj2 K _ _ G).
      - exact (IH _ _ _ _ _ E G). }
    split; intros k o H; exact (F _ H eq_refl eq_refl).
  Qed.
  (** C107, what holds instead: once a reference to an object has been read, it
      answers with the members its target had then, whatever is edited later. *)
  Theorem C107_stale n a k0 d l w log w' c' : all_loaded w -> Runs (CRaw a) w w (Ok (RDict d)) -> snd (exec n _ (CHas a k0) w) <> OutOfFuel ->
    reading dig n (Read (CHas a k0) :: l) w no_caches = (log, w', c') ->
    forall v r x, val (w_heap v) a (PRef r) -> nth_error (w_schemas v) (r_schema r) = Some x -> s_ready x = true ->
    (forall k o, In (Entry v (CHas a k) o) log -> o = Ok (dict_has d k)) /\ (forall k o, In (Entry v (CGet a k) o) log -> o = dict_get d k).
  Proof.
    intros Hw Q N E.
    assert (P : exists r0 m, hget (w_heap w) a = Some m /\ n_val m = PRef r0).
    { destruct Q as [B Q]. specialize (Q (S B) (Nat.le_succ_diag_r B)). cbn [Doc.exec Doc.step] in Q. unfold ref_raw, mbind at 1, node_at in Q. destruct (hget (w_heap w) a) as [m|] eqn:Hm; [|discriminate]. destruct (n_val m) eqn:Em; try discriminate. eauto. }
    destruct P as (r0 & m & Hm & Em).
    destruct n as [|n]; [destruct N; reflexivity|]. change (snd (node_has (exec n) a k0 w) <> OutOfFuel) in N. unfold node_has, mbind at 1, node_at in N. rewrite Hm, Em in N.
    destruct n as [|n]; [destruct N; reflexivity|].
    assert (N2 : snd (exec (S n) raw (CRaw a) w) <> OutOfFuel) by (intro B; apply N; unfold mbind; destruct (exec (S n) raw (CRaw a) w) as [w1 o1]; cbn [snd] in B; subst o1; reflexivity).
    destruct (exec (S n) raw (CRaw a) w) as [w1 o1] eqn:E1. cbn [snd] in N2. pose proof (Runs_once auth dig strx fetch _ _ _ _ (S n) E1 N2) as Q1.
    destruct (ev_det _ _ _ _ _ _ _ _ _ _ Q1 Q) as [-> ->].
    destruct (exec_agrees w Hw (S n) raw (CRaw a) I no_caches w _ (right_empty w) E1 N2) as (_ & c1 & Ec & R1).
    assert (G : aget a (c_value c1) = Some (RDict d)).
    { change (c_raw (c_exec dig n) a w no_caches = (c1, Ok (RDict d))) in Ec. unfold c_raw, cbind at 1, c_node_at in Ec. rewrite Hm, Em in Ec. unfold cbind, c_schema_at in Ec.
      destruct (nth_error (w_schemas w) (r_schema r0)) as [x|]; [|discriminate]. destruct (s_ready x); [|discriminate]. cbn [no_caches c_value aget] in Ec.
      destruct (c_ref_value (c_exec dig n) a r0 w no_caches) as [c2 [y|e|]]; try discriminate. injection Ec as <- ->. cbn [c_value aget]. rewrite Nat.eqb_refl. reflexivity. }
    assert (E0 : c_exec dig (S (S n)) bool (CHas a k0) w no_caches = (c1, Ok (dict_has d k0))).
    { change (c_has (c_exec dig (S n)) a k0 w no_caches = (c1, Ok (dict_has d k0))). unfold c_has, cbind at 1, c_node_at. rewrite Hm, Em. unfold cbind. rewrite Ec. reflexivity. }
    cbn [reading] in E. rewrite E0 in E. destruct (reading dig (S (S n)) l w c1) as [[log1 w2] c2] eqn:E2. injection E as <- <- <-.
    intros v r x Hv Hx Rx. destruct (remembered_reading n a d l w c1 log1 w2 c2 E2 G v r x Hv Hx Rx) as [K1 K2].
    split; intros k o [H|H]; [|exact (K1 k o H)| |exact (K2 k o H)].
    - pose (T := fun e => match e with Entry _ q o0 => match q in call A return res A -> Prop with CHas _ k' => fun o' => o' = Ok (dict_has d k') | _ => fun _ => True end o0 end). change (T (Entry v (CHas a k) o)). rewrite <- H. reflexivity.
    - pose (T := fun e => match e with Entry _ q o0 => match q in call A return res A -> Prop with CGet _ k' => fun o' => o' = dict_get d k' | _ => fun _ => True end o0 end). change (T (Entry v (CGet a k) o)). rewrite <- H. exact I.
  Qed.
End RefCache.

(** ** A reference to an object, and edits of its target *)
Definition C107_value : pv := VDict [(u "a", VDict [(u "$ref", VStr (u "#/b"))]); (u "b", VDict [(u "x", VInt 1)])].
Definition C107_opened : world := fst (make_schema C107_value core (World [] [] [])).
Definition C107_world : world := fst (exec toy ex_dig (fun _ _ => []) (fun _ => Raise EUnmodelled) 12 _ (CQuery 0 [[]]) C107_opened).
Example C107_is : fit_document toy C107_value /\ opened (World [] [] []) C107_value 0 C107_opened /\
  forall strx fetch, Runs toy ex_dig strx fetch (CQuery 0 [[]]) C107_opened C107_world (Ok 0) /\
    Runs toy ex_dig strx fetch (CQuery 0 [u "a"]) C107_world C107_world (Ok 5) /\ Runs toy ex_dig strx fetch (CQuery 0 [u "b"]) C107_world C107_world (Ok 3).
Proof.
  split; [apply fit_documentb_ok; vm_compute; reflexivity|]. split; [vm_compute; reflexivity|]. intros strx fetch.
  split; [|split]; (apply (Runs_once _ _ _ _ _ _ _ _ 12); [vm_compute; reflexivity|discriminate]).
Qed.
(** The member ["y"] is set in the target after the reference was read: the
    reference does not have it, although the documents as they are now, read
    without the caches, say it has.  And after the target was replaced by a string
    the reference still says it is an object. *)
Theorem C107_refuted strx fetch n : let w1 := assign 3 (u "y") (VInt 2) C107_world in let w2 := assign 0 (u "b") (VStr (u "s")) w1 in
  exists c b, reading ex_dig (12 + n) [Read (CHas 5 (KS (u "x"))); Edit (assign 3 (u "y") (VInt 2)); Read (CHas 5 (KS (u "y"))); Read (CHas 3 (KS (u "y"))); Edit (assign 0 (u "b") (VStr (u "s"))); Read (CType 5)] C107_world no_caches
    = ([Entry C107_world (CHas 5 (KS (u "x"))) (Ok true); Entry w1 (CHas 5 (KS (u "y"))) (Ok false); Entry w1 (CHas 3 (KS (u "y"))) (Ok true); Entry w2 (CType 5) (Ok JObj)], w2, c) /\
  Runs toy ex_dig strx fetch (CHas 5 (KS (u "y"))) w1 w1 (Ok true) /\ Runs toy ex_dig strx fetch (CQuery 0 [u "b"]) w2 w2 (Ok b) /\ holds (w_heap w2) b (VStr (u "s")) /\ Runs toy ex_dig strx fetch (CType 5) w2 w2 (Ok JStr).
Proof.
  cbn zeta. eexists. exists 7. split; [vm_compute; reflexivity|].
  split; [apply (Runs_once _ _ _ _ _ _ _ _ 12); [vm_compute; reflexivity|discriminate]|].
  split; [apply (Runs_once _ _ _ _ _ _ _ _ 12); [vm_compute; reflexivity|discriminate]|].
  split; [eapply h_str; eexists; split; vm_compute; reflexivity|apply (Runs_once _ _ _ _ _ _ _ _ 12); [vm_compute; reflexivity|discriminate]].
Qed.
(** the hypotheses of the other theorems: the target is edited before the first read *)
Example C107_some strx fetch : let w1 := assign 3 (u "y") (VInt 2) C107_world in
  all_loaded w1 /\ Runs toy ex_dig strx fetch (CRaw 5) C107_world C107_world (Ok (RDict [(u "x", 4)])) /\ all_loaded C107_world /\
  (exists r x, val (w_heap w1) 5 (PRef r) /\ nth_error (w_schemas w1) (r_schema r) = Some x /\ s_ready x = true) /\
  Forall (fun x => match x with Read q => reads q /\ snd (exec toy ex_dig strx fetch 12 _ q w1) <> OutOfFuel | Edit _ => False end) [Read (CHas 5 (KS (u "x"))); Read (CGet 5 (KS (u "y")))] /\
  exists c, reading ex_dig 12 (map Edit [assign 3 (u "y") (VInt 2)] ++ [Read (CHas 5 (KS (u "x"))); Read (CGet 5 (KS (u "y")))]) C107_world no_caches
    = ([Entry w1 (CHas 5 (KS (u "x"))) (Ok true); Entry w1 (CGet 5 (KS (u "y"))) (Ok 6)], w1, c).
Proof.
  cbn zeta. assert (L : forall w, w_schemas w = [Schema 0 true core [] None] -> all_loaded w) by (intros w E s x; rewrite E; destruct s as [|[|s]]; [intros [= <-]; reflexivity|discriminate..]).
  split; [apply L; vm_compute; reflexivity|]. split; [apply (Runs_once _ _ _ _ _ _ _ _ 12); [vm_compute; reflexivity|discriminate]|]. split; [apply L; vm_compute; reflexivity|].
  split; [do 2 eexists; split; [eexists; split; vm_compute; reflexivity|]; split; reflexivity|].
  split; [repeat constructor; vm_compute; discriminate|]. eexists. vm_compute. reflexivity.
Qed.
Print Assumptions C107_partial. Print Assumptions C107_stale. Print Assumptions C107_refuted.
