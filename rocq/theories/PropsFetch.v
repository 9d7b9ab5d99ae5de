(** C83: a document that is in the store is not fetched again. *)
From Verif Require Import PyBase PyBaseFacts PyVal OrderFacts Regex Numbers Uri Pointer PropsPointer Store Validators Heap HeapFacts PropsWrap PropsPlaces PropsUriEx Doc DocMono DocFacts PropsQuery DocLoad PropsLoad DocDocument PropsAnchor PropsRef PropsRefEdge DocLibrary DocReading PropsRemote PropsRemoteEx.
Local Open Scope nat_scope.
Local Notation length := List.length (only parsing).

(** A new node is no reference. *)
Definition no_ref (n : node) : Prop := forall r, n_val n <> PRef r.
Lemma wrap_no_ref v : forall base p k, Forall no_ref (wrap base p k v).
Proof.
  induction v as [v Hl Hd|l IH|d IH] using pv_ind_deep; intros base p key.
  - destruct v; try (exfalso; eapply Hl; reflexivity); try (exfalso; eapply Hd; reflexivity); (cbn; apply Forall_cons; [intro r; cbn; discriminate|apply Forall_nil]).
  - rewrite wrap_list. apply Forall_cons; [intro r; cbn; discriminate|]. generalize (S base) as b, 0 as i. induction IH as [|x l Hx _ IH]; intros b i; [apply Forall_nil|]. rewrite wrap_elems_cons. cbn [snd]. apply Forall_app. split; [apply Hx|apply IH].
  - rewrite wrap_dict. apply Forall_cons; [intro r; cbn; discriminate|]. generalize (S base) as b. induction IH as [|[k x] d Hx _ IH]; intros b; [apply Forall_nil|]. rewrite wrap_items_cons. cbn [snd]. apply Forall_app. split; [apply Hx|apply IH].
Qed.

Section Fetch.
  Variables (auth : pystr -> option authority) (dig : N -> option Z) (strx : heap -> addr -> pystr).
  (** The document of every reference with a base URI is in the store. *)
  Definition in_store (w : world) (v : uri) : Prop := forall b, base_uri auth v = Ok b -> uri_bool b = true -> dmem (uri_text b) (w_store w) = true.
  Definition refs_in (w : world) : Prop := forall a n r, hget (w_heap w) a = Some n -> n_val n = PRef r -> in_store w (r_uri r).
  Lemma dmem_dset {A} k j (x : A) l : dmem k l = true -> dmem k (dset j x l) = true.
  Proof. rewrite !dmem_get. rewrite dget_dset. destruct (str_eqb k j); [reflexivity|auto]. Qed.

  Section Two.
    Variables fetch fetch' : uri -> res pv.
    Variable K : pystr -> Prop.
    Hypothesis Off : forall v b, base_uri auth v = Ok b -> ~ K (uri_text b) -> fetch' v = fetch v.
    Definition holds_keys (w : world) : Prop := forall k, K k -> dmem k (w_store w) = true.
    Definition same {A} (m m' : M A) : Prop := forall w, holds_keys w -> m' w = m w /\ holds_keys (fst (m w)) /\ (refs_in w -> refs_in (fst (m w))).
    Definition quiet {A} (m : M A) : Prop := forall w, fst (m w) = w.
    Lemma same_quiet {A} (m : M A) : quiet m -> same m m.
    Proof. intros Q w H. rewrite Q. auto. Qed.
    Lemma same_bind {A B} (m m' : M A) (k k' : A -> M B) : same m m' -> (forall a, same (k a) (k' a)) -> same (mbind m k) (mbind m' k').
    Proof.
      intros Hm Hk w H. destruct (Hm w H) as (E & H1 & R1). unfold mbind. rewrite E. destruct (m w) as [w1 [a|e|]]; cbn [fst] in *; [|auto..].
      destruct (Hk a w1 H1) as (E2 & H2 & R2). auto.
    Qed.
    Lemma same_mmap {A B} (f f' : A -> M B) l : (forall x, same (f x) (f' x)) -> same (mmap f l) (mmap f' l).
    Proof. intro H. induction l as [|x l IH]; cbn [mmap]; [apply same_quiet; intro; reflexivity|]. apply same_bind; [apply H|]. intro y. apply same_bind; [exact IH|]. intro ys. apply same_quiet. intro. reflexivity. Qed.
    Lemma q_ret {A} (a : A) : quiet (ret a). Proof. intro. reflexivity. Qed.
    Lemma q_raise {A} e : quiet (@raise A e). Proof. intro. reflexivity. Qed.
    Lemma q_lift {A} (r : res A) : quiet (lift r). Proof. intro. reflexivity. Qed.
    Lemma q_node a : quiet (node_at a). Proof. intro w. unfold node_at. destruct hget; reflexivity. Qed.
    Lemma q_schema s : quiet (schema_at s). Proof. intro w. unfold schema_at. destruct nth_error; reflexivity. Qed.
    Lemma q_world : quiet get_world. Proof. intro. reflexivity. Qed.
    Lemma q_str a : quiet (node_str strx a). Proof. intro w. unfold node_str. destruct hget as [[[] ? ?]|]; reflexivity. Qed.
    Lemma same_store_only {A} (m : M A) : (forall w, w_heap (fst (m w)) = w_heap w /\ forall k, dmem k (w_store w) = true -> dmem k (w_store (fst (m w))) = true) -> same m m.
    Proof.
      intros Q w H. destruct (Q w) as [Eh Es]. split; [reflexivity|]. split; [intros k Kk; auto|]. intros R a n r Hn En b Bu Bb. rewrite Eh in Hn. apply Es. exact (R a n r Hn En b Bu Bb).
    Qed.
    Lemma s_put k s : same (store_put k s) (store_put k s).
    Proof. apply same_store_only. intro w. split; [reflexivity|]. intros j. apply dmem_dset. Qed.
    Lemma s_set_schema s x : same (set_schema s x) (set_schema s x).
    Proof. apply same_store_only. intro w. split; [reflexivity|auto]. Qed.
    Lemma s_add_schema x : same (add_schema x) (add_schema x).
    Proof. apply same_store_only. intro w. split; [reflexivity|auto]. Qed.
    Lemma s_set_obj a d : same (set_value a (PObj d)) (set_value a (PObj d)).
    Proof.
      intros w H. split; [reflexivity|]. split; [exact H|]. intros R x n r Hn En. cbn [fst set_value w_heap] in Hn. rewrite hget_hset in Hn. destruct (Nat.eqb_spec a x) as [->|Nx].
      - destruct (hget (w_heap w) x); [|discriminate Hn]. injection Hn as <-. discriminate En.
      - exact (R x n r Hn En).
    Qed.
    Lemma s_new v : same (wrap_new v) (wrap_new v).
    Proof.
      intros w H. split; [reflexivity|]. split; [exact H|]. intros R x n r Hn En. cbn [fst wrap_new new w_heap] in Hn. unfold hget in Hn. destruct (Nat.lt_ge_cases x (length (w_heap w))) as [L|L].
      - rewrite nth_error_app1 in Hn by exact L. exact (R x n r Hn En).
      - rewrite nth_error_app2 in Hn by exact L. apply nth_error_In in Hn. pose proof (wrap_no_ref v (length (w_heap w)) None []) as F. rewrite Forall_forall in F. destruct (F n Hn r En).
    Qed.
    Create HintDb fetches.
    Hint Resolve q_ret q_raise q_lift q_node q_schema q_world q_str : fetches.
    Hint Resolve s_put s_set_schema s_add_schema s_set_obj s_new : fetches.
    Lemma s_make v voc : same (make_schema v voc) (make_schema v voc).
    Proof. unfold make_schema. destruct v; first [solve [apply same_quiet; auto with fetches nocore]|apply same_bind; [apply s_new|intro; apply s_add_schema]]. Qed.
    Lemma s_load_ref v voc a p b up key : base_uri auth v = Ok b ->
      same (mbind (store_load auth fetch v voc) (fun d => alloc (Node (PRef (RefData v a d p)) up key)))
           (mbind (store_load auth fetch' v voc) (fun d => alloc (Node (PRef (RefData v a d p)) up key))).
    Proof.
      intros Bu w H.
      assert (Al : forall s w1, (refs_in w -> refs_in w1) -> dmem (uri_text b) (w_store w1) = true -> refs_in w -> refs_in (fst (alloc (Node (PRef (RefData v a s p)) up key) w1))).
      { intros s w1 R D R0 x n r Hn En. specialize (R R0). cbn [fst alloc w_heap] in Hn. unfold hget in Hn. destruct (Nat.lt_ge_cases x (length (w_heap w1))) as [L|L].
        - rewrite nth_error_app1 in Hn by exact L. exact (R x n r Hn En).
        - rewrite nth_error_app2 in Hn by exact L. destruct (x - length (w_heap w1)) as [|[|j]]; [|discriminate..]. injection Hn as <-. injection En as <-. intros b' Bu' _. cbn [r_uri] in Bu'. rewrite Bu in Bu'. injection Bu' as <-. exact D. }
      unfold store_load, store_key, key_of. rewrite Bu. cbn [bind].
      unfold mbind, lift, get_world. destruct (dget (uri_text b) (w_store w)) as [s|] eqn:G.
      - cbn [ret]. split; [reflexivity|]. split; [exact H|]. apply Al; [auto|]. rewrite dmem_get, G. reflexivity.
      - assert (E : fetch' v = fetch v). { apply (Off v b Bu). intro Kb. specialize (H _ Kb). rewrite dmem_get, G in H. discriminate. }
        rewrite E. destruct (match fetch v with Raise EFileNotFound => Raise ELoad | r => r end) as [x|e|]; [|split; [reflexivity|]; split; auto..].
        destruct (s_make x voc w H) as (_ & H1 & R1). destruct (make_schema x voc w) as [w1 [s|e|]]; cbn [fst] in *; [|split; [reflexivity|]; split; auto..].
        cbn [store_put ret]. split; [reflexivity|]. destruct (s_put (uri_text b) s w1 H1) as (_ & H2 & R2). split; [exact H2|]. apply Al; [auto|]. cbn [store_put fst w_store]. rewrite dmem_get, dget_dset, str_eqb_refl. reflexivity.
    Qed.

    Section Step.
      Variables (f g : forall A, call A -> M A) (H : forall A (c : call A), same (f A c) (g A c)).
      Ltac go := repeat (first
        [ solve [auto 2 with fetches nocore]
        | lazymatch goal with |- same ?x ?x => solve [apply same_quiet; auto 2 with fetches nocore] end
        | match goal with
          | |- same (f _ _) _ => apply H
          | |- same (mbind _ _) _ => apply same_bind; [|intro]
          | |- same (mmap _ _) _ => apply same_mmap; intro
          end
        | match goal with |- same (match ?x with _ => _ end) (match ?x with _ => _ end) => destruct x end ]).
      Lemma s_items a : same (node_items f a) (node_items g a).
      Proof. unfold node_items. go. Qed.
      Hint Resolve s_items : fetches.
      Lemma s_type a : same (node_type f a) (node_type g a).
      Proof. unfold node_type. go. Qed.
      Hint Resolve s_type : fetches.
      Lemma s_raw a : same (ref_raw f a) (ref_raw g a).
      Proof. unfold ref_raw. go. Qed.
      Hint Resolve s_raw : fetches.
      Lemma s_eq a k : same (node_eq f a k) (node_eq g a k).
      Proof. unfold node_eq. go. Qed.
      Hint Resolve s_eq : fetches.
      Lemma s_any_eq l k : same (any_eq f l k) (any_eq g l k).
      Proof. induction l; cbn; go; exact IHl. Qed.
      Hint Resolve s_any_eq : fetches.
      Lemma s_has a k : same (node_has f a k) (node_has g a k).
      Proof. unfold node_has. go. Qed.
      Hint Resolve s_has : fetches.
      Lemma s_get a k : same (node_get f a k) (node_get g a k).
      Proof. unfold node_get. go. Qed.
      Hint Resolve s_get : fetches.
      Lemma s_member a k : same (member_str strx f a k) (member_str strx g a k).
      Proof. unfold member_str. go. Qed.
      Hint Resolve s_member : fetches.
      (* after a computation that raises or gives a known value *)
      Lemma same_lift {A B} (r : res A) (k k' : A -> M B) : (forall a, r = Ok a -> same (k a) (k' a)) -> same (mbind (lift r) k) (mbind (lift r) k').
      Proof. intros Hk w Hw. unfold mbind, lift. destruct r as [a|e|]; [exact (Hk a eq_refl w Hw)|auto..]. Qed.
      Lemma s_ref s a : same (apply_ref auth strx fetch f s a) (apply_ref auth strx fetch' g s a).
      Proof.
        unfold apply_ref. apply same_bind; [apply s_member|intro t]. apply same_bind; [go|intro v]. apply same_bind; [go|intro p]. apply same_lift. intros b Bu. apply same_bind; [go|intro n].
        destruct (uri_bool b) eqn:Bb; [apply same_bind; [go|intro x]; apply s_load_ref with (b := b); exact Bu|].
        intros w Hw. split; [reflexivity|]. split; [exact Hw|]. intros R x m r Hm Em. cbn [fst alloc w_heap] in Hm. unfold hget in Hm. destruct (Nat.lt_ge_cases x (length (w_heap w))) as [L|L].
        - rewrite nth_error_app1 in Hm by exact L. exact (R x m r Hm Em).
        - rewrite nth_error_app2 in Hm by exact L. destruct (x - length (w_heap w)) as [|[|j]]; [|discriminate..]. injection Hm as <-. injection Em as <-. intros b' Bu' Bb'. cbn [r_uri] in Bu'. rewrite Bu in Bu'. injection Bu' as <-. congruence.
      Qed.
      Hint Resolve s_ref : fetches.
      Lemma s_anchor s a : same (apply_anchor strx f s a) (apply_anchor strx g s a).
      Proof. unfold apply_anchor. go. Qed.
      Hint Resolve s_anchor : fetches.
      Lemma s_idt a : same (id_text strx f a) (id_text strx g a).
      Proof. unfold id_text. go. Qed.
      Hint Resolve s_idt : fetches.
      Lemma s_contains v : same (store_contains auth v) (store_contains auth v).
      Proof. unfold store_contains, store_key. go. Qed.
      Lemma s_add v s : same (store_add auth v s) (store_add auth v s).
      Proof. unfold store_add, store_key. go. Qed.
      Hint Resolve s_contains s_add : fetches.
      Lemma s_id s a : same (apply_id auth strx f s a) (apply_id auth strx g s a).
      Proof. unfold apply_id. go. Qed.
      Hint Resolve s_id : fetches.
      Lemma s_any_has a ks : same (any_has f a ks) (any_has g a ks).
      Proof. induction ks; cbn; go; exact IHks. Qed.
      Hint Resolve s_any_has : fetches.
      Lemma s_kw k s a : same (apply_kw auth strx fetch f k s a) (apply_kw auth strx fetch' g k s a).
      Proof. destruct k; cbn; go. Qed.
      Hint Resolve s_kw : fetches.
      Lemma s_kws ks : forall s a, same (apply_kws auth strx fetch f ks s a) (apply_kws auth strx fetch' g ks s a).
      Proof. induction ks; intros; cbn; go. Qed.
      Hint Resolve s_kws : fetches.
      Lemma s_process s a : same (process auth strx fetch f s a) (process auth strx fetch' g s a).
      Proof. unfold process. go. Qed.
      Lemma s_load s : same (load f s) (load g s).
      Proof. unfold load. go. Qed.
      Hint Resolve s_load : fetches.
      Lemma s_follow p : forall a, same (follow dig f a p) (follow dig g a p).
      Proof. induction p as [|k p IH]; intro a; cbn [follow]; [go|]. apply same_bind; [apply H|intros []]; try (apply same_quiet; apply q_raise); [destruct (py_int dig k); [|apply same_quiet; apply q_raise]|]; (apply same_bind; [apply H|intro; apply IH]). Qed.
      Hint Resolve s_follow : fetches.
      Lemma s_query s p : same (query dig f s p) (query dig g s p).
      Proof. unfold query. go. Qed.
      Lemma s_step A (c : call A) : same (step auth dig strx fetch f A c) (step auth dig strx fetch' g A c).
      Proof. destruct c; cbn [step]; [apply s_query|apply s_type|apply s_raw|apply s_has|apply s_get|apply s_eq|apply s_process]. Qed.
    End Step.
    Lemma s_exec n : forall A (c : call A), same (exec auth dig strx fetch n A c) (exec auth dig strx fetch' n A c).
    Proof. induction n as [|n IH]; intros A c; cbn [exec]; [apply same_quiet; intro; reflexivity|apply s_step, IH]. Qed.
    Lemma ev_same {A} (f f' : (forall T, call T -> M T) -> M A) w w' r : (forall n, same (f (exec auth dig strx fetch n)) (f' (exec auth dig strx fetch' n))) -> holds_keys w -> ev auth dig strx fetch f w w' r ->
      ev auth dig strx fetch' f' w w' r /\ holds_keys w' /\ (refs_in w -> refs_in w').
    Proof.
      intros Sa Hw (n & E). split.
      - exists n. intros m L. destruct (Sa m w Hw) as (E' & _). rewrite E'. exact (E m L).
      - destruct (Sa n w Hw) as (_ & R). rewrite (E n (le_n n)) in R. exact R.
    Qed.
    Lemma runs_same {A} (c : call A) w w' r : holds_keys w -> Runs auth dig strx fetch c w w' r -> Runs auth dig strx fetch' c w w' r /\ holds_keys w' /\ (refs_in w -> refs_in w').
    Proof. apply (ev_same (fun rec => rec A c) (fun rec => rec A c)). intro n. apply s_exec. Qed.
    Lemma act_same ok d d' : holds_keys (d_world d) -> act auth dig strx fetch ok d d' -> act auth dig strx fetch' ok d d' /\ holds_keys (d_world d') /\ (refs_in (d_world d) -> refs_in (d_world d')).
    Proof.
      intros Hw Ac. destruct Ac as [w D N V s w' So O|w D N s V w' r I R Nr|w D N s V p w' r I R Nr|w D N a w' r I R Nr|w D N a w' r I R Nr|w D N a k w' r I R Nr|w D N a k w' r I R Nr|w D N a k w' r I R Nr]; cbn [d_world] in *.
      - destruct (s_make V core w Hw) as (_ & Z). unfold opened in O. rewrite O in Z. split; [constructor; assumption|exact Z].
      - destruct (ev_same (fun rec => load rec s) (fun rec => load rec s) w w' r ltac:(intro n; apply s_load; intros; apply s_exec) Hw R) as [R' Z]. split; [econstructor; eassumption|exact Z].
      - destruct (runs_same _ _ _ _ Hw R) as [R' Z]. split; [econstructor; eassumption|exact Z].
      - destruct (runs_same _ _ _ _ Hw R) as [R' Z]. split; [econstructor; eassumption|exact Z].
      - destruct (ev_same (fun rec => node_items rec a) (fun rec => node_items rec a) w w' r ltac:(intro n; apply s_items; intros; apply s_exec) Hw R) as [R' Z]. split; [econstructor; eassumption|exact Z].
      - destruct (runs_same _ _ _ _ Hw R) as [R' Z]. split; [econstructor; eassumption|exact Z].
      - destruct (runs_same _ _ _ _ Hw R) as [R' Z]. split; [eapply a_has; eassumption|exact Z].
      - destruct (runs_same _ _ _ _ Hw R) as [R' Z]. split; [eapply a_eq; eassumption|exact Z].
    Qed.
    Lemma history_same ok d d' : history auth dig strx fetch ok d d' -> holds_keys (d_world d) -> history auth dig strx fetch' ok d d' /\ holds_keys (d_world d') /\ (refs_in (d_world d) -> refs_in (d_world d')).
    Proof.
      induction 1 as [d|d d1 d2 _ IH Ac]; intro Hw; [split; [constructor|auto]|]. destruct (IH Hw) as (H1 & K1 & R1). destruct (act_same ok d1 d2 K1 Ac) as (A2 & K2 & R2). split; [eapply hs_then; eassumption|auto].
    Qed.
  End Two.

  (** ** C83 *)
  (** What is in the store stays there. *)
  Theorem C83_kept fetch ok d d' k : history auth dig strx fetch ok d d' -> dmem k (w_store (d_world d)) = true -> dmem k (w_store (d_world d')) = true.
  Proof. intros H D. destruct (history_same fetch fetch (fun j => j = k) ltac:(reflexivity) ok d d' H) as (_ & K & _); [intros j ->; exact D|]. apply K. reflexivity. Qed.
  (** A loader that answers otherwise for documents in the store makes no difference
      to anything that happens later. *)
  Theorem C83 fetch fetch' ok d d' : (forall v b, base_uri auth v = Ok b -> dmem (uri_text b) (w_store (d_world d)) = false -> fetch' v = fetch v) ->
    history auth dig strx fetch ok d d' <-> history auth dig strx fetch' ok d d'.
  Proof.
    intro L. set (K := fun k => dmem k (w_store (d_world d)) = true). assert (Off : forall v b, base_uri auth v = Ok b -> ~ K (uri_text b) -> fetch' v = fetch v). { intros v b Bu Nk. apply (L v b Bu). destruct (dmem _ _) eqn:E; [destruct (Nk E)|reflexivity]. }
    split; intro H.
    - destruct (history_same fetch fetch' K Off ok d d' H) as (Z & _); [intros k Kk; exact Kk|exact Z].
    - destruct (history_same fetch' fetch K ltac:(intros; symmetry; eauto) ok d d' H) as (Z & _); [intros k Kk; exact Kk|exact Z].
  Qed.
  (** The document of every reference is in the store: once there is a reference
      to it, the loader is not asked for it again. *)
  Theorem C83_referenced fetch ok w d : w_heap w = [] -> history auth dig strx fetch ok (Desk w [] []) d -> refs_in (d_world d).
  Proof.
    intros E H. destruct (history_same fetch fetch (fun _ => False) ltac:(reflexivity) ok _ d H) as (_ & _ & R); [intros k []|]. apply R. intros a n r Hn. cbn [d_world] in Hn. rewrite E in Hn. destruct a; discriminate.
  Qed.
  Theorem C83_once fetch fetch' ok w d d' : w_heap w = [] -> history auth dig strx fetch ok (Desk w [] []) d ->
    (forall v, fetch' v = fetch v \/ exists a n r b, hget (w_heap (d_world d)) a = Some n /\ n_val n = PRef r /\ base_uri auth (r_uri r) = Ok b /\ uri_bool b = true /\ base_uri auth v = Ok b) ->
    history auth dig strx fetch ok d d' <-> history auth dig strx fetch' ok d d'.
  Proof.
    intros E H Df. apply C83. intros v b Bu Nm. destruct (Df v) as [Q|(a & n & r & b' & Hn & En & B1 & B2 & B3)]; [exact Q|exfalso]. rewrite Bu in B3. injection B3 as <-.
    rewrite (C83_referenced fetch ok w d E H a n r Hn En b B1 B2) in Nm. discriminate.
  Qed.
End Fetch.

(** the cases: after the third document was loaded, the loader may forget the first *)
Example C83_some strx : exists d a n r b, history toy ex_dig strx (from ex_shelf) (fun _ => True) (Desk start_world [] []) d /\
  hget (w_heap (d_world d)) a = Some n /\ n_val n = PRef r /\ base_uri toy (r_uri r) = Ok b /\ uri_bool b = true /\ dmem (uri_text b) (w_store (d_world d)) = true.
Proof.
  eexists. exists 11. do 3 eexists. split; [|split; [|split; [|split; [|split]]]].
  - eapply hs_then; [eapply hs_then; [apply hs_none|]|].
    + apply (a_open _ _ _ _ _ _ [] [] ex_m 0); [exact I|reflexivity].
    + eapply (a_load _ _ _ _ _ _ _ _ 0 ex_m); [left; reflexivity|apply (ev_once _ _ _ _ (fun rec => load rec 0) _ _ _ 8); [intros; apply mono_load; assumption|vm_compute; reflexivity|discriminate]|discriminate].
  - reflexivity.
  - reflexivity.
  - vm_compute. reflexivity.
  - reflexivity.
  - vm_compute. reflexivity.
Qed.
