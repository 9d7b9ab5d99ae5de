(** C39, C40, C41: places of nodes and objects as ordered maps, under edits. *)
From Verif Require Import PyBase PyBaseFacts PyVal Validators OrderFacts Numbers Uri Heap HeapFacts.
From Coq Require Import Sorted.
Local Open Scope nat_scope.
Local Notation length := List.length (only parsing).

Lemma Forall2_mono {A B} (R S : A -> B -> Prop) l m : (forall x y, R x y -> S x y) -> Forall2 R l m -> Forall2 S l m.
Proof. intros H F. induction F; constructor; auto. Qed.
(** ** Histories *)
Inductive edit :=
| ENew (v : pv)                              (* wrap a new document *)
| ESet (a : addr) (k : pystr) (v : pv)       (* node[k] = plain value *)
| EDel (a : addr) (k : pystr)                (* del node[k] *)
| ESetNode (a : addr) (k : pystr) (x : addr) (* node[k] = another node *)
| EArrDel (a : addr) (i : Z).                (* del array[i] *)
(** a failing edit leaves everything as it was *)
Definition edited (h : heap) (e : edit) : heap :=
  let keep (r : res heap) := match r with Ok h' => h' | _ => h end in
  match e with
  | ENew v => snd (new h v)
  | ESet a k v => keep (obj_set h a k v)
  | EDel a k => keep (obj_del h a k)
  | ESetNode a k x => keep (obj_set_node h a k x)
  | EArrDel a i => keep (arr_del h a i)
  end.
Definition history (h : heap) (es : list edit) : heap := fold_left edited es h.
Lemma history_snoc h es e : history h (es ++ [e]) = edited (history h es) e.
Proof. unfold history. rewrite fold_left_app. reflexivity. Qed.

(** ** C40 *)
Definition plain_edit (e : edit) : Prop := match e with ENew _ | ESet _ _ _ | EDel _ _ => True | _ => False end.
Lemma obj_items_val h a d : obj_items h a = Ok d <-> exists n, hget h a = Some n /\ n_val n = PObj d.
Proof.
  unfold obj_items. destruct (hget h a) as [[[] p k]|]; split; try discriminate; try (intros (n & [= <-] & H); cbn in H; congruence); try (intros (n & H & _); discriminate).
  intros [= ->]. eauto.
Qed.
Lemma In_dset {A} k (c : A) k0 x d : In (k, c) (dset k0 x d) -> (k = k0 /\ c = x) \/ In (k, c) d.
Proof.
  induction d as [|[k1 c1] d IH]; cbn; [intros [[= <- <-]|[]]; auto|]. destruct (str_eqb_spec k0 k1) as [->|]; intros [[= <- <-]|H]; auto. destruct (IH H); auto.
Qed.
Lemma In_ddel {A} k (c : A) k0 d : In (k, c) (ddel k0 d) -> In (k, c) d.
Proof. induction d as [|[k1 c1] d IH]; cbn; [tauto|]. destruct (str_eqb k0 k1); cbn; [auto|]. intros [|]; auto. Qed.
Lemma linked_edited h e : plain_edit e -> linked h -> linked (edited h e).
Proof.
  destruct e as [v|a k v|a k|a k x|a i]; cbn [plain_edit edited]; intros P L; try contradiction.
  - unfold new; cbn [snd]. apply linked_grow; [discriminate|exact L].
  - unfold obj_set. destruct (obj_items h a) as [d|?|] eqn:E; cbn [bind]; try exact L.
    apply obj_items_val in E as (n & Hn & Hd). pose proof (hget_lt _ _ _ Hn) as Lt.
    apply linked_hset; [apply linked_grow; [intros q [= <-]; exact Lt|exact L]|].
    intros k' c Hc. inversion Hc as [? ? ? Hin|]; subst. apply In_dset in Hin as [[-> ->]|Hin].
    + eapply placed_head, placed_end.
    + destruct (L a (Nat.le_0_l _) Lt) as (n' & Hn' & _ & HL). assert (n' = n) as -> by congruence.
      destruct (HL k' c) as (m & Hm & K); [rewrite Hd; constructor; exact Hin|]. exists m. split; [apply hget_app1, Hm|exact K].
  - unfold obj_del. destruct (obj_items h a) as [d|?|] eqn:E; cbn [bind]; try exact L. destruct (dmem k d); [|exact L].
    apply obj_items_val in E as (n & Hn & Hd). pose proof (hget_lt _ _ _ Hn) as Lt. apply linked_hset; [exact L|].
    intros k' c Hc. inversion Hc as [? ? ? Hin|]; subst. apply In_ddel in Hin.
    destruct (L a (Nat.le_0_l _) Lt) as (n' & Hn' & _ & HL). assert (n' = n) as -> by congruence. apply HL. rewrite Hd. constructor. exact Hin.
Qed.
Lemma linked_history es h : Forall plain_edit es -> linked h -> linked (history h es).
Proof. revert h. induction es as [|e es IH]; intros h F L; [exact L|]. inversion F; subst. cbn. apply IH; [assumption|]. apply linked_edited; assumption. Qed.
Lemma linked_nil : linked [].
Proof. intros a _ H. cbn in H. lia. Qed.

(** After any history of new documents, plain assignments and deletions, what a
    walk from a document's root reaches has exactly that walk as its path *)
Theorem C40_places es r p b : Forall plain_edit es -> let h := history [] es in
  is_root h r = true -> walk h r p b -> node_path h b = Ok p /\ node_root h b = Ok r.
Proof.
  intros F h R W. apply walk_path; [apply linked_history; [exact F|apply linked_nil]| |exact W].
  unfold is_root in R. destruct (hget h r) as [n|]; [|discriminate]. exists n. split; [reflexivity|]. destruct (n_parent n); [discriminate|reflexivity].
Qed.
(** so no node has two places *)
Theorem C40_one_place es r p q b : Forall plain_edit es -> let h := history [] es in
  is_root h r = true -> walk h r p b -> walk h r q b -> p = q.
Proof. intros F h R W1 W2. destruct (C40_places es r p b F R W1) as [H1 _]. destruct (C40_places es r q b F R W2) as [H2 _]. subst h. congruence. Qed.
Definition C40_edits : list edit :=
  [ENew (VDict [(u "a", VDict [(u "b", VInt 1)]); (u "c", VNone)]); ESet 1 (u "d") (VList [VNone; VDict [(u "e", VBool true)]]); EDel 0 (u "c"); EDel 1 (u "b"); ESet 1 (u "b") (VStr (u "x"))].
Example C40_some : Forall plain_edit C40_edits /\ let h := history [] C40_edits in
  is_root h 0 = true /\ walk h 0 [u "a"; u "d"; u "1"; u "e"] 7 /\ node_path h 7 = Ok [u "a"; u "d"; u "1"; u "e"] /\
  walk h 0 [u "a"; u "b"] 8 /\ obj_keys h 1 = Ok [u "d"; u "b"] /\ obj_has h 0 (u "c") = Ok false.
Proof.
  split; [repeat constructor|]. cbv zeta. split; [vm_compute; reflexivity|].
  split. { eapply w_member; [eexists; split; vm_compute; reflexivity|vm_compute; reflexivity|]. eapply w_member; [eexists; split; vm_compute; reflexivity|vm_compute; reflexivity|].
    change (u "1") with (nat_str 1). eapply w_elem; [eexists; split; vm_compute; reflexivity|vm_compute; reflexivity|]. eapply w_member; [eexists; split; vm_compute; reflexivity|vm_compute; reflexivity|constructor]. }
  split; [vm_compute; reflexivity|]. split. { eapply w_member; [eexists; split; vm_compute; reflexivity|vm_compute; reflexivity|]. eapply w_member; [eexists; split; vm_compute; reflexivity|vm_compute; reflexivity|constructor]. }
  split; vm_compute; reflexivity.
Qed.
(** Deleting an array element leaves the later elements with stale paths *)
Theorem C40_array_refuted : exists es r p b q, let h := history [] es in
  is_root h r = true /\ walk h r p b /\ node_path h b = Ok q /\ q <> p.
Proof.
  exists [ENew (VList [VStr (u "x"); VStr (u "y")]); EArrDel 0 0], 0, [u "0"], 2, [u "1"]. cbv zeta. split; [vm_compute; reflexivity|].
  split. { change (u "0") with (nat_str 0). eapply w_elem; [eexists; split; vm_compute; reflexivity|vm_compute; reflexivity|constructor]. }
  split; [vm_compute; reflexivity|]. vm_compute. discriminate.
Qed.
(** Storing a node that has a place already leaves it with the old path *)
Theorem C40_node_refuted : exists es r p b q, let h := history [] es in
  is_root h r = true /\ walk h r p b /\ node_path h b = Ok q /\ q <> p.
Proof.
  exists [ENew (VDict [(u "a", VNone)]); ESetNode 0 (u "b") 1], 0, [u "b"], 1, [u "a"]. cbv zeta. split; [vm_compute; reflexivity|].
  split. { eapply w_member; [eexists; split; vm_compute; reflexivity|vm_compute; reflexivity|constructor]. }
  split; [vm_compute; reflexivity|]. vm_compute. discriminate.
Qed.

(** ** C39 *)
Theorem C39_place es v p b : Forall plain_edit es -> let '(r, h) := new (history [] es) v in walk h r p b ->
  node_path h b = Ok p /\ node_root h b = Ok r /\ (is_root h b = true <-> p = []) /\
  forall q k, p = q ++ [k] -> exists c n, hget h b = Some n /\ n_parent n = Some c /\ n_key n = k /\ walk h r q c.
Proof.
  intro F. unfold new. set (h0 := history [] es). set (h := h0 ++ _). intro W.
  assert (L : linked h) by (apply linked_grow; [discriminate|]; apply linked_history; [exact F|apply linked_nil]).
  assert (R : exists n, hget h (length h0) = Some n /\ n_parent n = None) by (destruct (placed_head h (length h0) None [] v (placed_end _ _)) as (n & Hn & Hp & _); eauto).
  destruct (walk_path h (length h0) p b L R W) as [K1 K2]. split; [exact K1|]. split; [exact K2|].
  assert (P : forall q k, p = q ++ [k] -> exists c n, hget h b = Some n /\ n_parent n = Some c /\ n_key n = k /\ walk h (length h0) q c).
  { intros q k ->. apply walk_unsnoc in W as (c & W1 & W2). destruct (walk_child h c k b L W2) as (n & Hn & E1 & E2 & _). exists c, n. auto. }
  split; [|exact P]. split.
  - intro Hb. destruct p as [|x p _] using rev_ind; [reflexivity|]. destruct (P _ _ eq_refl) as (c & n & Hn & Hp & _). unfold is_root in Hb. rewrite Hn, Hp in Hb. discriminate.
  - intros ->. inversion W; subst. destruct R as (n & Hn & Hp). unfold is_root. rewrite Hn, Hp. reflexivity.
Qed.
(** every location of the value is reached by such a walk *)
Inductive at_path : pv -> list pystr -> pv -> Prop :=
| ap_here v : at_path v [] v
| ap_member d k x p v : dget k d = Some x -> at_path x p v -> at_path (VDict d) (k :: p) v
| ap_elem l i x p v : nth_error l i = Some x -> at_path x p v -> at_path (VList l) (nat_str i :: p) v.
Lemma walk_exists h v p w : at_path v p w -> forall r, holds h r v -> exists b, walk h r p b /\ holds h b w.
Proof.
  induction 1 as [v|d k x p v G _ IH|l i x p v G _ IH]; intros r H.
  - exists r. split; [constructor|exact H].
  - inversion H as [| | | | | | |? ? its Hv Hf]; subst.
    assert (K : exists c, dget k its = Some c /\ holds h c x).
    { clear - Hf G. induction Hf as [|[k1 c1] [k2 x2] its d [E Hc] _ IH]; [discriminate|]. cbn in *. subst k2. destruct (str_eqb k k1); [injection G as ->; eauto|apply IH, G]. }
    destruct K as (c & Hc & Hx). destruct (IH c Hx) as (b & W & Hb). exists b. split; [eapply w_member; eauto|exact Hb].
  - inversion H as [| | | | | |? ? els Hv Hf|]; subst.
    assert (K : exists c, nth_error els i = Some c /\ holds h c x).
    { clear - Hf G. revert i G. induction Hf as [|c1 x1 els l Hc _ IH]; intros [|i] G; try discriminate; cbn in *; [injection G as ->; eauto|apply IH, G]. }
    destruct K as (c & Hc & Hx). destruct (IH c Hx) as (b & W & Hb). exists b. split; [eapply w_elem; eauto|exact Hb].
Qed.
Theorem C39_everywhere es v p w : at_path v p w -> let '(r, h) := new (history [] es) v in exists b, walk h r p b /\ holds h b w.
Proof. intro A. unfold new. eapply walk_exists; [exact A|]. eapply wrap_holds, placed_end. Qed.
Definition C39_value : pv := VDict [(u "a", VList [VInt 1; VDict [(u "a", VStr (u "x"))]])].
Example C39_some : at_path C39_value [u "a"; u "1"; u "a"] (VStr (u "x")) /\ let '(r, h) := new [] C39_value in node_path h 4 = Ok [u "a"; u "1"; u "a"].
Proof.
  split; [|vm_compute; reflexivity]. eapply ap_member; [reflexivity|]. change (u "1") with (nat_str 1). eapply ap_elem; [reflexivity|]. eapply ap_member; [reflexivity|constructor].
Qed.

(** ** C41 *)
Section OrderedMap.
  (** an object node [r] with distinct members [d0] in a heap [h0], and the
      edits since, of this object and of others *)
  Variables (h0 : heap) (r : addr) (d0 : list (pystr * addr)).
  (** the edit stores under, or deletes, the name [k] of [r] *)
  Definition stores (e : edit) (k : pystr) : Prop := (exists v, e = ESet r k v) \/ (exists x, e = ESetNode r k x).
  Definition about (e : edit) (k : pystr) : Prop := stores e k \/ e = EDel r k.
  (** the node under name [k] after the edits: the one last stored, if it was
      not deleted since *)
  Inductive now : list edit -> pystr -> addr -> Prop :=
  | now_initial k c : dget k d0 = Some c -> now [] k c
  | now_set es k v : now (es ++ [ESet r k v]) k (length (history h0 es))
  | now_node es k x : now (es ++ [ESetNode r k x]) k x
  | now_kept es e k c : now es k c -> ~ about e k -> now (es ++ [e]) k c.
  (** when the name [k] got its member: its rank among the initial names, or the
      time it was stored while absent *)
  Inductive since : list edit -> pystr -> nat -> Prop :=
  | since_initial k n : nth_error (dkeys d0) n = Some k -> since [] k n
  | since_stored es e k : stores e k -> (forall c, ~ now es k c) -> since (es ++ [e]) k (length d0 + length es)
  | since_kept es e k n : since es k n -> e <> EDel r k -> since (es ++ [e]) k n.

  Lemma edited_other h e d : obj_items h r = Ok d -> (forall k, ~ about e k) -> obj_items (edited h e) r = Ok d.
  Proof.
    intros H N. assert (K : forall g, exists n, hget (h ++ g) r = Some n /\ n_val n = PObj d).
    { intro g. apply obj_items_val in H as (n & Hn & Hd). exists n. split; [apply hget_app1, Hn|exact Hd]. }
    assert (K' : forall h' a x, (exists n, hget h' r = Some n /\ n_val n = PObj d) -> a <> r -> obj_items (hset h' a x) r = Ok d).
    { intros h' a x K' Ha. apply obj_items_val. destruct K' as (n & Hn & Hd). exists n. split; [|exact Hd]. rewrite hget_hset. destruct (Nat.eqb_spec a r); [contradiction|exact Hn]. }
    assert (K0 : exists n, hget h r = Some n /\ n_val n = PObj d) by (apply obj_items_val, H).
    destruct e as [v|a k v|a k|a k x|a i]; cbn [edited].
    - apply obj_items_val, K.
    - assert (a <> r) by (intros ->; apply (N k); left; left; eauto). unfold obj_set. destruct (obj_items h a) eqn:E; cbn [bind]; auto.
    - assert (a <> r) by (intros ->; apply (N k); right; reflexivity). unfold obj_del. destruct (obj_items h a) as [l|?|] eqn:E; cbn [bind]; auto. destruct (dmem k l); auto.
    - assert (a <> r) by (intros ->; apply (N k); left; right; eauto). unfold obj_set_node. destruct (obj_items h a) eqn:E; cbn [bind]; auto.
    - unfold arr_del. destruct (hget h a) as [[[] p k]|] eqn:E; auto. assert (a <> r) by (intros ->; destruct K0 as (n & Hn & Hd); rewrite E in Hn; injection Hn as <-; cbn in Hd; discriminate).
      destruct (_ && _); auto.
  Qed.
  Lemma about_dec e : (exists k v, e = ESet r k v) \/ (exists k x, e = ESetNode r k x) \/ (exists k, e = EDel r k) \/ (forall k, ~ about e k).
  Proof.
    destruct e as [v|a k v|a k|a k x|a i]; try (do 3 right; intros k' [[[? E]|[? E]]|E]; discriminate); destruct (Nat.eq_dec a r) as [->|Ha]; eauto; do 3 right; intros k' [[[? E]|[? E]]|E]; congruence.
  Qed.
  Lemma items_set h d k v : obj_items h r = Ok d -> obj_items (edited h (ESet r k v)) r = Ok (dset k (length h) d).
  Proof.
    intro H. cbn [edited]. unfold obj_set. rewrite H. cbn [bind]. apply obj_items_val in H as (n & Hn & Hd). apply obj_items_val.
    rewrite hget_hset, Nat.eqb_refl, (hget_app1 _ _ _ _ Hn). eauto.
  Qed.
  Lemma items_node h d k x : obj_items h r = Ok d -> obj_items (edited h (ESetNode r k x)) r = Ok (dset k x d).
  Proof.
    intro H. cbn [edited]. unfold obj_set_node. rewrite H. cbn [bind]. apply obj_items_val in H as (n & Hn & Hd). apply obj_items_val.
    rewrite hget_hset, Nat.eqb_refl, Hn. eauto.
  Qed.
  Lemma ddel_absent {A} k (d : list (pystr * A)) : dmem k d = false -> ddel k d = d.
  Proof. induction d as [|[k1 c1] d IH]; cbn; [reflexivity|]. unfold dmem in *. cbn. destruct (str_eqb k k1); [discriminate|]. intro H. rewrite IH by exact H. reflexivity. Qed.
  Lemma items_del h d k : obj_items h r = Ok d -> obj_items (edited h (EDel r k)) r = Ok (ddel k d).
  Proof.
    intro H. cbn [edited]. unfold obj_del. rewrite H. cbn [bind]. destruct (dmem k d) eqn:M; [|rewrite (ddel_absent _ _ M); exact H].
    apply obj_items_val in H as (n & Hn & Hd). apply obj_items_val. rewrite hget_hset, Nat.eqb_refl, Hn. eauto.
  Qed.
  Lemma now_snoc es e k c : now (es ++ [e]) k c -> (exists v, e = ESet r k v /\ c = length (history h0 es)) \/ e = ESetNode r k c \/ (now es k c /\ ~ about e k).
  Proof.
    intro H. inversion H as [? ? G E1|? ? v E1|? ? x E1|? ? ? ? Hn Ha E1]; [destruct es; discriminate|..]; apply app_inj_tail in E1 as [E1 E2]; subst; eauto.
  Qed.
  Lemma since_snoc es e k n : since (es ++ [e]) k n -> (stores e k /\ (forall c, ~ now es k c) /\ n = length d0 + length es) \/ (since es k n /\ e <> EDel r k).
  Proof.
    intro H. inversion H as [? ? G E1|? ? ? G1 G2 E1|? ? ? ? G1 G2 E1]; [destruct es; discriminate|..]; apply app_inj_tail in E1 as [E1 E2]; subst; eauto.
  Qed.
  Lemma since_now es k n : since es k n -> exists c, now es k c.
  Proof.
    revert n. induction es as [|e es IH] using rev_ind; intros n H.
    - inversion H as [? ? G| |]; [|destruct es; discriminate|destruct es; discriminate]. assert (In k (dkeys d0)) as Hin by (apply nth_error_In in G; exact G).
      apply dmem_In, dmem_dget in Hin as [c Hc]. exists c. constructor. exact Hc.
    - apply since_snoc in H as [(S & _ & _)|[H E]].
      + destruct S as [[v ->]|[x ->]]; eexists; constructor.
      + destruct (IH n H) as [c Hc]. destruct (about_dec e) as [(k' & v & ->)|[(k' & x & ->)|[(k' & ->)|N]]].
        * destruct (pystr_eq_dec k' k) as [->|Hk]; [eexists; constructor|]. exists c. apply now_kept; [exact Hc|]. intros [[[? A]|[? A]]|A]; congruence.
        * destruct (pystr_eq_dec k' k) as [->|Hk]; [eexists; constructor|]. exists c. apply now_kept; [exact Hc|]. intros [[[? A]|[? A]]|A]; congruence.
        * exists c. apply now_kept; [exact Hc|]. intros [[[? A]|[? A]]|A]; congruence.
        * exists c. apply now_kept; [exact Hc|apply N].
  Qed.
  Lemma since_bound es k n : since es k n -> n < length d0 + length es.
  Proof.
    revert n. induction es as [|e es IH] using rev_ind; intros n H.
    - inversion H as [? ? G| |]; [|destruct es; discriminate|destruct es; discriminate]. cbn. rewrite Nat.add_0_r. replace (length d0) with (length (dkeys d0)) by apply map_length. apply nth_error_Some. congruence.
    - rewrite app_length. cbn. apply since_snoc in H as [(_ & _ & ->)|[H _]]; [lia|]. specialize (IH n H). lia.
  Qed.
  (** a name has one such time *)
  Lemma since_unique es k n m : NoDup (dkeys d0) -> since es k n -> since es k m -> n = m.
  Proof.
    intro Nd. revert n m. induction es as [|e es IH] using rev_ind; intros n m H1 H2.
    - inversion H1 as [? ? G1| |]; [|destruct es; discriminate|destruct es; discriminate]. inversion H2 as [? ? G2| |]; [|destruct es; discriminate|destruct es; discriminate].
      eapply NoDup_nth_error; eauto; [apply nth_error_Some|]; congruence.
    - apply since_snoc in H1 as [(_ & A1 & ->)|[H1 _]]; apply since_snoc in H2 as [(_ & A2 & ->)|[H2 _]]; auto.
      + destruct (since_now _ _ _ H2) as [c Hc]. destruct (A1 c Hc).
      + destruct (since_now _ _ _ H1) as [c Hc]. destruct (A2 c Hc).
  Qed.
  Lemma sorted_snoc l n : StronglySorted lt l -> Forall (fun m => m < n) l -> StronglySorted lt (l ++ [n]).
  Proof.
    induction 1 as [|x l S IH F]; intro G; cbn; [repeat constructor|]. inversion G; subst. constructor; [auto|]. apply Forall_app. auto.
  Qed.
  Lemma seq_sorted a n : StronglySorted lt (seq a n).
  Proof. revert a; induction n as [|n IH]; intro a; cbn; constructor; [apply IH|]. apply Forall_forall. intros x Hx. apply in_seq in Hx. lia. Qed.
  Lemma Forall2_seq {A} (l : list A) (R : A -> nat -> Prop) s : (forall i x, nth_error l i = Some x -> R x (s + i)) -> Forall2 R l (seq s (length l)).
  Proof.
    revert s. induction l as [|x l IH]; intros s H; cbn; constructor.
    - rewrite <- (Nat.add_0_r s). apply (H 0). reflexivity.
    - apply IH. intros i y Hy. rewrite Nat.add_succ_comm. apply (H (S i)). exact Hy.
  Qed.
  Lemma Forall2_ddel es k (d : list (pystr * addr)) ns : Forall2 (fun k n => since es k n) (dkeys d) ns -> StronglySorted lt ns -> NoDup (dkeys d) ->
    exists ns', Forall2 (fun k' n => since es k' n /\ k' <> k) (dkeys (ddel k d)) ns' /\ StronglySorted lt ns' /\ (forall n, In n ns' -> In n ns).
  Proof.
    revert ns. induction d as [|[k1 c1] d IH]; intros ns F S Nd; inversion F as [|? n ? ns1 H1 F1]; subst; cbn in *.
    - exists []. repeat split; try constructor. intros n [].
    - inversion S as [|? ? S1 G1]; subst. inversion Nd as [|? ? Hn Nd1]; subst. destruct (str_eqb_spec k k1) as [->|Hk].
      + exists ns1. split; [|split; [exact S1|auto]]. clear - F1 Hn. fold (dkeys d) in *. induction F1 as [|x y l l' Hxy F1 IH]; constructor; [split; [exact Hxy|intros ->; apply Hn; left; reflexivity]|].
        apply IH. intro K. apply Hn. right. exact K.
      + destruct (IH ns1 F1 S1 Nd1) as (ns' & F' & S' & I'). exists (n :: ns'). split; [constructor; [split; [exact H1|intro Q; apply Hk; symmetry; exact Q]|exact F']|].
        split; [|intros m [<-|Hm]; auto]. constructor; [exact S'|]. rewrite Forall_forall in *. intros m Hm. apply G1, I', Hm.
  Qed.

  Hypothesis (start : obj_items h0 r = Ok d0) (names : NoDup (dkeys d0)).
  Lemma ordered_map es : exists d ns, obj_items (history h0 es) r = Ok d /\ NoDup (dkeys d) /\
    (forall k c, dget k d = Some c <-> now es k c) /\ Forall2 (since es) (dkeys d) ns /\ StronglySorted lt ns.
  Proof.
    induction es as [|e es IH] using rev_ind.
    - exists d0, (seq 0 (length (dkeys d0))). split; [exact start|]. split; [exact names|]. split; [|split].
      + intros k c. split; [apply now_initial|]. intro H. inversion H; subst; try (destruct es; discriminate). assumption.
      + apply Forall2_seq. intros i k Hk. constructor. exact Hk.
      + apply seq_sorted.
    - destruct IH as (d & ns & Hd & Nd & Now & F & S). rewrite history_snoc.
      assert (Absent : forall k, dmem k d = false -> forall c, ~ now es k c) by (intros k M c Hc; apply Now in Hc; unfold dmem in M; rewrite Hc in M; discriminate).
      assert (Stored : forall e k c0, stores e k -> (forall k' c, now (es ++ [e]) k' c <-> if str_eqb k' k then c = c0 else now es k' c) ->
                exists ns', (forall k' c, dget k' (dset k c0 d) = Some c <-> now (es ++ [e]) k' c) /\ Forall2 (since (es ++ [e])) (dkeys (dset k c0 d)) ns' /\ StronglySorted lt ns').
      { intros e' k c0 Hs Hnow. assert (Kept : Forall2 (since (es ++ [e'])) (dkeys d) ns).
        { eapply Forall2_mono; [|exact F]. intros k' n Hn. apply since_kept; [exact Hn|]. destruct Hs as [[v ->]|[x ->]]; discriminate. }
        assert (G : forall k' c, dget k' (dset k c0 d) = Some c <-> now (es ++ [e']) k' c).
        { intros k' c. rewrite dget_dset, Hnow. destruct (str_eqb k' k); [split; congruence|apply Now]. }
        rewrite dkeys_dset. destruct (dmem k d) eqn:M.
        - exists ns. auto.
        - exists (ns ++ [length d0 + length es]). split; [exact G|]. split.
          + apply Forall2_app; [exact Kept|]. constructor; [|constructor]. apply since_stored; [exact Hs|apply Absent, M].
          + apply sorted_snoc; [exact S|]. clear - F. induction F as [|? ? ? ? H]; constructor; [eapply since_bound, H|assumption]. }
      destruct (about_dec e) as [(k & v & ->)|[(k & x & ->)|[(k & ->)|N]]].
      + destruct (Stored (ESet r k v) k (length (history h0 es))) as (ns' & G & F' & S').
        { left; eauto. }
        { intros k' c. destruct (str_eqb_spec k' k) as [->|Hk]; split.
          - intro H. apply now_snoc in H as [(? & _ & H)|[H|[_ H]]]; [exact H|discriminate|]. exfalso. apply H. left; left; eauto.
          - intros ->. constructor.
          - intro H. apply now_snoc in H as [(? & H & _)|[H|[H _]]]; [congruence|discriminate|exact H].
          - intro H. apply now_kept; [exact H|]. intros [[[? A]|[? A]]|A]; congruence. }
        exists (dset k (length (history h0 es)) d), ns'. split; [apply items_set, Hd|]. split; [apply NoDup_dset, Nd|]. auto.
      + destruct (Stored (ESetNode r k x) k x) as (ns' & G & F' & S').
        { right; eauto. }
        { intros k' c. destruct (str_eqb_spec k' k) as [->|Hk]; split.
          - intro H. apply now_snoc in H as [(? & H & _)|[H|[_ H]]]; [discriminate|congruence|]. exfalso. apply H. left; right; eauto.
          - intros ->. constructor.
          - intro H. apply now_snoc in H as [(? & H & _)|[H|[H _]]]; [discriminate|congruence|exact H].
          - intro H. apply now_kept; [exact H|]. intros [[[? A]|[? A]]|A]; congruence. }
        exists (dset k x d), ns'. split; [apply items_node, Hd|]. split; [apply NoDup_dset, Nd|]. auto.
      + destruct (Forall2_ddel es k d ns F S Nd) as (ns' & F' & S' & _).
        exists (ddel k d), ns'. split; [apply items_del, Hd|]. split; [apply NoDup_ddel, Nd|]. split; [|split; [|exact S']].
        * intros k' c. rewrite dget_ddel by exact Nd. destruct (str_eqb_spec k' k) as [->|Hk]; split; try discriminate.
          -- intro H. exfalso. apply now_snoc in H as [(? & H & _)|[H|[_ H]]]; [discriminate|discriminate|]. apply H. right. reflexivity.
          -- intro H. apply now_kept; [apply Now, H|]. intros [[[? A]|[? A]]|A]; congruence.
          -- intro H. apply Now. apply now_snoc in H as [(? & H & _)|[H|[H _]]]; [discriminate|discriminate|exact H].
        * eapply Forall2_mono; [|exact F']. intros k' n [Hn Hk]. apply since_kept; [exact Hn|congruence].
      + exists d, ns. split; [apply edited_other; assumption|]. split; [exact Nd|]. split; [|split; [|exact S]].
        * intros k c. rewrite Now. split; intro H; [apply now_kept; [exact H|apply N]|]. apply now_snoc in H as [(? & -> & _)|[->|[H _]]]; [exfalso|exfalso|exact H]; eapply N; left; [left|right]; eauto.
        * eapply Forall2_mono; [|exact F]. intros k n Hn. apply since_kept; [exact Hn|]. intros ->. apply (N k). right; reflexivity.
  Qed.

  (** Answers of the object after any edits *)
  Theorem C41_lookup es k : let h := history h0 es in
    (forall c, now es k c -> obj_get h r k = Ok c /\ obj_has h r k = Ok true) /\
    ((forall c, ~ now es k c) -> obj_get h r k = Raise (EKey k) /\ obj_has h r k = Ok false).
  Proof.
    cbv zeta. destruct (ordered_map es) as (d & ns & Hd & Nd & Now & _ & _). unfold obj_get, obj_has, dmem. rewrite Hd. cbn [bind]. split.
    - intros c Hc. apply Now in Hc. rewrite Hc. auto.
    - intro H. destruct (dget k d) as [c|] eqn:E; [|auto]. apply Now in E. destruct (H c E).
  Qed.
  Theorem C41_listing es : let h := history h0 es in
    exists ks cs ns, obj_keys h r = Ok ks /\ obj_values h r = Ok cs /\ obj_len h r = Ok (length ks) /\
      NoDup ks /\ (forall k, In k ks <-> exists c, now es k c) /\ Forall2 (now es) ks cs /\
      Forall2 (since es) ks ns /\ StronglySorted lt ns.
  Proof.
    cbv zeta. destruct (ordered_map es) as (d & ns & Hd & Nd & Now & F & S). exists (dkeys d), (map snd d), ns. unfold obj_keys, obj_values, obj_len. rewrite Hd. cbn [bind].
    split; [reflexivity|]. split; [reflexivity|]. split; [unfold dkeys; rewrite map_length; reflexivity|]. split; [exact Nd|]. split; [|split; [|auto]].
    - intro k. rewrite <- dmem_In, dmem_dget. split; intros [c Hc]; exists c; apply Now, Hc.
    - assert (G : Forall (fun kc => now es (fst kc) (snd kc)) d) by (apply Forall_forall; intros [k c] Hin; apply Now, In_dget; assumption).
      clear - G. induction G; constructor; assumption.
  Qed.
End OrderedMap.
(** a plain value just assigned reads back as the value *)
Theorem C41_value h r d k v : obj_items h r = Ok d -> exists c, obj_get (edited h (ESet r k v)) r k = Ok c /\ holds (edited h (ESet r k v)) c v.
Proof.
  intro H. exists (length h). split; [unfold obj_get; rewrite (items_set r h d k v H); cbn [bind]; rewrite dget_dset, str_eqb_refl; reflexivity|].
  cbn [edited]. unfold obj_set. rewrite H. cbn [bind]. eapply wrap_holds with (p := Some r) (key := k).
  apply obj_items_val in H as (n & Hn & _). apply hget_lt in Hn.
  intros i Hi. pose proof (placed_end h (wrap (length h) (Some r) k v) i Hi) as P. rewrite hget_hset. destruct (Nat.eqb_spec r (length h + i)); [lia|exact P].
Qed.
(** and an edit of one object touches no other node *)
Theorem C41_frame h e b n : hget h b = Some n -> (match e with ESet a _ _ | EDel a _ | ESetNode a _ _ | EArrDel a _ => a <> b | ENew _ => True end) -> hget (edited h e) b = Some n.
Proof.
  intros H N. assert (K : forall h' a x, hget h' b = Some n -> a <> b -> hget (hset h' a x) b = Some n) by (intros h' a x H' Ha; rewrite hget_hset; destruct (Nat.eqb_spec a b); [contradiction|exact H']).
  destruct e as [v|a k v|a k|a k x|a i]; cbn [edited].
  - apply hget_app1, H.
  - unfold obj_set. destruct (obj_items h a); cbn [bind]; auto. apply K; [apply hget_app1, H|exact N].
  - unfold obj_del. destruct (obj_items h a) as [l|?|]; cbn [bind]; auto. destruct (dmem k l); auto.
  - unfold obj_set_node. destruct (obj_items h a); cbn [bind]; auto.
  - unfold arr_del. destruct (hget h a) as [[[] p k]|]; auto. destruct (_ && _); auto.
Qed.
Example C41_some : let h0 := snd (new [] (VDict [(u "a", VInt 1); (u "b", VInt 2)])) in
  let es := [ESet 0 (u "c") VNone; EDel 0 (u "a"); ESet 0 (u "b") (VBool true); EDel 0 (u "zz"); ESet 0 (u "a") (VInt 3)] in
  obj_items h0 0 = Ok [(u "a", 1); (u "b", 2)] /\ now h0 0 [(u "a", 1); (u "b", 2)] es (u "a") 5 /\
  obj_keys (history h0 es) 0 = Ok [u "b"; u "c"; u "a"] /\ obj_get (history h0 es) 0 (u "a") = Ok 5 /\ obj_len (history h0 es) 0 = Ok 3.
Proof.
  cbv zeta. split; [vm_compute; reflexivity|]. split; [|vm_compute; auto].
  refine (now_set _ _ _ [_; _; _; _] (u "a") (VInt 3)).
Qed.
