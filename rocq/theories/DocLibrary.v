(** Documents that refer to one another. *)
From Verif Require Import PyBase PyBaseFacts PyVal OrderFacts Regex Numbers Uri Pointer PropsPointer Store Validators Heap HeapFacts PropsWrap PropsPlaces Doc DocMono DocFacts PropsQuery DocLoad DocDocument PropsAnchor PropsRef.
Local Open Scope nat_scope.
Local Notation length := List.length (only parsing).

(** ** A library: documents by the text of their base URI *)
Section Library.
  Variables (auth : pystr -> option authority) (Lib : pystr -> option pv).
  (** a reference to the document known as [k] *)
  Definition remote (t : pystr) (v : uri) (k : pystr) (p : list pystr) : Prop :=
    mk_uri auth t = Ok v /\ pointer_parse (u_frag v) = Ok p /\ (exists b, base_uri auth v = Ok b /\ uri_bool b = true) /\ key_of auth v = Ok k.
  (** a place in a document that is reached without following references *)
  Definition place (V : pv) (p : list pystr) (y : item) : Prop :=
    location V p y \/ exists name q d, p = [name] /\ y = (false, VDict d) /\ declares V q name /\ inside V q (VDict d) /\ forall q', declares V q' name -> q' = q.
  (** an object that is not a reference and has no id *)
  Definition plain_object (y : item) : Prop := exists f d, y = (f, VDict d) /\ (f = false -> dget (u "$ref") d = None) /\ (f = true -> dget (u "$anchor") d = None) /\ id_member d = None.
  (** An object of a document with value [V]; [top]: it is the whole document.  A
      reference is into the document itself or to a plain object of another one. *)
  Definition sound_object (V : pv) (top : bool) (d : list (pystr * pv)) : Prop :=
    (exists t v p, dget (u "$ref") d = Some (VStr t) /\ dget (u "$anchor") d = None /\ id_member d = None /\
       (local auth t v p \/ exists k V' y, remote t v k p /\ Lib k = Some V' /\ place V' p y /\ plain_object y)) \/
    (dget (u "$ref") d = None /\ (dget (u "$anchor") d = None \/ exists t, dget (u "$anchor") d = Some (VStr t)) /\
       (id_member d = None \/ top = true /\ exists t v k, id_member d = Some (VStr t) /\ mk_uri auth t = Ok v /\ u_frag v = [] /\ is_absolute auth v = Ok true /\ key_of auth v = Ok k /\
          (Lib k = None \/ Lib k = Some V))).
  Inductive sound (V : pv) : bool -> pv -> Prop :=
  | so_leaf top v : (forall d, v <> VDict d) -> sound V top v
  | so_dict top d : sound_object V top d -> Forall (fun kx => sound V false (snd kx)) d -> sound V top (VDict d).
  Definition sound_document (V : pv) : Prop := (exists d, V = VDict d) /\ distinct V /\ sound V true V.

  (** ** Nodes of loaded documents; [G] tells the value of each document *)
  Variable G : nat -> option pv.
  (** the document and pointer a reference text means in document [s] *)
  Definition dest (s : nat) (t : pystr) (v : uri) (e : nat) (p : list pystr) : Prop :=
    (local auth t v p /\ e = s) \/ (exists k V, remote t v k p /\ Lib k = Some V /\ G e = Some V).
  Inductive joined (h : heap) (s : nat) : addr -> pv -> Prop :=
  | jn_leaf a v : (forall d, v <> VDict d) -> holds h a v -> joined h s a v
  | jn_obj a d its : dget (u "$ref") d = None -> val h a (PObj its) ->
      Forall2 (fun ka kx => fst ka = fst kx /\ joined h s (snd ka) (snd kx)) its (ddel (u "$anchor") d) -> joined h s a (VDict d)
  | jn_ref a d b its t v e p : dget (u "$ref") d = Some (VStr t) -> dest s t v e p -> val h a (PRef (RefData v b e p)) -> val h b (PObj its) ->
      Forall2 (fun ka kx => fst ka = fst kx /\ joined h s (snd ka) (snd kx)) its d -> joined h s a (VDict d).
  (** the nodes that loading [s], if it is not done, will change *)
  Definition pending (w : world) (s : nat) (y : addr) : Prop :=
    exists x V, G s = Some V /\ nth_error (w_schemas w) s = Some x /\ s_ready x = false /\ s_value x <= y < s_value x + length (wrap (s_value x) None [] V).
  Definition agree (w : world) (h2 : heap) : Prop := forall y, y < length (w_heap w) -> (forall j, ~ pending w j y) -> hget h2 y = hget (w_heap w) y.

  (** The documents of [G] other than [ex] are untouched, or loaded. *)
  Record state (ex : option nat) (w : world) : Prop := State {
    st_doc : forall s V, G s = Some V -> sound_document V /\ exists x, nth_error (w_schemas w) s = Some x /\ s_voc x = core /\
               (s_ready x = false -> s_value x + length (wrap (s_value x) None [] V) <= length (w_heap w));
    st_new : forall s V x, G s = Some V -> nth_error (w_schemas w) s = Some x -> s_ready x = false -> ex <> Some s ->
               placed (w_heap w) (s_value x) (wrap (s_value x) None [] V) /\ s_anchors x = [];
    st_apart : forall s1 s2 y, pending w s1 y -> pending w s2 y -> s1 = s2;
    st_done : forall s V x, G s = Some V -> nth_error (w_schemas w) s = Some x -> s_ready x = true ->
               (forall h2, agree w h2 -> joined h2 s (s_value x) V) /\
               (forall name b, dget name (s_anchors x) = Some b -> exists q d, declares V q name /\ inside V q (VDict d) /\ forall h2, agree w h2 -> joined h2 s b (VDict d)) /\
               (forall name q, declares V q name -> exists b, dget name (s_anchors x) = Some b);
    st_store : forall k V d, Lib k = Some V -> dget k (w_store w) = Some d -> G d = Some V
  }.
End Library.

Lemma joined_more auth Lib G G' h s v : (forall j V, G j = Some V -> G' j = Some V) -> forall a, joined auth Lib G h s a v -> joined auth Lib G' h s a v.
Proof.
  intro Inc. induction v as [v Hl Hd|l IH|d IH] using pv_ind_deep; intros a J.
  - inversion J; subst; [apply jn_leaf; assumption|exfalso; eapply Hd; reflexivity|exfalso; eapply Hd; reflexivity].
  - inversion J; subst. apply jn_leaf; assumption.
  - assert (K : forall e its, (forall k x, In (k, x) e -> In (k, x) d) -> Forall2 (fun ka kx => fst ka = fst kx /\ joined auth Lib G h s (snd ka) (snd kx)) its e ->
      Forall2 (fun ka kx => fst ka = fst kx /\ joined auth Lib G' h s (snd ka) (snd kx)) its e).
    { intros e its I F. induction F as [|[k1 c] [k2 x] its e [E1 E2] F IHF]; constructor.
      - split; [exact E1|]. cbn [snd] in *. rewrite Forall_forall in IH. apply (IH (k2, x)); [apply I; left; reflexivity|exact E2].
      - apply IHF. intros k y Hy. apply I. right. exact Hy. }
    inversion J as [? ? C|? ? its E V F|? ? b its t v e p E De V Vb F]; subst; [exfalso; eapply C; reflexivity| |].
    + eapply jn_obj; [exact E|exact V|]. apply K; [|exact F]. intros k x. apply In_ddel.
    + eapply jn_ref; [exact E| |exact V|exact Vb|apply K; [auto|exact F]].
      destruct De as [De|(k & W & R & Lk & Ge)]; [left; exact De|right; exists k, W; auto].
Qed.

Section Steps.
  Variables (auth : pystr -> option authority) (dig : N -> option Z) (strx : heap -> addr -> pystr) (fetch : uri -> res pv).
  Variable Lib : pystr -> option pv.
  Notation Runs := (Runs auth dig strx fetch).
  Notation ev := (ev auth dig strx fetch).
  Notation joined := (joined auth Lib).
  Hypothesis Dig : digits_ok dig.

  (** ** Walking in a loaded document, off the references *)
  Definition found (G : nat -> option pv) (h : heap) (s : nat) (a : addr) (y : item) : Prop :=
    if fst y then holds h a (snd y) else joined G h s a (snd y).
  Lemma walk_plainly G w s y p z : plainly y p z -> forall a, found G (w_heap w) s a y -> exists b, ev (fun rec => follow dig rec a p) w w (Ok b) /\ found G (w_heap w) s b z.
  Proof.
    induction 1 as [y|f d k y p z Hf Gk _ IH|f l i y p z Gi _ IH]; intros a H.
    - exists a. split; [apply follow_nil|exact H].
    - assert (K : exists its c, val (w_heap w) a (PObj its) /\ dget k its = Some c /\ found G (w_heap w) s c (f, y)).
      { destruct f; unfold found in *; cbn [fst snd] in *.
        - inversion H as [| | | | | | |? ? its Hv F]; subst. pose proof (dget_forall2 (fun c y => holds (w_heap w) c y) _ _ k F) as Q. rewrite Gk in Q. destruct Q as (c & Q1 & Q2). eauto.
        - destruct Hf as [C|[Nr Nk]]; [discriminate|]. inversion H as [? ? C|? ? its _ Hv F|]; subst; [exfalso; eapply C; reflexivity| |congruence].
          pose proof (dget_forall2 (fun c y => joined G (w_heap w) s c y) _ _ k F) as Q. rewrite dget_ddel_neq, Gk in Q by exact Nk. destruct Q as (c & Q1 & Q2). eauto. }
      destruct K as (its & c & Hv & Gc & Hc). destruct (IH c Hc) as (b & R & Hb). exists b. split; [|exact Hb]. eapply follow_obj; eassumption.
    - assert (H' : holds (w_heap w) a (VList l)). { destruct f; [exact H|]. unfold found in H. cbn [fst snd] in H. inversion H; subst. assumption. }
      inversion H' as [| | | | | |? ? els Hv F|]; subst. destruct (Forall2_nth (fun y c => holds (w_heap w) c y) l els i y) as (c & Gc & Hc); [clear -F; induction F; constructor; auto|exact Gi|].
      destruct (IH c Hc) as (b & R & Hb). exists b. split; [|exact Hb].
      assert (El : length els = length l) by (clear -F; induction F; cbn; congruence).
      eapply follow_arr; [exact Hv|apply py_int_nat, Dig| |exact R]. apply (index_spec dig els (nat_str i) (Z.of_nat i)); [apply py_int_nat, Dig|]. exists i. split; [|exact Gc].
      rewrite El. split; [apply nth_error_Some; congruence|left; apply py_int_nat, Dig].
  Qed.
  Lemma agree_self G w : agree G w (w_heap w).
  Proof. intros y _ _. reflexivity. Qed.
  (** a place of a document that is loaded *)
  Lemma query_place G ex w s V x p y : state auth Lib G ex w -> G s = Some V -> nth_error (w_schemas w) s = Some x -> s_ready x = true -> place V p y ->
    exists b, Runs (CQuery s p) w w (Ok b) /\ found G (w_heap w) s b y.
  Proof.
    intros St Gs Hx Rx Pl. destruct (st_done _ _ _ _ _ St s V x Gs Hx Rx) as (Lx & A1 & A2). destruct Pl as [(N & Na & P)|(name & q & d & -> & -> & Dq & Iq & Un)].
    - destruct (walk_plainly G w s _ _ _ P (s_value x)) as (b & R & Hb); [apply Lx, agree_self|]. exists b. split; [|exact Hb].
      apply ev_step. cbn [Doc.step]. unfold query. eapply ev_bind; [apply ev_pure, (load_ready w _ x Hx Rx)|]. eapply ev_known; [apply schema_at_ok, Hx|].
      destruct p as [|k [|k' p]]; [exact R| |exact R]. destruct (dget k (s_anchors x)) as [c|] eqn:Gc; [destruct (A1 _ _ Gc) as (q & d & Dq & _); destruct (Na _ _ eq_refl Dq)|].
      destruct (str_eqb_spec k []) as [->|]; [destruct (N eq_refl)|exact R].
    - destruct (A2 _ _ Dq) as [b Gb]. destruct (A1 _ _ Gb) as (q' & d' & Dq' & Iq' & Lb). pose proof (Un _ Dq') as ->. pose proof (inside_unique _ _ _ Iq _ Iq') as E. injection E as ->.
      exists b. split; [|apply Lb, agree_self].
      apply ev_step. cbn [Doc.step]. unfold query. eapply ev_bind; [apply ev_pure, (load_ready w _ x Hx Rx)|]. eapply ev_known; [apply schema_at_ok, Hx|]. rewrite Gb. apply ev_ret.
  Qed.
  Lemma plainly_distinct y p z : plainly y p z -> distinct (snd y) -> distinct (snd z).
  Proof.
    induction 1 as [y|f d k y p z Hf Gk _ IH|f l i y p z Gi _ IH]; intro D; [exact D| |]; apply IH; cbn [snd] in *; [eapply distinct_member; eassumption|eapply distinct_elem; eassumption].
  Qed.
  Lemma place_distinct V p y : place V p y -> distinct V -> distinct (snd y).
  Proof. intros [(_ & _ & P)|(name & q & d & -> & -> & _ & I & _)] D; [exact (plainly_distinct _ _ _ P D)|exact (inside_distinct _ _ _ I D)]. Qed.

  (** what a new reference to a loaded document shows to the keywords after it *)
  Lemma any_has_merged w a r its tgt f y ks : val (w_heap w) a (PRef r) -> nth_error (w_schemas w) (r_schema r) = Some y -> s_ready y = true ->
    Runs (CQuery (r_schema r) (r_pointer r)) w w (Ok f) -> val (w_heap w) f (PObj tgt) -> val (w_heap w) (r_node r) (PObj its) -> NoDup (dkeys tgt) -> NoDup (dkeys its) ->
    Forall (fun k => dget k tgt = None /\ dget k its = None) ks -> ev (fun rec => any_has rec a ks) w w (Ok false).
  Proof.
    intros (n & Hn & En) Hy Ry Rq Hf Hi N1 N2 F. induction F as [|k ks [K1 K2] _ IH]; cbn [any_has]; [apply ev_ret|].
    eapply ev_bind with (a := false); [|exact IH]. unfold node_has. eapply ev_known; [apply node_at_ok, Hn|]. rewrite En.
    eapply ev_bind.
    - apply ev_step. cbn [Doc.step]. unfold ref_raw. eapply ev_known; [apply node_at_ok, Hn|]. rewrite En. eapply ev_known; [apply schema_at_ok, Hy|]. rewrite Ry.
      eapply ev_bind; [exact Rq|]. eapply ev_bind; [apply (runs_type _ _ _ _ w f _ Hf eq_refl)|]. cbn [kind_of]. eapply ev_bind; [apply ev_pure; intro rec; apply items_obj, Hi|].
      eapply ev_bind; [apply ev_pure; intro rec; apply items_obj, Hf|]. apply ev_ret.
    - apply ev_pure. intro rec. unfold ret. f_equal. f_equal. cbn [dict_has]. rewrite dmem_get, (dget_update tgt N1), K1, dget_update by (apply NoDup_filter_keys, N2). rewrite dget_filter_ne, K2. destruct (str_eqb k _); reflexivity.
  Qed.
End Steps.

Lemma lput_same {A} (l : list A) i x : nth_error l i = Some x -> lput l i x = l.
Proof. revert i; induction l as [|y l IH]; intros [|i] H; cbn in *; try discriminate; [injection H as ->; reflexivity|]. rewrite IH by exact H. reflexivity. Qed.
Lemma dget_ddel_gone {A} k (d : list (pystr * A)) : NoDup (dkeys d) -> dget k (ddel k d) = None.
Proof.
  unfold dkeys. induction d as [|[k1 y] d IH]; intro N; [reflexivity|]. cbn [map fst] in N. inversion N as [|? ? N1 N2]; subst. cbn [ddel]. destruct (str_eqb_spec k k1) as [->|Ne]; cbn [dget].
  - destruct (dget k1 d) as [z|] eqn:E; [|reflexivity]. exfalso. apply N1. apply dget_In in E. apply (in_map fst) in E. exact E.
  - destruct (str_eqb_spec k k1); [contradiction|auto].
Qed.

(** ** Loading one document of the library *)
Section LoadOne.
  Variables (auth : pystr -> option authority) (dig : N -> option Z) (strx : heap -> addr -> pystr) (fetch : uri -> res pv).
  Variable Lib : pystr -> option pv.
  Notation Runs := (Runs auth dig strx fetch).
  Notation ev := (ev auth dig strx fetch).
  Notation joined := (joined auth Lib).
  Notation state := (state auth Lib).
  Hypothesis Dig : digits_ok dig.
  Hypothesis LibOk : forall k V, Lib k = Some V -> sound_document auth Lib V.
  Hypothesis Fetch : forall t v k p V, remote auth t v k p -> Lib k = Some V -> fetch v = Ok V.
  Variables (s : nat) (V : pv).

  Definition ghost := nat -> option pv.
  (** the world changes in [base .. base + n), and new nodes and documents appear *)
  Record grows (w : world) (G : ghost) (w' : world) (G' : ghost) (base n : nat) : Prop := Grows {
    g_len : length (w_heap w) <= length (w_heap w');
    g_frame : forall y, y < length (w_heap w) -> ~ (base <= y < base + n) -> hget (w_heap w') y = hget (w_heap w) y;
    g_lib : forall j X, G j = Some X -> G' j = Some X;
    g_new : forall j X, G' j = Some X -> G j = Some X \/ exists x, nth_error (w_schemas w') j = Some x /\ length (w_heap w) <= s_value x;
    g_other : forall j x, j <> s -> nth_error (w_schemas w) j = Some x -> nth_error (w_schemas w') j = Some x;
    g_self : forall x, nth_error (w_schemas w) s = Some x -> exists x', nth_error (w_schemas w') s = Some x' /\ s_value x' = s_value x /\ s_ready x' = s_ready x /\ s_voc x' = s_voc x;
    g_store : forall k e, dget k (w_store w) = Some e -> dget k (w_store w') = Some e;
    g_state : state G' (Some s) w';
    g_docs : forall j, length (w_schemas w) <= j -> j < length (w_schemas w') -> exists k X, Lib k = Some X /\ dget k (w_store w') = Some j
  }.
  Lemma grows_refl w G base n : state G (Some s) w -> grows w G w G base n.
  Proof. intro St. constructor; auto; [intros x Hx; exists x; auto|intros; lia]. Qed.
  Lemma grows_trans w G w1 G1 w2 G2 b n1 n2 : grows w G w1 G1 b n1 -> grows w1 G1 w2 G2 (b + n1) n2 -> grows w G w2 G2 b (n1 + n2).
  Proof.
    intros [A1 A2 A3 A4 A5 A6 A7 A8 A9] [B1 B2 B3 B4 B5 B6 B7 B8 B9]. constructor; auto.
    - lia.
    - intros y L N. rewrite B2 by lia. apply A2; lia.
    - intros j X H. destruct (B4 j X H) as [H1|(x & Hx & Lx)]; [|right; exists x; split; [exact Hx|lia]]. destruct (A4 j X H1) as [H0|(x & Hx & Lx)]; [left; exact H0|right].
      destruct (Nat.eq_dec j s) as [->|Nj]; [destruct (B6 x Hx) as (x' & Hx' & E & _); exists x'; split; [exact Hx'|lia]|exists x; split; [apply B5; assumption|exact Lx]].
    - intros x Hx. destruct (A6 x Hx) as (x1 & H1 & E1 & E2 & E3). destruct (B6 x1 H1) as (x2 & H2 & F1 & F2 & F3). exists x2. split; [exact H2|]. repeat split; congruence.
    - intros j L1 L2. destruct (Nat.lt_ge_cases j (length (w_schemas w1))) as [L|L]; [|exact (B9 j L L2)]. destruct (A9 j L1 L) as (k & X & Lk & Gk). exists k, X. auto.
  Qed.
  Lemma grows_weaken w G w' G' b n b' n' : grows w G w' G' b n -> b' <= b -> b + n <= b' + n' -> grows w G w' G' b' n'.
  Proof. intros [A1 A2 A3 A4 A5 A6 A7 A8 A9] L1 L2. constructor; auto. intros y Hy N. apply A2; [exact Hy|lia]. Qed.
  (** zones of other documents in the old part of the heap are old *)
  Lemma grows_pending w G w' G' b n j y : grows w G w' G' b n -> state G (Some s) w -> pending G' w' j y -> y < length (w_heap w) -> pending G w j y.
  Proof.
    intros Gr St (x & X & Gj & Hx & Rx & Ly) L. destruct (g_new _ _ _ _ _ _ Gr j X Gj) as [Gj0|(x' & Hx' & Lx')]; [|rewrite Hx in Hx'; injection Hx' as <-; lia].
    destruct (st_doc _ _ _ _ _ St j X Gj0) as (_ & x0 & Hx0 & _ & _). destruct (Nat.eq_dec j s) as [->|N].
    - destruct (g_self _ _ _ _ _ _ Gr x0 Hx0) as (x1 & Hx1 & E1 & E2 & _). rewrite Hx in Hx1. injection Hx1 as <-. exists x0, X. rewrite <- E1, <- E2. auto.
    - pose proof (g_other _ _ _ _ _ _ Gr j x0 N Hx0) as E. rewrite Hx in E. injection E as <-. exists x, X. auto.
  Qed.

  (** ** Keeping the other documents *)
  Lemma state_frame G w w' : state G (Some s) w -> (forall j, j <> s -> nth_error (w_schemas w') j = nth_error (w_schemas w) j) ->
    (exists x x', nth_error (w_schemas w) s = Some x /\ s_ready x = false /\ nth_error (w_schemas w') s = Some x' /\ s_value x' = s_value x /\ s_ready x' = s_ready x /\ s_voc x' = s_voc x) ->
    length (w_heap w) <= length (w_heap w') -> (forall y, y < length (w_heap w) -> ~ pending G w s y -> hget (w_heap w') y = hget (w_heap w) y) ->
    (forall k X d, Lib k = Some X -> dget k (w_store w') = Some d -> dget k (w_store w) = Some d \/ G d = Some X) -> state G (Some s) w'.
  Proof.
    intros [A1 A2 A3 A4 A5] So (x & x' & Hx & Rx & Hx' & E1 & E2 & E3) Ln Fr Sr.
    assert (Pe : forall j y, pending G w' j y <-> pending G w j y).
    { intros j y. unfold pending. destruct (Nat.eq_dec j s) as [->|N].
      - split; intros (z & X & Gj & Hz & Rz & L); [rewrite Hx' in Hz; injection Hz as <-; exists x, X; rewrite E1 in L; rewrite E2 in Rz; auto|rewrite Hx in Hz; injection Hz as <-; exists x', X; rewrite E1, E2; auto].
      - rewrite (So j N). reflexivity. }
    assert (Ag : forall h2, agree G w' h2 -> agree G w h2).
    { intros h2 A y L N. rewrite A; [apply Fr; [exact L|apply N]|lia|]. intros j C. apply (N j), Pe, C. }
    assert (Bk : forall j z, nth_error (w_schemas w') j = Some z -> (j = s /\ z = x') \/ (j <> s /\ nth_error (w_schemas w) j = Some z)).
    { intros j z Hz. destruct (Nat.eq_dec j s) as [->|N]; [left; split; [reflexivity|congruence]|right; split; [exact N|rewrite <- (So j N); exact Hz]]. }
    constructor.
    - intros j X Gj. destruct (A1 j X Gj) as (Sd & z & Hz & Vz & Lz). split; [exact Sd|]. destruct (Nat.eq_dec j s) as [->|N].
      + exists x'. rewrite Hx in Hz. injection Hz as <-. rewrite E1, E2. split; [exact Hx'|]. split; [congruence|]. intro R. specialize (Lz R). lia.
      + exists z. rewrite (So j N). split; [exact Hz|]. split; [exact Vz|]. intro R. specialize (Lz R). lia.
    - intros j X z Gj Hz Rz Nj. destruct (Bk j z Hz) as [[-> _]|[N Hz0]]; [congruence|]. destruct (A2 j X z Gj Hz0 Rz Nj) as (Pl & An). split; [|exact An].
      intros i n Hn. rewrite Fr; [apply Pl, Hn| |].
      + destruct (A1 j X Gj) as (_ & z' & Hz' & _ & Lz). rewrite Hz0 in Hz'. injection Hz' as <-. specialize (Lz Rz). assert (i < length (wrap (s_value z) None [] X)) by (apply nth_error_Some; congruence). lia.
      + intro C. assert (i < length (wrap (s_value z) None [] X)) by (apply nth_error_Some; congruence). apply N. apply (A3 j s (s_value z + i)); [|exact C]. exists z, X. repeat split; auto; lia.
    - intros s1 s2 y P1 P2. apply (A3 s1 s2 y); apply Pe; assumption.
    - intros j X z Gj Hz Rz. destruct (Bk j z Hz) as [[-> ->]|[N Hz0]]; [congruence|]. destruct (A4 j X z Gj Hz0 Rz) as (B1 & B2 & B3). split; [intros h2 A; apply B1, Ag, A|]. split; [|exact B3].
      intros name b Gb. destruct (B2 name b Gb) as (q & d & D1 & D2 & D3). exists q, d. split; [exact D1|]. split; [exact D2|]. intros h2 A. apply D3, Ag, A.
    - intros k X d Lk Gk. destruct (Sr k X d Lk Gk) as [Gk0|Gd]; [exact (A5 k X d Lk Gk0)|exact Gd].
  Qed.
  (** a document is fetched *)
  Definition with_doc (G : ghost) (i : nat) (X : pv) : ghost := fun j => if Nat.eqb j i then Some X else G j.
  Definition fetched (w : world) (k : pystr) (X : pv) : world :=
    World (w_heap w ++ wrap (length (w_heap w)) None [] X) (w_schemas w ++ [fresh (length (w_heap w)) core]) (dset k (length (w_schemas w)) (w_store w)).
  Lemma known_lt G ex w j X : state G ex w -> G j = Some X -> j < length (w_schemas w).
  Proof. intros St Gj. destruct (st_doc _ _ _ _ _ St j X Gj) as (_ & x & Hx & _). apply nth_error_Some. congruence. Qed.
  Lemma state_more G ex w h' ss' st' i X : state G ex w -> sound_document auth Lib X ->
    h' = w_heap w ++ wrap (length (w_heap w)) None [] X -> ss' = w_schemas w ++ [fresh (length (w_heap w)) core] -> i = length (w_schemas w) ->
    (forall k Y d, Lib k = Some Y -> dget k st' = Some d -> dget k (w_store w) = Some d \/ (d = i /\ Y = X)) ->
    ex <> Some i -> state (with_doc G i X) ex (World h' ss' st').
  Proof.
    intros St Sx Eh Es Ei Sr Nex. pose proof St as [A1 A2 A3 A4 A5]. subst h' ss'.
    assert (Ol : forall j Y, with_doc G i X j = Some Y -> (j = i /\ Y = X) \/ (j <> i /\ G j = Some Y /\ j < length (w_schemas w))).
    { intros j Y. unfold with_doc. destruct (Nat.eqb_spec j i) as [->|N]; [intros [= <-]; auto|]. intro Gj. right. split; [exact N|]. split; [exact Gj|]. eapply known_lt; eassumption. }
    assert (Gi : G i = None). { destruct (G i) as [Y|] eqn:E; [|reflexivity]. pose proof (known_lt _ _ _ _ _ St E). lia. }
    assert (In : forall j Y, G j = Some Y -> with_doc G i X j = Some Y). { intros j Y Gj. unfold with_doc. destruct (Nat.eqb_spec j i) as [->|N]; [congruence|exact Gj]. }
    assert (Ni : nth_error (w_schemas w ++ [fresh (length (w_heap w)) core]) i = Some (fresh (length (w_heap w)) core)) by (rewrite Ei, nth_error_app2, Nat.sub_diag by lia; reflexivity).
    assert (No : forall j x, j <> i -> nth_error (w_schemas w ++ [fresh (length (w_heap w)) core]) j = Some x -> nth_error (w_schemas w) j = Some x).
    { intros j x N H. assert (j < length (w_schemas w)). { assert (j < length (w_schemas w ++ [fresh (length (w_heap w)) core])) by (apply nth_error_Some; congruence). rewrite app_length in *. cbn [length] in *. lia. } rewrite nth_error_app1 in H by lia. exact H. }
    assert (Pe : forall j y, pending (with_doc G i X) (World (w_heap w ++ wrap (length (w_heap w)) None [] X) (w_schemas w ++ [fresh (length (w_heap w)) core]) st') j y ->
      (j = i /\ length (w_heap w) <= y < length (w_heap w) + length (wrap (length (w_heap w)) None [] X)) \/ (j <> i /\ pending G w j y /\ y < length (w_heap w))).
    { intros j y (x & Y & Gj & Hx & Rx & L). cbn [w_schemas] in Hx. destruct (Ol j Y Gj) as [[-> ->]|(N & Gj0 & Lj)].
      - rewrite Ni in Hx. injection Hx as <-. left. split; [reflexivity|]. exact L.
      - right. split; [exact N|]. apply No in Hx; [|exact N]. split; [exists x, Y; auto|]. destruct (A1 j Y Gj0) as (_ & x' & Hx' & _ & Lx). rewrite Hx in Hx'. injection Hx' as <-. specialize (Lx Rx). lia. }
    assert (Pi : forall j y, pending G w j y -> pending (with_doc G i X) (World (w_heap w ++ wrap (length (w_heap w)) None [] X) (w_schemas w ++ [fresh (length (w_heap w)) core]) st') j y).
    { intros j y (x & Y & Gj & Hx & R). exists x, Y. split; [apply In, Gj|]. split; [|exact R]. cbn [w_schemas]. rewrite nth_error_app1 by (apply nth_error_Some; congruence). exact Hx. }
    assert (Ag : forall h2, agree (with_doc G i X) (World (w_heap w ++ wrap (length (w_heap w)) None [] X) (w_schemas w ++ [fresh (length (w_heap w)) core]) st') h2 -> agree G w h2).
    { intros h2 A y L N. rewrite A.
      - cbn [w_heap]. unfold hget. rewrite nth_error_app1 by exact L. reflexivity.
      - cbn [w_heap]. rewrite app_length. lia.
      - intros j C. destruct (Pe j y C) as [(_ & C')|(_ & C' & _)]; [lia|exact (N j C')]. }
    constructor; cbn [w_heap w_schemas w_store].
    - intros j Y Gj. destruct (Ol j Y Gj) as [[-> ->]|(N & Gj0 & Lj)].
      + split; [exact Sx|]. exists (fresh (length (w_heap w)) core). split; [exact Ni|]. split; [reflexivity|]. intros _. cbn [s_value fresh]. rewrite app_length. lia.
      + destruct (A1 j Y Gj0) as (Sd & x & Hx & Vx & Lx). split; [exact Sd|]. exists x. split; [rewrite nth_error_app1 by exact Lj; exact Hx|]. split; [exact Vx|]. intro R. specialize (Lx R). rewrite app_length. lia.
    - intros j Y x Gj Hx Rx Nj. destruct (Ol j Y Gj) as [[-> ->]|(N & Gj0 & Lj)].
      + rewrite Ni in Hx. injection Hx as <-. split; [apply placed_end|reflexivity].
      + apply No in Hx; [|exact N]. destruct (A2 j Y x Gj0 Hx Rx Nj) as (Pl & An). split; [|exact An]. intros z n Hn. apply hget_app1, Pl, Hn.
    - intros s1 s2 y P1 P2. apply Pe in P1. apply Pe in P2. destruct P1 as [(-> & L1)|(N1 & P1 & L1)], P2 as [(-> & L2)|(N2 & P2 & L2)]; try lia. exact (A3 _ _ _ P1 P2).
    - intros j Y x Gj Hx Rx. destruct (Ol j Y Gj) as [[-> ->]|(N & Gj0 & Lj)]; [rewrite Ni in Hx; injection Hx as <-; discriminate|]. apply No in Hx; [|exact N].
      destruct (A4 j Y x Gj0 Hx Rx) as (B1 & B2 & B3). split; [intros h2 A; eapply joined_more; [exact In|apply B1, Ag, A]|]. split; [|exact B3].
      intros name b Gb. destruct (B2 name b Gb) as (q & d & D1 & D2 & D3). exists q, d. split; [exact D1|]. split; [exact D2|]. intros h2 A. eapply joined_more; [exact In|apply D3, Ag, A].
    - intros k Y d Lk Gk. destruct (Sr k Y d Lk Gk) as [Gk0|[-> ->]]; [apply In, (A5 k Y d Lk Gk0)|]. unfold with_doc. rewrite Nat.eqb_refl. reflexivity.
  Qed.

  (** how the anchors of the document change *)
  Definition anchored (w w' : world) (P : pystr -> addr -> Prop) : Prop :=
    forall x x', nth_error (w_schemas w) s = Some x -> nth_error (w_schemas w') s = Some x' ->
      (forall name b, dget name (s_anchors x') = Some b -> dget name (s_anchors x) = Some b \/ P name b) /\
      (forall name b, P name b -> dmem name (s_anchors x') = true) /\ (forall name, dmem name (s_anchors x) = true -> dmem name (s_anchors x') = true).
  Lemma anchored_same w w' (P : pystr -> addr -> Prop) : (forall x x', nth_error (w_schemas w) s = Some x -> nth_error (w_schemas w') s = Some x' -> s_anchors x' = s_anchors x) -> (forall name b, ~ P name b) -> anchored w w' P.
  Proof. intros E N x x' Hx Hx'. rewrite (E x x' Hx Hx'). split; [auto|]. split; [intros name b C; destruct (N _ _ C)|auto]. Qed.
  Lemma anchored_trans w w1 w2 x1 (P Q R : pystr -> addr -> Prop) : nth_error (w_schemas w1) s = Some x1 -> anchored w w1 P -> anchored w1 w2 Q -> (forall name b, R name b <-> P name b \/ Q name b) -> anchored w w2 R.
  Proof.
    intros H1 A B E x x2 Hx Hx2. destruct (A x x1 Hx H1) as (A1 & A2 & A3). destruct (B x1 x2 H1 Hx2) as (B1 & B2 & B3). split; [|split].
    - intros name b Gb. destruct (B1 name b Gb) as [Gb1|Qb]; [|right; apply E; auto]. destruct (A1 name b Gb1) as [Gb0|Pb]; [auto|right; apply E; auto].
    - intros name b Rb. apply E in Rb as [Pb|Qb]; [eapply B3, A2, Pb|eapply B2, Qb].
    - auto.
  Qed.

  Lemma root_id_runs w a its d key x t v k : hget (w_heap w) a = Some (Node (PObj its) None key) -> texts (w_heap w) its d -> nth_error (w_schemas w) s = Some x ->
    id_member d = Some (VStr t) -> mk_uri auth t = Ok v -> u_frag v = [] -> is_absolute auth v = Ok true -> key_of auth v = Ok k ->
    forall rec, apply_kws auth strx fetch rec [AKId] s a w =
      (World (w_heap w) (lput (w_schemas w) s (Schema (s_value x) (s_ready x) (s_voc x) (s_anchors x) (Some v))) (if dmem k (w_store w) then w_store w else dset k s (w_store w)), Ok a).
  Proof.
    intros Ha T Hx Ei Eu Ef Ab Ek rec. assert (Vl : val (w_heap w) a (PObj its)) by (eexists; split; [exact Ha|reflexivity]).
    pose proof (texts_id _ _ _ T) as Ti. rewrite Ei in Ti. destruct Ti as (c & Hc & Vc).
    assert (Kd : keyed its = true) by (unfold keyed; rewrite !dmem_get; unfold id_member in Hc; destruct (dget (u "$id") its); [reflexivity|rewrite Hc; reflexivity]).
    assert (K0 : apply_kws auth strx fetch rec [AKId] s a w = mbind (if keyed its then apply_id auth strx rec s a else ret a) (fun a' => ret a') w).
    { cbn [apply_kws kw_names apply_kw]. unfold mbind at 1. rewrite (any_has_obj rec w a its _ Vl). reflexivity. }
    rewrite K0, Kd. unfold mbind at 1. unfold apply_id. unfold mbind at 1. rewrite (id_text_ok strx rec w a its c t Vl Hc Vc).
    unfold mbind at 1, lift. rewrite Eu, Ef. unfold mbind at 1. rewrite (node_at_ok _ _ _ Ha). cbn [n_parent n_val].
    unfold mbind at 1. rewrite (schema_at_ok _ _ _ Hx). unfold mbind at 1, set_schema. cbn [w_heap w_schemas w_store]. unfold mbind at 1. rewrite (contains_ok auth _ _ k Ek). cbn [w_store].
    unfold mbind at 1. destruct (dmem k (w_store w)) eqn:Ed; cbn [w_store]; [reflexivity|]. rewrite (store_add_ok auth _ _ k _ Ab Ek). reflexivity.
  Qed.

  Lemma pending_of G w x y : G s = Some V -> nth_error (w_schemas w) s = Some x -> s_ready x = false -> (pending G w s y <-> s_value x <= y < s_value x + length (wrap (s_value x) None [] V)).
  Proof.
    intros Gs Hx Rx. split; [intros (x' & V' & G' & H' & _ & L); rewrite Gs in G'; injection G' as <-; rewrite Hx in H'; injection H' as <-; exact L|intro L; exists x, V; auto].
  Qed.

  (** the keywords on an object whose members are done *)
  Lemma object_runs w G a its d par key x top : hget (w_heap w) a = Some (Node (PObj its) par key) -> texts (w_heap w) its d -> NoDup (dkeys d) ->
    nth_error (w_schemas w) s = Some x -> s_voc x = core -> s_ready x = false -> state G (Some s) w -> G s = Some V -> pending G w s a ->
    sound_object auth Lib V top d -> (top = true -> par = None) ->
    exists w' G' a', ev (fun rec => apply_kws auth strx fetch rec core s a) w w' (Ok a') /\ grows w G w' G' a 1 /\
      anchored w w' (fun name b => b = a /\ dget (u "$ref") d = None /\ dget (u "$anchor") d = Some (VStr name)) /\
      ((dget (u "$ref") d = None /\ a' = a /\ w_heap w' = hset (w_heap w) a (PObj (ddel (u "$anchor") its))) \/
       (exists t v e p, dget (u "$ref") d = Some (VStr t) /\ dest auth Lib G' s t v e p /\ length (w_heap w) <= a' /\ S a' = length (w_heap w') /\ (forall j, ~ pending G' w' j a') /\
          hget (w_heap w') a' = Some (Node (PRef (RefData v a e p)) par key) /\ hget (w_heap w') a = Some (Node (PObj its) par key))).
  Proof.
    intros Ha T Nd Hx Vx Rx St Gs Pa So Top.
    assert (Vl : val (w_heap w) a (PObj its)) by (eexists; split; [exact Ha|reflexivity]).
    assert (Zs : forall y, pending G w s y -> y < length (w_heap w)).
    { intros y Py. apply (pending_of G w x y Gs Hx Rx) in Py. destruct (st_doc _ _ _ _ _ St s V Gs) as (_ & x' & Hx' & _ & Lx). rewrite Hx in Hx'. injection Hx' as <-. specialize (Lx Rx). lia. }
    assert (Ndi : NoDup (dkeys its)).
    { assert (E : dkeys its = dkeys d); [|rewrite E; exact Nd]. clear -T. unfold dkeys. induction T as [|[k1 a1] [k2 x2] l m [E _] F IH]; [reflexivity|]. cbn [map fst] in *. congruence. }
    assert (Al : a < length (w_heap w)) by (eapply hget_lt, Ha).
    (* a new node, not in a zone *)
    assert (Alloc : forall w1 G1 nd, grows w G w1 G1 a 1 -> hget (w_heap w1) a = Some (Node (PObj its) par key) ->
      grows w G (World (w_heap w1 ++ [nd]) (w_schemas w1) (w_store w1)) G1 a 1 /\ (forall j, ~ pending G1 (World (w_heap w1 ++ [nd]) (w_schemas w1) (w_store w1)) j (length (w_heap w1)))).
    { intros w1 G1 nd Gr _. destruct Gr as [C1 C2 C3 C4 C5 C6 C7 C8 C9].
      assert (Pe : forall j y, pending G1 (World (w_heap w1 ++ [nd]) (w_schemas w1) (w_store w1)) j y -> y < length (w_heap w1)).
      { intros j y (z & X & Gj & Hz & Rz & L). cbn [w_schemas] in Hz. destruct (st_doc _ _ _ _ _ C8 j X Gj) as (_ & z' & Hz' & _ & Lz). rewrite Hz in Hz'. injection Hz' as <-. specialize (Lz Rz). lia. }
      split; [|intros j C; specialize (Pe _ _ C); lia].
      destruct (C6 x Hx) as (x1 & Hx1 & D1 & D2 & D3).
      constructor; cbn [w_heap w_schemas w_store]; auto.
      - rewrite app_length. lia.
      - intros y L N. rewrite <- C2 by assumption. unfold hget. rewrite nth_error_app1 by lia. reflexivity.
      - apply (state_frame G1 w1); cbn [w_heap w_schemas w_store]; auto.
        + exists x1, x1. rewrite D2. auto 10.
        + rewrite app_length. lia.
        + intros y L _. unfold hget. rewrite nth_error_app1 by exact L. reflexivity. }
    assert (Gr0 : grows w G w G a 1) by (apply grows_refl, St).
    destruct So as [(t & v & p & Er & Ea & Ei & Rf)|(Er & Oa & Oi)].
    - (* a reference *)
      destruct (texts_some _ _ _ _ _ T Er) as (c & Hc & Vc). pose proof (texts_none _ _ _ _ T Ea) as Na. pose proof (texts_id _ _ _ T) as Ti. rewrite Ei in Ti. destruct (keyed_none _ Ti) as [K1 K2].
      assert (Fin : forall w1 G1 e, grows w G w1 G1 a 1 -> w_schemas w1 = w_schemas w \/ (exists z, w_schemas w1 = w_schemas w ++ [z]) -> hget (w_heap w1) a = Some (Node (PObj its) par key) ->
        dest auth Lib G1 s t v e p ->
        (forall rec, apply_ref auth strx fetch rec s a w = (World (w_heap w1 ++ [Node (PRef (RefData v a e p)) par key]) (w_schemas w1) (w_store w1), Ok (length (w_heap w1)))) ->
        (exists y, nth_error (w_schemas w1) e = Some y /\ (s_ready y = false \/
           s_ready y = true /\ exists f tgt, Runs (CQuery e p) (World (w_heap w1 ++ [Node (PRef (RefData v a e p)) par key]) (w_schemas w1) (w_store w1)) (World (w_heap w1 ++ [Node (PRef (RefData v a e p)) par key]) (w_schemas w1) (w_store w1)) (Ok f) /\
             val (w_heap w1) f (PObj tgt) /\ NoDup (dkeys tgt) /\ dget (u "$anchor") tgt = None /\ id_member tgt = None)) ->
        exists w' G' a', ev (fun rec => apply_kws auth strx fetch rec core s a) w w' (Ok a') /\ grows w G w' G' a 1 /\
          anchored w w' (fun name b => b = a /\ dget (u "$ref") d = None /\ dget (u "$anchor") d = Some (VStr name)) /\
          ((dget (u "$ref") d = None /\ a' = a /\ w_heap w' = hset (w_heap w) a (PObj (ddel (u "$anchor") its))) \/
           (exists t v e p, dget (u "$ref") d = Some (VStr t) /\ dest auth Lib G' s t v e p /\ length (w_heap w) <= a' /\ S a' = length (w_heap w') /\ (forall j, ~ pending G' w' j a') /\
              hget (w_heap w') a' = Some (Node (PRef (RefData v a e p)) par key) /\ hget (w_heap w') a = Some (Node (PObj its) par key)))).
      { intros w1 G1 e Gr1 Ess Ha1 De Ap (y & Hy & Yr). set (nd := Node (PRef (RefData v a e p)) par key) in *. set (w2 := World (w_heap w1 ++ [nd]) (w_schemas w1) (w_store w1)) in *.
        destruct (Alloc w1 G1 nd Gr1 Ha1) as [Gr2 Pe2]. exists w2, G1, (length (w_heap w1)).
        assert (Vr : val (w_heap w2) (length (w_heap w1)) (PRef (RefData v a e p))).
        { exists nd. split; [|reflexivity]. cbn [w2 w_heap]. unfold hget. rewrite nth_error_app2, Nat.sub_diag by lia. reflexivity. }
        assert (Vb : val (w_heap w2) a (PObj its)) by (eexists; split; [cbn [w2 w_heap]; apply hget_app1, Ha1|reflexivity]).
        assert (Has : forall ks, Forall (fun k => dget k its = None /\ (k = u "$anchor" \/ k = u "$id" \/ k = u "id")) ks -> ev (fun rec => any_has rec (length (w_heap w1)) ks) w2 w2 (Ok false)).
        { intros ks F. destruct Yr as [Ry|(Ry & f & tgt & Rq & Hf & N1 & N2 & N3)].
          - pose proof (any_has_ref auth dig strx fetch w2 _ _ its ks y Vr Hy Ry Vb) as A. assert (E : existsb (fun k => dmem k its) ks = false); [|rewrite E in A; exact A].
            clear -F. induction F as [|k ks [K _] _ IH]; cbn [existsb]; [reflexivity|]. rewrite dmem_get, K. exact IH.
          - eapply any_has_merged; [exact Vr|exact Hy|exact Ry|exact Rq|cbn [w2 w_heap]; apply val_app, Hf|exact Vb|exact N1|exact Ndi|]. eapply Forall_impl; [|exact F]. intros k [K1' K2']. split; [|exact K1'].
            unfold id_member in N3. destruct K2' as [->|[-> | ->]]; [exact N2| |]; destruct (dget (u "$id") tgt); congruence. }
        split; [|split; [exact Gr2|split]].
        - unfold core. cbn [apply_kws]. eapply ev_bind; [apply ev_pure; intro rec; apply (any_has_obj rec w a its _ Vl)|]. cbn [kw_names existsb]. rewrite dmem_get, Hc. cbn [orb].
          eapply ev_bind; [apply ev_pure; intro rec; cbn [apply_kw]; apply Ap|].
          eapply ev_bind; [apply Has; repeat constructor; auto|]. eapply ev_bind; [apply ev_ret|].
          eapply ev_bind; [apply Has; unfold id_member in Ti; repeat constructor; auto; destruct (dget (u "$id") its); congruence|]. eapply ev_bind; [apply ev_ret|]. apply ev_ret.
        - apply anchored_same; [|intros name b (_ & C & _); congruence]. intros x0 x0' H0 H0'. cbn [w2 w_schemas] in H0'. destruct Ess as [E|[z E]]; rewrite E in H0'; [congruence|]. rewrite nth_error_app1 in H0' by (apply nth_error_Some; congruence). congruence.
        - right. exists t, v, e, p. split; [exact Er|]. split; [exact De|]. split; [exact (g_len _ _ _ _ _ _ Gr1)|]. split; [cbn [w2 w_heap]; rewrite app_length; change (length [nd]) with 1; lia|]. split; [exact Pe2|].
          split; [cbn [w2 w_heap]; unfold hget; rewrite nth_error_app2, Nat.sub_diag by lia; reflexivity|]. cbn [w2 w_heap]. apply hget_app1, Ha1. }
      assert (Stu : forall rec, (t <~ member_str strx rec a (u "$ref") ;; ret t) w = (w, Ok t)). { intro rec. unfold mbind at 1. rewrite (member_obj strx rec w a its _ _ _ Vl Hc Vc). reflexivity. }
      destruct Rf as [L|(k & V' & y & Rm & Lk & Py & Po)].
      + apply (Fin w G s Gr0); [left; reflexivity|exact Ha|left; split; [exact L|reflexivity]| |exists x; auto].
        intro rec. destruct L as (L1 & L2 & bu & L3 & L4). unfold apply_ref. unfold mbind at 1. rewrite (member_obj strx rec w a its _ _ _ Vl Hc Vc). unfold mbind at 1, lift. rewrite L1. unfold mbind at 1. rewrite L2. unfold mbind at 1. rewrite L3.
        unfold mbind at 1. rewrite (node_at_ok _ _ _ Ha), L4. reflexivity.
      + pose proof Rm as (L1 & L2 & (bu & L3 & L4) & L5).
        assert (Ap : forall rec, apply_ref auth strx fetch rec s a w = (e <~ store_load auth fetch v core ;; alloc (Node (PRef (RefData v a e p)) par key)) w).
        { intro rec. unfold apply_ref. unfold mbind at 1. rewrite (member_obj strx rec w a its _ _ _ Vl Hc Vc). unfold mbind at 1, lift. rewrite L1. unfold mbind at 1. rewrite L2. unfold mbind at 1. rewrite L3.
          unfold mbind at 1. rewrite (node_at_ok _ _ _ Ha), L4. unfold mbind at 1. rewrite (schema_at_ok _ _ _ Hx), Vx. reflexivity. }
        destruct (dget k (w_store w)) as [e|] eqn:Gk.
        * (* a document of the store *)
          pose proof (st_store _ _ _ _ _ St k V' e Lk Gk) as Ge.
          apply (Fin w G e Gr0); [left; reflexivity|exact Ha|right; exists k, V'; auto| |].
          -- intro rec. rewrite Ap. unfold mbind at 1. unfold store_load, store_key. unfold mbind at 1, lift. rewrite L5. unfold mbind at 1, get_world. rewrite Gk. reflexivity.
          -- destruct (st_doc _ _ _ _ _ St e V' Ge) as ((_ & De & _) & y' & Hy & _ & _). exists y'. split; [exact Hy|]. destruct (s_ready y') eqn:Ry; [right|left; reflexivity]. split; [reflexivity|].
             destruct Po as (f & de & -> & P1 & P2 & P3).
             set (nd := Node (PRef (RefData v a e p)) par key). destruct (Alloc w G nd Gr0 Ha) as [Gr2 _]. pose proof (g_state _ _ _ _ _ _ Gr2) as St2. set (w2 := World (w_heap w ++ [nd]) (w_schemas w) (w_store w)) in *.
             destruct (query_place auth dig strx fetch Lib Dig G (Some s) w2 e V' y' p _ St2 Ge Hy Ry Py) as (b & Rq & Fb).
             (* the target, in the heap before *)
             destruct (query_place auth dig strx fetch Lib Dig G (Some s) w e V' y' p _ St Ge Hy Ry Py) as (b0 & Rq0 & Fb0).
             pose proof (place_distinct _ _ _ Py De) as Dt. cbn [snd] in Dt.
             assert (Q : exists tgt, val (w_heap w2) b (PObj tgt) /\ NoDup (dkeys tgt) /\ dget (u "$anchor") tgt = None /\ id_member tgt = None).
             { unfold found in Fb. cbn [fst snd] in Fb. destruct f.
               - inversion Fb as [| | | | | | |? ? tgt Hv F]; subst. exists tgt. split; [exact Hv|]. split; [eapply NoDup_forall2; [exact F|apply distinct_dict, Dt]|].
                 pose proof (fun k => dget_forall2 (fun c y => holds (w_heap w2) c y) _ _ k F) as Q. split; [specialize (Q (u "$anchor")); rewrite (P2 eq_refl) in Q; exact Q|].
                 unfold id_member in *. pose proof (Q (u "$id")) as Q1. pose proof (Q (u "id")) as Q2. destruct (dget (u "$id") de); [discriminate|]. rewrite P3 in Q2. rewrite Q1. exact Q2.
               - specialize (P1 eq_refl). inversion Fb as [? ? C|? ? tgt _ Hv F|? ? ? ? ? ? ? ? C]; subst; [exfalso; eapply C; reflexivity| |congruence]. exists tgt. split; [exact Hv|]. split; [eapply NoDup_forall2; [exact F|apply NoDup_ddel, distinct_dict, Dt]|].
                 pose proof (fun k => dget_forall2 (fun c y => joined G (w_heap w2) e c y) _ _ k F) as Q. split.
                 + specialize (Q (u "$anchor")). assert (E : dget (u "$anchor") (ddel (u "$anchor") de) = None); [|rewrite E in Q; exact Q]. apply dget_ddel_gone, distinct_dict, Dt.
                 + unfold id_member in *. pose proof (Q (u "$id")) as Q1. pose proof (Q (u "id")) as Q2. rewrite dget_ddel_neq in Q1, Q2 by discriminate. destruct (dget (u "$id") de); [discriminate|]. rewrite P3 in Q2. rewrite Q1. exact Q2. }
             destruct Q as (tgt & Hv & Q). exists b, tgt. split; [exact Rq|]. split; [|exact Q].
             destruct Hv as (nb & Hnb & Enb). exists nb. split; [|exact Enb]. cbn [w2 w_heap] in Hnb. destruct (Nat.lt_ge_cases b (length (w_heap w))) as [Lb|Lb]; [unfold hget in *; rewrite nth_error_app1 in Hnb by exact Lb; exact Hnb|].
             exfalso. unfold hget in Hnb. rewrite nth_error_app2 in Hnb by exact Lb. destruct (b - length (w_heap w)) as [|i]; [cbn in Hnb; injection Hnb as <-; discriminate|destruct i; discriminate].
        * (* a document to be fetched *)
          pose proof (Fetch _ _ _ _ _ Rm Lk) as Ft. pose proof (LibOk k V' Lk) as SV'. pose proof SV' as ((dv & ->) & _).
          assert (Ls : s < length (w_schemas w)) by (eapply known_lt; eassumption).
          assert (Gr1 : grows w G (fetched w k (VDict dv)) (with_doc G (length (w_schemas w)) (VDict dv)) a 1).
          { constructor; cbn [fetched w_heap w_schemas w_store].
            - rewrite app_length. lia.
            - intros y0 L _. unfold hget. rewrite nth_error_app1 by exact L. reflexivity.
            - intros j X Gj. unfold with_doc. destruct (Nat.eqb_spec j (length (w_schemas w))) as [->|]; [|exact Gj]. pose proof (known_lt _ _ _ _ _ St Gj). lia.
            - intros j X Gj. unfold with_doc in Gj. destruct (Nat.eqb_spec j (length (w_schemas w))) as [->|]; [|left; exact Gj]. right. exists (fresh (length (w_heap w)) core). split; [rewrite nth_error_app2, Nat.sub_diag by lia; reflexivity|]. cbn [s_value fresh]. lia.
            - intros j x0 _ Hx0. rewrite nth_error_app1 by (apply nth_error_Some; congruence). exact Hx0.
            - intros x0 Hx0. exists x0. split; [rewrite nth_error_app1 by (apply nth_error_Some; congruence); exact Hx0|auto].
            - intros k0 e0 G0. rewrite dget_dset_neq; [exact G0|]. congruence.
            - apply (state_more G (Some s) w); auto; [|intros [= C]; lia].
              intros k0 Y e0 Lk0 G0. destruct (str_eqb_spec k0 k) as [->|Nk]; [rewrite dget_dset_eq in G0; injection G0 as <-; right; split; [reflexivity|congruence]|]. left. rewrite dget_dset_neq in G0 by exact Nk. exact G0.
            - intros j Lj1 Lj2. rewrite app_length in Lj2. cbn [length] in Lj2. exists k, (VDict dv). split; [exact Lk|]. rewrite dget_dset_eq. f_equal. lia. }
          apply (Fin _ _ (length (w_schemas w)) Gr1).
          -- right. eexists. reflexivity.
          -- cbn [fetched w_heap]. apply hget_app1, Ha.
          -- right. exists k, (VDict dv). split; [exact Rm|]. split; [exact Lk|]. unfold with_doc. rewrite Nat.eqb_refl. reflexivity.
          -- intro rec. rewrite Ap. unfold mbind at 1. unfold store_load, store_key. unfold mbind at 1, lift. rewrite L5. unfold mbind at 1, get_world. rewrite Gk. unfold mbind at 1. rewrite Ft.
             unfold mbind at 1. unfold make_schema. unfold mbind at 1, wrap_new, new, add_schema. reflexivity.
          -- exists (fresh (length (w_heap w)) core). split; [cbn [fetched w_schemas]; rewrite nth_error_app2, Nat.sub_diag by lia; reflexivity|left; reflexivity].
    - (* no reference *)
      pose proof (texts_none _ _ _ _ T Er) as Nr.
      set (A' := match dget (u "$anchor") d with Some (VStr t) => dset t a (s_anchors x) | _ => s_anchors x end).
      set (w1 := World (hset (w_heap w) a (PObj (ddel (u "$anchor") its))) (lput (w_schemas w) s (Schema (s_value x) (s_ready x) (s_voc x) A' (s_id x))) (w_store w)).
      assert (S1 : forall rec, apply_kws auth strx fetch rec core s a w = apply_kws auth strx fetch rec [AKId] s a w1).
      { intro rec. unfold core. cbn [apply_kws]. unfold mbind at 1. rewrite (any_has_obj rec w a its _ Vl). cbn [kw_names existsb]. rewrite dmem_get, Nr. cbn [orb]. unfold mbind at 1. cbn [ret].
        unfold mbind at 1. rewrite (any_has_obj rec w a its _ Vl). cbn [kw_names existsb].
        destruct Oa as [Na|(t & Ea)].
        - pose proof (texts_none _ _ _ _ T Na) as Na'. rewrite dmem_get, Na'. cbn [orb]. assert (E : w1 = w); [|rewrite E; reflexivity].
          unfold w1, A'. rewrite Na, ddel_absent by (rewrite dmem_get, Na'; reflexivity). rewrite (hset_same _ _ _ Vl).
          destruct w as [h ss st]. cbn [w_heap w_schemas w_store] in *. f_equal. apply lput_same. destruct x; exact Hx.
        - destruct (texts_some _ _ _ _ _ T Ea) as (c & Hc & Vc). rewrite dmem_get, Hc. cbn [orb apply_kw]. unfold mbind at 1. unfold apply_anchor. unfold mbind at 1.
          rewrite (member_obj strx rec w a its _ _ _ Vl Hc Vc). unfold mbind at 1. rewrite (schema_at_ok _ _ _ Hx). unfold mbind at 1, set_schema. cbn [w_heap w_schemas w_store].
          unfold mbind at 1, node_at. cbn [w_heap]. rewrite Ha. cbn [n_val]. unfold mbind at 1, set_value. cbn [w_heap w_schemas w_store]. unfold ret at 1. unfold w1, A'. rewrite Ea. reflexivity. }
      assert (Ha1 : hget (w_heap w1) a = Some (Node (PObj (ddel (u "$anchor") its)) par key)) by (cbn [w1 w_heap]; rewrite hget_hset, Nat.eqb_refl, Ha; reflexivity).
      assert (T1 : texts (w_heap w1) (ddel (u "$anchor") its) (ddel (u "$anchor") d)).
      { apply texts_ddel. eapply texts_impl; [|exact T]. intros y t Vy. cbn [w1 w_heap]. eapply str_hset; eassumption. }
      assert (Hx1 : nth_error (w_schemas w1) s = Some (Schema (s_value x) (s_ready x) (s_voc x) A' (s_id x))) by (cbn [w1 w_schemas]; rewrite nth_lput, Nat.eqb_refl, Hx; reflexivity).
      assert (Ei1 : id_member (ddel (u "$anchor") d) = id_member d) by (unfold id_member; rewrite !dget_ddel_other by discriminate; reflexivity).
      (* the world after the id *)
      assert (S2 : exists w2, (forall rec, apply_kws auth strx fetch rec [AKId] s a w1 = (w2, Ok a)) /\ w_heap w2 = w_heap w1 /\
        (forall j, j <> s -> nth_error (w_schemas w2) j = nth_error (w_schemas w) j) /\ (exists x2, nth_error (w_schemas w2) s = Some x2 /\ s_value x2 = s_value x /\ s_ready x2 = s_ready x /\ s_voc x2 = s_voc x /\ s_anchors x2 = A') /\
        (forall k e, dget k (w_store w) = Some e -> dget k (w_store w2) = Some e) /\ (forall k X e, Lib k = Some X -> dget k (w_store w2) = Some e -> dget k (w_store w) = Some e \/ (e = s /\ X = V))).
      { destruct Oi as [Ni|(Et & t & v & k & Ei & Eu & Ef & Ab & Ek & Lk)].
        - exists w1. split; [|split; [reflexivity|split; [|split; [|split]]]].
          + intro rec. pose proof (texts_id _ _ _ T1) as Ti. rewrite Ei1, Ni in Ti. destruct (keyed_none _ Ti) as [K1 K2]. cbn [apply_kws kw_names]. unfold mbind at 1.
            rewrite (any_has_obj rec w1 a _ _ ltac:(eexists; split; [exact Ha1|reflexivity])). cbn [existsb]. rewrite K1, K2. reflexivity.
          + intros j Nj. cbn [w1 w_schemas]. rewrite nth_lput. destruct (Nat.eqb_spec s j); [congruence|reflexivity].
          + eexists. split; [exact Hx1|]. auto.
          + auto.
          + cbn [w1 w_store]. auto.
        - pose proof (Top Et) as ->. exists (World (w_heap w1) (lput (w_schemas w1) s (Schema (s_value x) (s_ready x) (s_voc x) A' (Some v))) (if dmem k (w_store w1) then w_store w1 else dset k s (w_store w1))). split; [|split; [reflexivity|split; [|split; [|split]]]].
          + intro rec. exact (root_id_runs w1 a _ (ddel (u "$anchor") d) key _ t v k Ha1 T1 Hx1 ltac:(rewrite Ei1; exact Ei) Eu Ef Ab Ek rec).
          + intros j Nj. cbn [w_schemas]. rewrite nth_lput. destruct (Nat.eqb_spec s j); [congruence|]. cbn [w1 w_schemas]. rewrite nth_lput. destruct (Nat.eqb_spec s j); [congruence|reflexivity].
          + eexists. cbn [w_schemas]. rewrite nth_lput, Nat.eqb_refl, Hx1. split; [reflexivity|]. auto.
          + intros k0 e G0. cbn [w_store w1]. destruct (dmem k (w_store w)) eqn:Em; [exact G0|]. rewrite dget_dset_neq; [exact G0|]. intros ->. rewrite dmem_get, G0 in Em. discriminate.
          + intros k0 X e L0 G0. cbn [w_store w1] in G0. destruct (dmem k (w_store w)) eqn:Em; [left; exact G0|]. destruct (str_eqb_spec k0 k) as [->|Nk]; [|left; rewrite dget_dset_neq in G0 by exact Nk; exact G0].
            rewrite dget_dset_eq in G0. injection G0 as <-. right. split; [reflexivity|]. destruct Lk; congruence. }
      destruct S2 as (w2 & R2 & H2 & O2 & (x2 & Hx2 & B1 & B2 & B3 & B4) & St2 & Sr2). exists w2, G, a. split; [|split; [|split]].
      + apply ev_pure. intro rec. rewrite S1. apply R2.
      + constructor.
        * rewrite H2. cbn [w1 w_heap]. rewrite hset_length. lia.
        * intros y L N. rewrite H2. cbn [w1 w_heap]. rewrite hget_hset. destruct (Nat.eqb_spec a y) as [->|]; [lia|reflexivity].
        * auto.
        * auto.
        * intros j x0 Nj Hx0. rewrite (O2 j Nj). exact Hx0.
        * intros x0 Hx0. rewrite Hx in Hx0. injection Hx0 as <-. exists x2. auto.
        * exact St2.
        * apply (state_frame G w); auto.
          -- exists x, x2. auto 10.
          -- rewrite H2. cbn [w1 w_heap]. rewrite hset_length. lia.
          -- intros y L N. rewrite H2. cbn [w1 w_heap]. rewrite hget_hset. destruct (Nat.eqb_spec a y) as [->|]; [contradiction|reflexivity].
          -- intros k X e Lk Gk. destruct (Sr2 k X e Lk Gk) as [Gk0|[-> ->]]; [left; exact Gk0|right; exact Gs].
        * intros j Lj1 Lj2. assert (Nj : j <> s) by (intros ->; assert (s < length (w_schemas w)) by (apply nth_error_Some; congruence); lia). apply nth_error_Some in Lj2. rewrite (O2 j Nj) in Lj2. apply nth_error_Some in Lj2. lia.
      + intros x0 x0' H0 H0'. rewrite Hx in H0. injection H0 as <-. rewrite Hx2 in H0'. injection H0' as <-. rewrite B4. unfold A'. destruct Oa as [Na|(t & Ea)].
        * rewrite Na. split; [auto|]. split; [intros name b (_ & _ & C); congruence|auto].
        * rewrite Ea. split; [|split].
          -- intros name b Gb. destruct (str_eqb_spec name t) as [->|Nn]; [rewrite dget_dset_eq in Gb; injection Gb as <-; right; auto|left; rewrite dget_dset_neq in Gb by exact Nn; exact Gb].
          -- intros name b (-> & _ & E). injection E as ->. rewrite dmem_get, dget_dset_eq. reflexivity.
          -- intros name Gb. rewrite dmem_get. destruct (str_eqb_spec name t) as [->|Nn]; [rewrite dget_dset_eq; reflexivity|]. rewrite dget_dset_neq by exact Nn. rewrite dmem_get in Gb. exact Gb.
      + left. split; [exact Er|]. split; [reflexivity|]. rewrite H2. reflexivity.
  Qed.

  (** ** Processing a value of the document *)
  (** what holds of every heap that agrees with the new one on the changed part *)
  Definition firm (w w' : world) (G' : ghost) (base n : nat) (P : heap -> Prop) : Prop :=
    forall h2, (forall y, base <= y < base + n \/ length (w_heap w) <= y < length (w_heap w') -> (forall j, j <> s -> ~ pending G' w' j y) -> hget h2 y = hget (w_heap w') y) -> P h2.
  (** objects without reference stay where they are *)
  Definition stays (G : ghost) (h2 : heap) (base : addr) (v : pv) : Prop :=
    forall q b dd, spot base v q b (VDict dd) -> dget (u "$ref") dd = None -> joined G h2 s b (VDict dd).
  Definition stays_items (G : ghost) (h2 : heap) (its : list (pystr * addr)) (d : list (pystr * pv)) : Prop :=
    forall k c x, dget k its = Some c -> dget k d = Some x -> stays G h2 c x.
  Definition marks (base : addr) (v : pv) (name : pystr) (b : addr) : Prop :=
    exists q dd, spot base v q b (VDict dd) /\ dget (u "$ref") dd = None /\ dget (u "$anchor") dd = Some (VStr name).
  Definition marks_items (its : list (pystr * addr)) (d : list (pystr * pv)) (name : pystr) (b : addr) : Prop :=
    exists k c x, dget k its = Some c /\ dget k d = Some x /\ marks c x name b.
  Definition handled (w : world) (G : ghost) (base : addr) (n : nat) (v : pv) : Prop :=
    exists w' G' a', Runs (CProcess s base) w w' (Ok a') /\ grows w G w' G' base n /\ anchored w w' (marks base v) /\
      firm w w' G' base n (fun h2 => joined G' h2 s a' v /\ stays G' h2 base v).
  Definition ready_to (w : world) (G : ghost) (base n : nat) : Prop :=
    state G (Some s) w /\ G s = Some V /\ (exists x, nth_error (w_schemas w) s = Some x /\ s_voc x = core /\ s_ready x = false) /\ forall y, base <= y < base + n -> pending G w s y.
  Lemma ready_after w G w' G' b n base n' : ready_to w G base n' -> grows w G w' G' b n -> ready_to w' G' base n'.
  Proof.
    intros (St & Gs & (x & Hx & Vx & Rx) & Pe) Gr. split; [exact (g_state _ _ _ _ _ _ Gr)|]. split; [exact (g_lib _ _ _ _ _ _ Gr _ _ Gs)|].
    destruct (g_self _ _ _ _ _ _ Gr x Hx) as (x' & Hx' & E1 & E2 & E3). split; [exists x'; split; [exact Hx'|split; congruence]|].
    intros y L. specialize (Pe y L). apply (pending_of G w x y Gs Hx Rx) in Pe. apply (pending_of G' w' x' y (g_lib _ _ _ _ _ _ Gr _ _ Gs) Hx' ltac:(congruence)). rewrite E1. exact Pe.
  Qed.
  Lemma ready_lt w G base n y : ready_to w G base n -> base <= y < base + n -> y < length (w_heap w).
  Proof.
    intros (St & Gs & (x & Hx & Vx & Rx) & Pe) L. specialize (Pe y L). apply (pending_of G w x y Gs Hx Rx) in Pe. destruct (st_doc _ _ _ _ _ St s V Gs) as (_ & x' & Hx' & _ & Lx). rewrite Hx in Hx'. injection Hx' as <-. specialize (Lx Rx). lia.
  Qed.
  Lemma ready_sub w G b n b' n' : ready_to w G b n -> b <= b' -> b' + n' <= b + n -> ready_to w G b' n'.
  Proof. intros (St & Gs & X & Pe) L1 L2. split; [exact St|]. split; [exact Gs|]. split; [exact X|]. intros y L. apply Pe. lia. Qed.
  (** the part of [s] is in no other zone *)
  Lemma ready_other w G base n y j : ready_to w G base n -> base <= y < base + n -> j <> s -> ~ pending G w j y.
  Proof. intros (St & Gs & _ & Pe) L N C. apply N. exact (st_apart _ _ _ _ _ St j s y C (Pe y L)). Qed.

  Lemma handle_leaf v : (forall d, v <> VDict d) -> forall w G base par key, placed (w_heap w) base (wrap base par key v) -> ready_to w G base (length (wrap base par key v)) -> handled w G base (length (wrap base par key v)) v.
  Proof.
    intros Leaf w G base par key P Rd. exists w, G, base. split; [|split; [|split]].
    - pose proof (wrap_holds _ _ _ _ _ P) as H. apply ev_step. cbn [Doc.step]. unfold process.
      inversion H as [? Vx|? ? Vx|? ? Vx|? ? ? Vx|? ? ? Vx|? ? ? Vx|? ? els Vx F|? ? its Vx F]; subst; try (exfalso; eapply Leaf; reflexivity);
        (eapply ev_bind; [apply (runs_type _ _ _ _ w base _ Vx eq_refl)|]; apply ev_ret).
    - apply grows_refl, Rd.
    - apply anchored_same; [congruence|]. intros name b (q & dd & Sp & _). inversion Sp; subst; eapply Leaf; reflexivity.
    - intros h2 A. split; [|intros q b dd Sp; inversion Sp; subst; exfalso; eapply Leaf; reflexivity].
      apply jn_leaf; [exact Leaf|]. eapply wrap_holds, holds_agree; [exact P|]. intros y Hy. apply A; [left; exact Hy|]. intros j Nj. eapply ready_other; eassumption.
  Qed.

  Lemma handle_value v : forall w G base par key top, placed (w_heap w) base (wrap base par key v) -> ready_to w G base (length (wrap base par key v)) ->
    distinct v -> sound auth Lib V top v -> (top = true -> par = None) -> handled w G base (length (wrap base par key v)) v.
  Proof.
    induction v as [v Hl Hd|l0 IH|d IH] using pv_ind_deep; intros w G base par key top P Rd Di So Top.
    1: eapply handle_leaf; eassumption.
    1: eapply handle_leaf; [discriminate|eassumption|eassumption].
    inversion So as [? ? C|? ? Sob Sod]; subst; [exfalso; eapply C; reflexivity|].
    inversion Di as [? _ C|?|? Nd Fd]; subst; [exfalso; eapply C; reflexivity|].
    rewrite wrap_dict in *. apply placed_cons in P as [P1 P2]. cbn [length] in *. set (its := fst (wrap_items base (S base) d)) in *. set (N := length (snd (wrap_items base (S base) d))) in *.
    (* the members *)
    assert (K : forall b w G, base < b -> placed (w_heap w) b (snd (wrap_items base b d)) -> ready_to w G b (length (snd (wrap_items base b d))) ->
      exists w' G' its', ev (fun rec => mmap (mapper s rec) (fst (wrap_items base b d))) w w' (Ok its') /\ grows w G w' G' b (length (snd (wrap_items base b d))) /\
        anchored w w' (marks_items (fst (wrap_items base b d)) d) /\
        firm w w' G' b (length (snd (wrap_items base b d))) (fun h2 => Forall2 (fun ka kx => fst ka = fst kx /\ joined G' h2 s (snd ka) (snd kx)) its' d /\ stays_items G' h2 (fst (wrap_items base b d)) d)).
    { clear -IH Sod Fd Nd Dig LibOk Fetch. induction IH as [|[k v] d Hv _ IHd]; intros b w G Lb P Rd.
      - exists w, G, []. split; [apply ev_ret|]. split; [apply grows_refl, Rd|]. split; [apply anchored_same; [congruence|]; intros name b0 (k & c & x & C & _); discriminate|]. intros h2 _. split; [constructor|]. intros k0 c0 x0 Hc. discriminate.
      - inversion Sod as [|? ? So1 So2]; subst. inversion Fd as [|? ? Fd1 Fd2]; subst. unfold dkeys in Nd. cbn [map fst] in Nd. inversion Nd as [|? ? Nd1 Nd2]; subst. cbn [snd] in *.
        rewrite wrap_items_cons in P, Rd. cbn [snd] in P, Rd. rewrite app_length in Rd. apply placed_app in P as [Pv' Pd'].
        assert (Rv : ready_to w G b (length (wrap b (Some base) k v))) by (eapply ready_sub; [exact Rd|lia|lia]).
        destruct (Hv w G b (Some base) k false Pv' Rv Fd1 So1 ltac:(discriminate)) as (w1 & G1 & a1 & R1 & E1 & An1 & L1).
        pose proof (g_len _ _ _ _ _ _ E1) as Len1.
        assert (Rd1 : ready_to w1 G1 (after b (wrap b (Some base) k v)) (length (snd (wrap_items base (after b (wrap b (Some base) k v)) d)))).
        { eapply ready_after; [|exact E1]. eapply ready_sub; [exact Rd|unfold after; lia|unfold after; lia]. }
        destruct (IHd So2 Nd2 Fd2 (after b (wrap b (Some base) k v)) w1 G1) as (w2 & G2 & its2 & R2 & E2 & An2 & L2).
        + unfold after. lia.
        + eapply placed_mono; [|exact Pd']. intros y n Ly Hy. unfold after in Ly. rewrite (g_frame _ _ _ _ _ _ E1); [exact Hy|apply hget_lt in Hy; exact Hy|lia].
        + exact Rd1.
        + pose proof (g_len _ _ _ _ _ _ E2) as Len2. exists w2, G2, ((k, a1) :: its2). rewrite wrap_items_cons. cbn [fst snd]. split; [|split; [|split]].
          * cbn [mmap]. eapply ev_bind with (w1 := w1) (a := (k, a1)); [unfold mapper; cbn [fst snd]; eapply ev_bind; [exact R1|apply ev_ret]|]. eapply ev_bind; [exact R2|apply ev_ret].
          * rewrite app_length. eapply grows_trans; [exact E1|exact E2].
          * destruct Rd1 as (_ & _ & (x1 & Hx1 & _) & _). eapply (anchored_trans _ _ _ x1); [exact Hx1|exact An1|exact An2|]. intros name b0. split.
            -- intros (k0 & c & x & G0 & G3 & M). cbn [dget fst] in G0, G3. destruct (str_eqb_spec k0 k) as [->|Nk]; [injection G0 as <-; injection G3 as <-; left; exact M|right; exists k0, c, x; auto].
            -- intros [M|(k0 & c & x & G0 & G3 & M)].
               ++ exists k, b, v. cbn [dget fst]. rewrite str_eqb_refl. auto.
               ++ exists k0, c, x. cbn [dget fst]. destruct (str_eqb_spec k0 k) as [->|Nk]; [|auto]. exfalso. apply Nd1. apply dget_In in G3. apply (in_map fst) in G3. exact G3.
          * unfold after in *. rewrite app_length. intros h2 A.
            assert (Q1 : joined G1 h2 s a1 v /\ stays G1 h2 b v).
            { apply L1. intros y Hy Ny. rewrite A.
              - assert (Ly : y < length (w_heap w1)) by (destruct Hy as [Hy|Hy]; [pose proof (ready_lt _ _ _ _ y Rv Hy); lia|lia]).
                apply (g_frame _ _ _ _ _ _ E2); [exact Ly|]. intro C. destruct Hy as [Hy|Hy]; [lia|].
                pose proof (ready_lt _ _ _ _ y Rd ltac:(lia)). lia.
              - lia.
              - intros j Nj C. apply (Ny j Nj). assert (Ly : y < length (w_heap w1)) by (destruct Hy as [Hy|Hy]; [pose proof (ready_lt _ _ _ _ y Rv Hy); lia|lia]). exact (grows_pending _ _ _ _ _ _ _ _ E2 (g_state _ _ _ _ _ _ E1) C Ly). }
            destruct Q1 as [Q1 Q2]. destruct (L2 h2) as [Q3 Q4]; [intros y Hy; apply A; lia|]. pose proof (g_lib _ _ _ _ _ _ E2) as In2. split.
            -- constructor; [split; [reflexivity|eapply joined_more; [exact In2|exact Q1]]|exact Q3].
            -- intros k0 c0 x0 Hc Hx0. cbn [fst dget] in Hc, Hx0. destruct (str_eqb k0 k); [injection Hc as <-; injection Hx0 as <-|eapply Q4; eassumption].
               intros q b0 dd Sp Nr. eapply joined_more; [exact In2|]. eapply Q2; eassumption. }
    destruct (K (S base) w G ltac:(lia) P2) as (w1 & G1 & its' & R1 & E1 & An1 & L1); [eapply ready_sub; [exact Rd|lia|unfold N; lia]|]. clear K. fold its in R1, An1, L1. fold N in E1, L1.
    pose proof (g_len _ _ _ _ _ _ E1) as Len1. assert (Lb : base < length (w_heap w)) by (apply hget_lt in P1; exact P1).
    assert (Hb1 : hget (w_heap w1) base = Some (Node (PObj its) par key)) by (rewrite (g_frame _ _ _ _ _ _ E1); [exact P1|exact Lb|lia]).
    set (w2 := World (hset (w_heap w1) base (PObj its')) (w_schemas w1) (w_store w1)).
    assert (Hb2 : hget (w_heap w2) base = Some (Node (PObj its') par key)) by (cbn [w2 w_heap]; rewrite hget_hset, Nat.eqb_refl, Hb1; reflexivity).
    assert (Ag : forall y, y <> base -> hget (w_heap w2) y = hget (w_heap w1) y) by (intros y Ny; cbn [w2 w_heap]; rewrite hget_hset; destruct (Nat.eqb_spec base y); [congruence|reflexivity]).
    assert (Len2 : length (w_heap w2) = length (w_heap w1)) by (cbn [w2 w_heap]; apply hset_length).
    pose proof (ready_after _ _ _ _ _ _ _ _ Rd E1) as Rd1. pose proof Rd1 as (St1 & Gs1 & (x1 & Hx1 & Vx1 & Rx1) & Pe1).
    assert (Pb1 : pending G1 w1 s base) by (apply Pe1; lia).
    assert (E12 : grows w1 G1 w2 G1 base 1).
    { constructor; auto.
      - lia.
      - intros y _ Ny. apply Ag. lia.
      - intros x Hx. exists x. auto.
      - apply (state_frame G1 w1); auto; [exists x1, x1; auto 10|lia|]. intros y _ Ny. apply Ag. intros ->. contradiction.
      - cbn [w2 w_schemas]. intros. lia. }
    assert (F2 : Forall2 (fun ka kx => fst ka = fst kx /\ joined G1 (w_heap w2) s (snd ka) (snd kx)) its' d) by (apply (L1 (w_heap w2)); intros y Hy _; apply Ag; lia).
    assert (T2 : texts (w_heap w2) its' d).
    { eapply Forall2_mono; [|exact F2]. intros [k1 a1] [k2 x2] [E J]. split; [exact E|]. cbn [snd] in *. intros t ->. inversion J as [? ? ? Hv| |]; subst. inversion Hv; subst. assumption. }
    pose proof (ready_after _ _ _ _ _ _ _ _ Rd1 E12) as Rd2. pose proof Rd2 as (St2 & _ & _ & Pe2).
    destruct (object_runs w2 G1 base its' d par key x1 top Hb2 T2 Nd Hx1 Vx1 Rx1 St2 Gs1 (Pe2 base ltac:(lia)) Sob Top) as (w3 & G3 & a3 & R3 & E3 & An3 & Sh).
    pose proof (g_len _ _ _ _ _ _ E3) as Len3. pose proof (g_lib _ _ _ _ _ _ E3) as In3.
    exists w3, G3, a3. split; [|split; [|split]].
    - apply ev_step. cbn [Doc.step]. unfold process. assert (V0 : val (w_heap w) base (PObj its)) by (eexists; split; [exact P1|reflexivity]).
      eapply ev_bind; [apply (runs_type _ _ _ _ w base _ V0 eq_refl)|]. cbn [kind_of].
      eapply ev_bind; [apply ev_pure; intro rec; apply (items_obj rec w base its V0)|].
      eapply ev_bind; [exact R1|]. eapply ev_known; [apply node_at_ok, Hb1|]. cbn [n_val].
      eapply ev_known; [reflexivity|]. fold w2. eapply ev_known; [apply schema_at_ok; exact Hx1|]. rewrite Vx1. exact R3.
    - assert (E13 : grows w G w3 G3 base (S N + 0)); [|eapply grows_weaken; [exact E13|lia|lia]].
      assert (W1 : grows w G w1 G1 base (S N)) by (eapply grows_weaken; [exact E1|lia|lia]).
      assert (W2 : grows w1 G1 w3 G3 base 1).
      { replace 1 with (1 + 0) by lia. destruct E12 as [C1 C2 C3 C4 C5 C6 C7 C8 C9]. destruct E3 as [D1 D2 D3 D4 D5 D6 D7 D8 D9]. constructor; auto.
        - lia.
        - intros y L Ny. rewrite D2 by lia. apply C2; lia.
        - intros j X Hj. destruct (D4 j X Hj) as [Hj'|(z & Hz & Lz)]; [left; exact Hj'|right; exists z; split; [exact Hz|lia]]. }
      destruct W1 as [C1 C2 C3 C4 C5 C6 C7 C8 C9]. destruct W2 as [D1 D2 D3 D4 D5 D6 D7 D8 D9]. constructor; auto.
      + lia.
      + intros y L Ny. rewrite D2 by lia. apply C2; lia.
      + intros j X Hj. destruct (D4 j X Hj) as [Hj'|(z & Hz & Lz)]; [|right; exists z; split; [exact Hz|lia]]. destruct (C4 j X Hj') as [Hj0|(z & Hz & Lz)]; [left; exact Hj0|right].
        destruct (Nat.eq_dec j s) as [->|Nj]; [destruct (D6 z Hz) as (z' & Hz' & Ez & _); exists z'; split; [exact Hz'|lia]|exists z; split; [apply D5; assumption|exact Lz]].
      + intros x Hx. destruct (C6 x Hx) as (z1 & H1 & F1 & F3 & F4). destruct (D6 z1 H1) as (z2 & H2 & F5 & F6 & F7). exists z2. split; [exact H2|]. repeat split; congruence.
      + intros j Lj1 Lj2. destruct (Nat.lt_ge_cases j (length (w_schemas w1))) as [L|L]; [|exact (D9 j L Lj2)]. destruct (C9 j Lj1 L) as (k & X & Lk & Gk). exists k, X. auto.
    - assert (An13 : anchored w1 w3 (fun name b => b = base /\ dget (u "$ref") d = None /\ dget (u "$anchor") d = Some (VStr name))) by exact An3.
      eapply (anchored_trans _ _ _ x1); [exact Hx1|exact An1|exact An13|]. intros name b. split.
      + intros (q & dd & Sp & Nr & Ad). inversion Sp as [|? ? k c x q' ? ? G0 G2 Sp']; subst; [right; auto|left]. exists k, c, x. split; [exact G0|]. split; [exact G2|]. exists q', dd. auto.
      + intros [(k & c & x & G0 & G2 & q & dd & Sp & M)|(-> & Nr & Ad)]; [exists (k :: q), dd; split; [eapply sp_member; eassumption|exact M]|exists [], d; split; [constructor|auto]].
    - intros h2 A.
      assert (Bp : forall y, S base <= y < S base + N -> y < length (w_heap w)) by (intros y Hy; apply (ready_lt _ _ _ _ y Rd); lia).
      assert (Old : forall y, y < length (w_heap w1) -> y <> base -> hget (w_heap w3) y = hget (w_heap w1) y) by (intros y L Ny; rewrite (g_frame _ _ _ _ _ _ E3) by lia; apply Ag, Ny).
      assert (Pn : forall j y, y < length (w_heap w1) -> pending G3 w3 j y -> pending G1 w1 j y) by (intros j y L C; exact (grows_pending _ _ _ _ _ _ _ _ E3 St2 C ltac:(lia))).
      assert (Q : Forall2 (fun ka kx => fst ka = fst kx /\ joined G1 h2 s (snd ka) (snd kx)) its' d /\ stays_items G1 h2 its d).
      { apply L1. intros y Hy Ny. assert (Ly : y < length (w_heap w1)) by (destruct Hy as [Hy|Hy]; [specialize (Bp y Hy); lia|lia]). rewrite A.
        - apply Old; [exact Ly|]. lia.
        - lia.
        - intros j Nj C. exact (Ny j Nj (Pn j y Ly C)). }
      destruct Q as [Fd' Kd].
      assert (Fd3 : Forall2 (fun ka kx => fst ka = fst kx /\ joined G3 h2 s (snd ka) (snd kx)) its' d) by (eapply Forall2_mono; [|exact Fd']; intros ka kx [Q1 Q2]; split; [exact Q1|eapply joined_more; [exact In3|exact Q2]]).
      assert (Kk : (dget (u "$ref") d = None -> joined G3 h2 s base (VDict d)) -> stays G3 h2 base (VDict d)).
      { intros Hb q b dd Sp Nr. inversion Sp as [|? ? ? ? ? ? ? ? G0 G2 Sp']; subst; [auto|]. eapply joined_more; [exact In3|]. eapply Kd; eassumption. }
      assert (Nb : forall j, j <> s -> ~ pending G3 w3 j base). { intros j Nj C. apply Pn in C; [|lia]. eapply (ready_other _ _ _ _ base j Rd1); [lia|exact Nj|exact C]. }
      destruct Sh as [(Er & -> & Hh)|(t & v & e & p & Er & De & La & Ea & Pa & Ha3 & Hb3)].
      + enough (Hl : joined G3 h2 s base (VDict d)) by (split; auto). eapply jn_obj; [exact Er| |].
        * eexists. split; [rewrite A by (auto; lia); rewrite Hh, hget_hset, Nat.eqb_refl, Hb2; reflexivity|reflexivity].
        * clear -Fd3. generalize (u "$anchor"). intro ka. induction Fd3 as [|[k1 a1] [k2 x2] its d [E J] F IH]; cbn [ddel]; [constructor|]. cbn [fst snd] in *. subst k2. destruct (str_eqb ka k1); [exact F|constructor; auto].
      + split; [|apply Kk; congruence]. eapply jn_ref; [exact Er|exact De| | |exact Fd3].
        * eexists. split; [rewrite A by (auto; lia); exact Ha3|reflexivity].
        * eexists. split; [rewrite A by (auto; lia); exact Hb3|reflexivity].
  Qed.
End LoadOne.

(** ** What happened since *)
Record later (G : ghost) (w : world) (G' : ghost) (w' : world) : Prop := Later {
  l_lib : forall j X, G j = Some X -> G' j = Some X;
  l_ready : forall j X x, G j = Some X -> nth_error (w_schemas w) j = Some x -> s_ready x = true -> nth_error (w_schemas w') j = Some x;
  l_store : forall k e, dget k (w_store w) = Some e -> dget k (w_store w') = Some e;
  l_agree : forall h2, agree G' w' h2 -> agree G w h2
}.
Lemma later_refl G w : later G w G w.
Proof. constructor; auto. Qed.
Lemma later_trans G w G1 w1 G2 w2 : later G w G1 w1 -> later G1 w1 G2 w2 -> later G w G2 w2.
Proof. intros [A1 A2 A3 A4] [B1 B2 B3 B4]. constructor; eauto. Qed.

(** how far the loading of documents is *)
Definition progress (w : world) : nat := length (w_schemas w) + length (filter s_ready (w_schemas w)).
(** [later], by loading documents of the library only: either nothing happened, or
    there are more documents or more of them are ready *)
Record onward (Lib : pystr -> option pv) (G : ghost) (w : world) (G' : ghost) (w' : world) : Prop := Onward {
  on_later :> later G w G' w';
  on_same : (w' = w /\ G' = G) \/ progress w < progress w';
  on_docs : forall j, length (w_schemas w) <= j -> j < length (w_schemas w') -> exists k X, Lib k = Some X /\ dget k (w_store w') = Some j
}.
Lemma onward_refl Lib G w : onward Lib G w G w.
Proof. constructor; [apply later_refl|auto|intros; lia]. Qed.
Lemma onward_trans Lib G w G1 w1 G2 w2 : onward Lib G w G1 w1 -> onward Lib G1 w1 G2 w2 -> onward Lib G w G2 w2.
Proof.
  intros [A1 A2 A3] [B1 B2 B3]. constructor; [eapply later_trans; eassumption| |].
  - destruct A2 as [[-> ->]|A2]; [exact B2|]. right. destruct B2 as [[-> ->]|B2]; [exact A2|lia].
  - intros j L1 L2. destruct (Nat.lt_ge_cases j (length (w_schemas w1))) as [L|L]; [|exact (B3 j L L2)]. destruct (A3 j L1 L) as (k & X & Lk & Gk). exists k, X. split; [exact Lk|]. apply (l_store _ _ _ _ B1), Gk.
Qed.
(** lists that only grow, elements only becoming ready *)
Lemma ready_count (l l' : list schema) : (forall j x, nth_error l j = Some x -> exists x', nth_error l' j = Some x' /\ (s_ready x = true -> s_ready x' = true)) ->
  length l <= length l' /\ length (filter s_ready l) <= length (filter s_ready l').
Proof.
  revert l'. induction l as [|x l IH]; intros l' H; [cbn; lia|]. destruct (H 0 x eq_refl) as (x' & E & R). destruct l' as [|y l']; [discriminate|]. cbn in E. injection E as ->.
  destruct (IH l') as [I1 I2]; [intros j z Hz; exact (H (S j) z Hz)|]. cbn [length filter]. destruct (s_ready x); [rewrite R by reflexivity; cbn [length]; lia|]. destruct (s_ready x'); cbn [length]; lia.
Qed.
Lemma ready_count_lt (l l' : list schema) s : (forall j x, nth_error l j = Some x -> exists x', nth_error l' j = Some x' /\ (s_ready x = true -> s_ready x' = true)) ->
  (exists x x', nth_error l s = Some x /\ s_ready x = false /\ nth_error l' s = Some x' /\ s_ready x' = true) -> length (filter s_ready l) < length (filter s_ready l').
Proof.
  revert l' s. induction l as [|x l IH]; intros l' s H (z & z' & Hz & Rz & Hz' & Rz'); [destruct s; discriminate|]. destruct (H 0 x eq_refl) as (x' & E & R). destruct l' as [|y l']; [discriminate|]. cbn in E. injection E as ->.
  assert (T : forall j z, nth_error l j = Some z -> exists z', nth_error l' j = Some z' /\ (s_ready z = true -> s_ready z' = true)) by (intros j y Hy; exact (H (S j) y Hy)).
  destruct s as [|s]; cbn in Hz, Hz'.
  - injection Hz as ->. injection Hz' as ->. pose proof (proj2 (ready_count l l' T)). cbn [filter]. rewrite Rz, Rz'. cbn [length]. lia.
  - specialize (IH l' s T). cbn [filter]. assert (L : length (filter s_ready l) < length (filter s_ready l')) by (apply IH; eauto 10). destruct (s_ready x); [rewrite R by reflexivity; cbn [length]; lia|]. destruct (s_ready x'); cbn [length]; lia.
Qed.

Section LoadDone.
  Variables (auth : pystr -> option authority) (dig : N -> option Z) (strx : heap -> addr -> pystr) (fetch : uri -> res pv).
  Variable Lib : pystr -> option pv.
  Notation ev := (ev auth dig strx fetch).
  Notation state := (state auth Lib).
  Hypothesis Dig : digits_ok dig.
  Hypothesis LibOk : forall k V, Lib k = Some V -> sound_document auth Lib V.
  Hypothesis Fetch : forall t v k p V, remote auth t v k p -> Lib k = Some V -> fetch v = Ok V.
  Definition is_ready (w : world) (s : nat) : Prop := exists x, nth_error (w_schemas w) s = Some x /\ s_ready x = true.

  Lemma load_runs s V w G : state G None w -> G s = Some V -> exists w' G', ev (fun rec => load rec s) w w' (Ok tt) /\ state G' None w' /\ onward Lib G w G' w' /\ is_ready w' s.
  Proof.
    intros St Gs. destruct (st_doc _ _ _ _ _ St s V Gs) as (Sd & x & Hx & Vx & Lx). destruct (s_ready x) eqn:Rx.
    { exists w, G. split; [apply ev_pure, (load_ready w _ x Hx Rx)|]. split; [exact St|]. split; [apply onward_refl|exists x; auto]. }
    specialize (Lx eq_refl). destruct (st_new _ _ _ _ _ St s V x Gs Hx Rx ltac:(discriminate)) as (Pl & An).
    set (r := s_value x) in *. set (n := length (wrap r None [] V)) in *.
    assert (St' : state G (Some s) w) by (destruct St as [A1 A2 A3 A4 A5]; constructor; auto; intros; apply (A2 _ _ _ ltac:(eassumption)); auto; discriminate).
    assert (Rd : ready_to auth Lib s V w G r n).
    { split; [exact St'|]. split; [exact Gs|]. split; [exists x; auto|]. intros y L. exists x, V. auto. }
    destruct Sd as (Od & Di & So).
    destruct (handle_value auth dig strx fetch Lib Dig LibOk Fetch s V V w G r None [] true Pl Rd Di So ltac:(reflexivity)) as (w1 & G1 & a1 & R1 & E1 & An1 & F1).
    destruct E1 as [C1 C2 C3 C4 C5 C6 C7 C8 C9] eqn:EE. pose proof E1 as E0. clear EE.
    destruct (C6 x Hx) as (x1 & Hx1 & Ev & Er & Eo). set (x2 := Schema a1 true (s_voc x1) (s_anchors x1) (s_id x1)).
    set (w2 := World (w_heap w1) (lput (w_schemas w1) s x2) (w_store w1)).
    assert (H2 : nth_error (w_schemas w2) s = Some x2) by (cbn [w2 w_schemas]; rewrite nth_lput, Nat.eqb_refl, Hx1; reflexivity).
    assert (O2 : forall j, j <> s -> nth_error (w_schemas w2) j = nth_error (w_schemas w1) j) by (intros j Nj; cbn [w2 w_schemas]; rewrite nth_lput; destruct (Nat.eqb_spec s j); [congruence|reflexivity]).
    assert (P2 : forall j y, pending G1 w2 j y -> j <> s /\ pending G1 w1 j y).
    { intros j y (z & X & Gj & Hz & Rz & L). destruct (Nat.eq_dec j s) as [->|Nj]; [rewrite H2 in Hz; injection Hz as <-; discriminate|]. split; [exact Nj|]. rewrite (O2 j Nj) in Hz. exists z, X. auto. }
    assert (Ag : forall h2, agree G1 w2 h2 -> agree G1 w1 h2).
    { intros h2 A y L N. apply A; [exact L|]. intros j C. apply P2 in C as [_ C]. exact (N j C). }
    assert (Fi : forall h2, agree G1 w2 h2 -> joined auth Lib G1 h2 s a1 V /\ stays auth Lib s G1 h2 r V).
    { intros h2 A. apply F1. intros y Hy Ny. apply (A y).
      - cbn [w2 w_heap]. destruct Hy as [Hy|Hy]; [fold n in Hy; lia|lia].
      - intros j C. apply P2 in C as [Nj C]. exact (Ny j Nj C). }
    exists w2, G1. split; [|split; [|split]].
    - unfold load. eapply ev_known; [apply schema_at_ok, Hx|]. rewrite Rx. eapply ev_bind; [exact R1|]. eapply ev_known; [apply schema_at_ok, Hx1|]. apply ev_pure. reflexivity.
    - destruct C8 as [B1 B2 B3 B4 B5]. constructor.
      + intros j X Gj. destruct (B1 j X Gj) as (Sd & z & Hz & Vz & Lz). split; [exact Sd|]. destruct (Nat.eq_dec j s) as [->|Nj].
        * exists x2. rewrite Hx1 in Hz. injection Hz as <-. split; [exact H2|]. split; [exact Vz|discriminate].
        * exists z. rewrite (O2 j Nj). auto.
      + intros j X z Gj Hz Rz _. destruct (Nat.eq_dec j s) as [->|Nj]; [rewrite H2 in Hz; injection Hz as <-; discriminate|]. rewrite (O2 j Nj) in Hz. cbn [w2 w_heap]. apply (B2 j X z Gj Hz Rz). congruence.
      + intros s1 s2 y Q1 Q2. apply P2 in Q1 as [_ Q1]. apply P2 in Q2 as [_ Q2]. exact (B3 _ _ _ Q1 Q2).
      + intros j X z Gj Hz Rz. destruct (Nat.eq_dec j s) as [->|Nj].
        * rewrite H2 in Hz. injection Hz as <-. assert (X = V) by (specialize (C3 _ _ Gs); congruence). subst X. cbn [s_value s_anchors x2]. split; [intros h2 A; apply Fi, A|].
          destruct (An1 x x1 Hx Hx1) as (D1 & D2 & D3). split.
          -- intros name b Gb. destruct (D1 name b Gb) as [C|(q & dd & Sp & Nr & Ad)]; [rewrite An in C; discriminate|]. pose proof (spot_inside _ _ _ _ _ Sp) as Id. exists q, dd. split; [exists dd; auto|]. split; [exact Id|].
             intros h2 A. exact (proj2 (Fi h2 A) q b dd Sp Nr).
          -- intros name q (dd & I & Nr & Ad). destruct (inside_spot _ _ _ I r) as [b Sb]. assert (M : dmem name (s_anchors x1) = true) by (apply (D2 name b); exists q, dd; auto).
             rewrite dmem_get in M. destruct (dget name (s_anchors x1)) as [c|]; [exists c; reflexivity|discriminate].
        * rewrite (O2 j Nj) in Hz. destruct (B4 j X z Gj Hz Rz) as (D1 & D2 & D3). split; [intros h2 A; apply D1, Ag, A|]. split; [|exact D3].
          intros name b Gb. destruct (D2 name b Gb) as (q & d & Q1 & Q2 & Q3). exists q, d. split; [exact Q1|]. split; [exact Q2|]. intros h2 A. apply Q3, Ag, A.
      + exact B5.
    - constructor; [constructor; auto| |].
      + intros j X z Gj Hz Rz. destruct (Nat.eq_dec j s) as [->|Nj]; [congruence|]. rewrite (O2 j Nj). apply C5; assumption.
      + intros h2 A y L N. assert (Ny : ~ (r <= y < r + n)) by (intro C; apply (N s); exists x, V; auto). rewrite <- (C2 y L Ny). apply A; [cbn [w2 w_heap]; lia|].
        intros j C. apply P2 in C as [_ C]. apply (N j). exact (grows_pending auth Lib s _ _ _ _ _ _ _ _ E0 St' C L).
      + right. assert (T : forall j z, nth_error (w_schemas w) j = Some z -> exists z', nth_error (w_schemas w2) j = Some z' /\ (s_ready z = true -> s_ready z' = true)).
        { intros j z Hz. destruct (Nat.eq_dec j s) as [->|Nj]; [exists x2; auto|]. exists z. rewrite (O2 j Nj). auto. }
        pose proof (proj1 (ready_count _ _ T)). assert (length (filter s_ready (w_schemas w)) < length (filter s_ready (w_schemas w2))) by (apply (ready_count_lt _ _ s T); exists x, x2; auto). unfold progress. lia.
      + cbn [w2 w_schemas w_store]. rewrite lput_length. exact C9.
    - exists x2. auto.
  Qed.
End LoadDone.
