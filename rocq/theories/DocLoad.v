(** Loading a document. *)
From Verif Require Import PyBase PyBaseFacts PyVal OrderFacts Regex Numbers Uri Pointer Store Validators Heap HeapFacts PropsPlaces Doc DocMono DocFacts.
Local Open Scope nat_scope.
Local Notation length := List.length (only parsing).

(** [CORE_VOCABULARY], vocabulary.py:20-24 *)
Definition core : list appkw := [AKRef; AKAnchor; AKId].

(** ** What loading does, on plain values *)
Section Spec.
  Variable auth : pystr -> option authority.
  (** a reference into the document it stands in *)
  Definition local (t : pystr) (v : uri) (p : list pystr) : Prop :=
    mk_uri auth t = Ok v /\ pointer_parse (u_frag v) = Ok p /\ exists b, base_uri auth v = Ok b /\ uri_bool b = false.
  (** the member that names an object: "$id", else "id" *)
  Definition id_member {A} (d : list (pystr * A)) : option A := match dget (u "$id") d with Some x => Some x | None => dget (u "id") d end.
  (** the URI meant by the text of an id, in a document whose root has id [root] *)
  Inductive named (root : option pystr) : pystr -> uri -> Prop :=
  | n_abs t v : mk_uri auth t = Ok v -> u_frag v = [] -> is_absolute auth v = Ok true -> named root t v
  | n_rel t v rt bu v' : mk_uri auth t = Ok v -> u_frag v = [] -> is_absolute auth v = Ok false ->
      root = Some rt -> mk_uri auth rt = Ok bu -> resolve auth bu v = Ok v' -> is_absolute auth v' = Ok true -> named root t v'.

  (** what an object adds to the document's anchors and to the store *)
  Inductive deed :=
  | DAnchor (name : pystr) (a : addr)
  | DReg (key : pystr) (v : uri) (a : addr)
  | DRoot (key : pystr) (v : uri).
  Inductive own_anchor (a : addr) (d : list (pystr * pv)) : list deed -> Prop :=
  | oa_none : dget (u "$anchor") d = None -> own_anchor a d []
  | oa_some t : dget (u "$anchor") d = Some (VStr t) -> own_anchor a d [DAnchor t a].
  Inductive own_id (root : option pystr) (a : addr) (pth : list pystr) (d : list (pystr * pv)) : list deed -> Prop :=
  | oi_none : id_member d = None -> own_id root a pth d []
  | oi_enum t v : id_member d = Some (VStr t) -> pth <> [] -> mk_uri auth t = Ok v -> u_frag v = [] -> In (u "enum") pth -> own_id root a pth d []
  | oi_reg t v k : id_member d = Some (VStr t) -> pth <> [] -> ~ In (u "enum") pth -> named root t v -> key_of auth v = Ok k -> own_id root a pth d [DReg k v a]
  | oi_root t v k : id_member d = Some (VStr t) -> pth = [] -> mk_uri auth t = Ok v -> u_frag v = [] -> is_absolute auth v = Ok true -> key_of auth v = Ok k ->
      own_id root a pth d [DRoot k v].
  Inductive own (root : option pystr) (a : addr) (pth : list pystr) (d : list (pystr * pv)) : list deed -> Prop :=
  | own_ref t v p : dget (u "$ref") d = Some (VStr t) -> local t v p -> dget (u "$anchor") d = None -> id_member d = None -> own root a pth d []
  | own_plain la li : dget (u "$ref") d = None -> own_anchor a d la -> own_id root a pth d li -> own root a pth d (la ++ li).
  (** the same for everything below, members first; [a] is where the value sits *)
  Inductive plan (root : option pystr) : addr -> list pystr -> pv -> list deed -> Prop :=
  | plan_leaf a pth v : (forall d, v <> VDict d) -> plan root a pth v []
  | plan_dict a pth d ls o : plans root a (S a) pth d ls -> own root a pth d o -> plan root a pth (VDict d) (ls ++ o)
  with plans (root : option pystr) : addr -> addr -> list pystr -> list (pystr * pv) -> list deed -> Prop :=
  | plans_nil a b pth : plans root a b pth [] []
  | plans_cons a b pth k x d l ls : plan root b (pth ++ [k]) x l -> plans root a (after b (wrap b (Some a) k x)) pth d ls -> plans root a b pth ((k, x) :: d) (l ++ ls).

  Definition upd (ss : list schema) (s : nat) (f : schema -> schema) : list schema :=
    match nth_error ss s with Some x => lput ss s (f x) | None => ss end.
  Definition done (s : nat) (acc : list schema * list (pystr * nat)) (e : deed) : list schema * list (pystr * nat) :=
    let '(ss, st) := acc in
    match e with
    | DAnchor t a => (upd ss s (fun x => Schema (s_value x) (s_ready x) (s_voc x) (dset t a (s_anchors x)) (s_id x)), st)
    | DReg k v a => (ss ++ [Schema a false core [] (Some v)], dset k (length ss) st)
    | DRoot k v => (upd ss s (fun x => Schema (s_value x) (s_ready x) (s_voc x) (s_anchors x) (Some v)), if dmem k st then st else dset k s st)
    end.

  (** [a] is the value [v] of document [s] once loaded: an object with a
      reference is a reference node over the object, an anchor's member is gone,
      nothing changes inside arrays *)
  Inductive loaded (h : heap) (s : nat) : addr -> pv -> Prop :=
  | ld_leaf a v : (forall d, v <> VDict d) -> holds h a v -> loaded h s a v
  | ld_obj a d its : dget (u "$ref") d = None -> val h a (PObj its) ->
      Forall2 (fun ka kx => fst ka = fst kx /\ loaded h s (snd ka) (snd kx)) its (ddel (u "$anchor") d) -> loaded h s a (VDict d)
  | ld_ref a d b its t v p : dget (u "$ref") d = Some (VStr t) -> local t v p -> val h a (PRef (RefData v b s p)) -> val h b (PObj its) ->
      Forall2 (fun ka kx => fst ka = fst kx /\ loaded h s (snd ka) (snd kx)) its d -> loaded h s a (VDict d).
End Spec.

(** ** Lists *)
Lemma nth_lput {A} (l : list A) i x j : nth_error (lput l i x) j = if Nat.eqb i j then match nth_error l i with Some _ => Some x | None => None end else nth_error l j.
Proof. revert i j; induction l as [|y l IH]; intros [|i] [|j]; cbn; try reflexivity; [destruct (Nat.eqb i j); reflexivity|apply IH]. Qed.
Lemma lput_length {A} (l : list A) i x : length (lput l i x) = length l.
Proof. revert i; induction l as [|y l IH]; intros [|i]; cbn; auto. Qed.
Lemma nth_upd ss s f j : nth_error (upd ss s f) j = if Nat.eqb s j then option_map f (nth_error ss s) else nth_error ss j.
Proof.
  unfold upd. destruct (nth_error ss s) as [x|] eqn:E.
  - rewrite nth_lput, E. reflexivity.
  - destruct (Nat.eqb_spec s j) as [->|]; [rewrite E|]; reflexivity.
Qed.
Lemma upd_length ss s f : length (upd ss s f) = length ss.
Proof. unfold upd. destruct (nth_error ss s); [apply lput_length|reflexivity]. Qed.
Lemma hput_same h a n : hget h a = Some n -> hput h a n = h.
Proof. unfold hget. revert a; induction h as [|x h IH]; intros [|a] H; cbn in *; try discriminate; [injection H as ->; reflexivity|]. rewrite IH by exact H. reflexivity. Qed.
Lemma hset_same h a p : val h a p -> hset h a p = h.
Proof. intros (n & Hn & <-). unfold hset. rewrite Hn. apply hput_same. rewrite Hn. destruct n; reflexivity. Qed.

(** a document keeps its value, state and vocabulary *)
Lemma done_schema s l : forall acc x, nth_error (fst acc) s = Some x -> exists x', nth_error (fst (fold_left (done s) l acc)) s = Some x' /\ s_value x' = s_value x /\ s_ready x' = s_ready x /\ s_voc x' = s_voc x.
Proof.
  induction l as [|e l IH]; intros [ss st] x H; cbn [fold_left fst] in *; [eauto|].
  assert (K : exists x1, nth_error (fst (done s (ss, st) e)) s = Some x1 /\ s_value x1 = s_value x /\ s_ready x1 = s_ready x /\ s_voc x1 = s_voc x).
  { destruct e as [t a|k v a|k v]; cbn [done fst].
    - rewrite nth_upd, Nat.eqb_refl, H. cbn. eauto.
    - exists x. split; [|auto]. rewrite nth_error_app1; [exact H|]. apply nth_error_Some. congruence.
    - rewrite nth_upd, Nat.eqb_refl, H. cbn. eauto. }
  destruct K as (x1 & H1 & E1 & E2 & E3). destruct (IH _ _ H1) as (x2 & H2 & F1 & F2 & F3). exists x2. split; [exact H2|]. repeat split; congruence.
Qed.

(** where the object at path [q] of a value sits, when the value sits at [base] *)
Inductive spot : addr -> pv -> list pystr -> addr -> pv -> Prop :=
| sp_here base v : spot base v [] base v
| sp_member base d k c x q b y : dget k (fst (wrap_items base (S base) d)) = Some c -> dget k d = Some x -> spot c x q b y -> spot base (VDict d) (k :: q) b y.

(** no object outside arrays has a reference or an anchor *)
Inductive quiet : pv -> Prop :=
| qu_leaf v : (forall d, v <> VDict d) -> quiet v
| qu_dict d : dget (u "$ref") d = None -> dget (u "$anchor") d = None -> Forall (fun kx => quiet (snd kx)) d -> quiet (VDict d).
(** how many nodes a value takes *)
Definition size (v : pv) : nat := length (wrap 0 None [] v).
Lemma wrap_items_length d : Forall (fun kx => forall base p k, length (wrap base p k (snd kx)) = size (snd kx)) d -> forall base b base' b', length (snd (wrap_items base b d)) = length (snd (wrap_items base' b' d)).
Proof.
  induction 1 as [|[k x] d Hx _ IH]; intros base b base' b'; [reflexivity|]. rewrite !wrap_items_cons. cbn [snd] in *. rewrite !app_length, !Hx. f_equal. apply IH.
Qed.
Lemma wrap_elems_length l : Forall (fun x => forall base p k, length (wrap base p k x) = size x) l -> forall base b i base' b' i', length (snd (wrap_elems base b i l)) = length (snd (wrap_elems base' b' i' l)).
Proof.
  induction 1 as [|x l Hx _ IH]; intros base b i base' b' i'; [reflexivity|]. rewrite !wrap_elems_cons. cbn [snd] in *. rewrite !app_length, !Hx. f_equal. apply IH.
Qed.
Lemma wrap_size v : forall base p k, length (wrap base p k v) = size v.
Proof.
  induction v as [v Hl Hd|l IH|d IH] using pv_ind_deep; intros base p k; unfold size.
  - destruct v; try reflexivity; exfalso; [eapply Hl|eapply Hd]; reflexivity.
  - rewrite !wrap_list. cbn [length]. f_equal. apply wrap_elems_length. exact IH.
  - rewrite !wrap_dict. cbn [length]. f_equal. apply wrap_items_length. exact IH.
Qed.

Lemma wrap_items_none base k d : dget k d = None -> forall b, dget k (fst (wrap_items base b d)) = None.
Proof. induction d as [|[k1 x1] d IH]; intros G b; [reflexivity|]. rewrite wrap_items_cons. cbn [fst dget] in *. destruct (str_eqb k k1); [discriminate|auto]. Qed.
(** a value sits within the values it is part of *)
Lemma items_bounds base d k c x : forall b, dget k (fst (wrap_items base b d)) = Some c -> dget k d = Some x -> b <= c /\ c + size x <= b + length (snd (wrap_items base b d)).
Proof.
  induction d as [|[k1 x1] d IH]; intros b G1 G2; [discriminate|]. rewrite wrap_items_cons in *. cbn [fst snd dget] in *. rewrite app_length, wrap_size. destruct (str_eqb k k1).
  - injection G1 as <-. injection G2 as <-. lia.
  - destruct (IH _ G1 G2) as [L1 L2]. unfold after in *. rewrite wrap_size in *. lia.
Qed.
Lemma spot_bounds base v q b z : spot base v q b z -> base <= b /\ b + size z <= base + size v.
Proof.
  induction 1 as [base v|base d k c x q b z G1 G2 _ [L1 L2]]; [lia|]. destruct (items_bounds _ _ _ _ _ _ G1 G2) as [B1 B2].
  rewrite <- (wrap_size (VDict d) base None []), wrap_dict. cbn [length]. lia.
Qed.
Lemma spot_items base d k c x b : dget k (fst (wrap_items base b d)) = Some c -> dget k d = Some x ->
  forall q b0 z, spot c x q b0 z -> b <= b0 /\ b0 + size z <= b + length (snd (wrap_items base b d)).
Proof. intros G1 G2 q b0 z Sp. destruct (items_bounds _ _ _ _ _ _ G1 G2). destruct (spot_bounds _ _ _ _ _ Sp). lia. Qed.

Section Load.
  Variables (auth : pystr -> option authority) (dig : N -> option Z) (strx : heap -> addr -> pystr) (fetch : uri -> res pv).
  Notation Runs := (Runs auth dig strx fetch).
  Notation ev := (ev auth dig strx fetch).
  Variable s : nat.

  (** the world changes only below [base] *)
  Record effect (w w' : world) (base n : nat) (l : list deed) : Prop := Effect {
    e_len : length (w_heap w) <= length (w_heap w');
    e_frame : forall y, y < length (w_heap w) -> ~ (base <= y < base + n) -> hget (w_heap w') y = hget (w_heap w) y;
    e_link : forall y m, hget (w_heap w) y = Some m -> exists m', hget (w_heap w') y = Some m' /\ n_parent m' = n_parent m /\ n_key m' = n_key m;
    e_str : forall y t, val (w_heap w) y (PStr t) -> val (w_heap w') y (PStr t);
    e_obj : forall y its, val (w_heap w) y (PObj its) -> exists its', val (w_heap w') y (PObj its');
    e_regs : (w_schemas w', w_store w') = fold_left (done s) l (w_schemas w, w_store w)
  }.
  Lemma effect_refl w base n : effect w w base n [].
  Proof. constructor; eauto. Qed.
  Lemma effect_trans w w1 w2 b n1 n2 l1 l2 : effect w w1 b n1 l1 -> effect w1 w2 (b + n1) n2 l2 -> effect w w2 b (n1 + n2) (l1 ++ l2).
  Proof.
    intros [A1 A2 A3 A4 A6 A5] [B1 B2 B3 B4 B6 B5]. constructor.
    - lia.
    - intros y L N. rewrite B2 by lia. apply A2; lia.
    - intros y m H. destruct (A3 y m H) as (m1 & H1 & E1 & E2). destruct (B3 y m1 H1) as (m2 & H2 & F1 & F2). exists m2. split; [exact H2|]. split; congruence.
    - auto.
    - intros y its V. destruct (A6 _ _ V) as [its1 V1]. eauto.
    - rewrite fold_left_app, <- A5. exact B5.
  Qed.
  Lemma effect_weaken w w' b n b' n' l : effect w w' b n l -> b' <= b -> b + n <= b' + n' -> effect w w' b' n' l.
  Proof. intros [A1 A2 A3 A4 A6 A5] L1 L2. constructor; auto. intros y Hy N. apply A2; [exact Hy|lia]. Qed.

  Definition same_links (h h' : heap) : Prop := forall y m, hget h y = Some m -> exists m', hget h' y = Some m' /\ n_parent m' = n_parent m /\ n_key m' = n_key m.
  Lemma keys_up_same h h' : same_links h h' -> forall f a p, keys_up f h a = Ok p -> keys_up f h' a = Ok p.
  Proof.
    intro S. induction f as [|f IH]; intros a p H; cbn in *; [discriminate|]. destruct (hget h a) as [n|] eqn:E; [|discriminate].
    destruct (S a n E) as (m & -> & -> & ->). destruct (n_parent n) as [q|]; [|exact H]. destruct (keys_up f h q) as [ks|e|] eqn:E2; try discriminate. rewrite (IH _ _ E2). exact H.
  Qed.
  Lemma root_up_same h h' : same_links h h' -> forall f a r, root_up f h a = Ok r -> root_up f h' a = Ok r.
  Proof.
    intro S. induction f as [|f IH]; intros a p H; cbn in *; [discriminate|]. destruct (hget h a) as [n|] eqn:E; [|discriminate].
    destruct (S a n E) as (m & -> & -> & _). destruct (n_parent n) as [q|]; [|exact H]. auto.
  Qed.

  (** the root's id, as nested ids see it *)
  Definition root_id (h : heap) (r : addr) (root : option pystr) : Prop := exists rits, val h r (PObj rits) /\
    match root with Some rt => exists c, id_member rits = Some c /\ val h c (PStr rt) | None => True end.

  (** ** Applying the keywords to one object *)
  Definition texts (h : heap) (its : list (pystr * addr)) (d : list (pystr * pv)) : Prop :=
    Forall2 (fun ka kx => fst ka = fst kx /\ forall t, snd kx = VStr t -> val h (snd ka) (PStr t)) its d.
  Lemma texts_none h its d k : texts h its d -> dget k d = None -> dget k its = None.
  Proof. induction 1 as [|[k1 a1] [k2 x2] its d [E _] F IH]; cbn in *; [auto|]. subst k2. destruct (str_eqb k k1); [discriminate|auto]. Qed.
  Lemma texts_some h its d k t : texts h its d -> dget k d = Some (VStr t) -> exists c, dget k its = Some c /\ val h c (PStr t).
  Proof. induction 1 as [|[k1 a1] [k2 x2] its d [E V] F IH]; cbn in *; [discriminate|]. subst k2. destruct (str_eqb k k1); [intros [= ->]; eauto|auto]. Qed.
  Lemma texts_ddel h its d k : texts h its d -> texts h (ddel k its) (ddel k d).
  Proof. induction 1 as [|[k1 a1] [k2 x2] its d [E V] F IH]; cbn in *; [constructor|]. subst k2. destruct (str_eqb k k1); [exact F|constructor; auto]. Qed.
  Lemma dmem_get {A} k (d : list (pystr * A)) : dmem k d = match dget k d with Some _ => true | None => false end.
  Proof. unfold dmem. destruct (dget k d); reflexivity. Qed.
  Lemma any_has_obj rec w a d ks : val (w_heap w) a (PObj d) -> any_has rec a ks w = (w, Ok (existsb (fun k => dmem k d) ks)).
  Proof.
    intro H. induction ks as [|k ks IH]; cbn [any_has existsb]; [reflexivity|]. unfold mbind at 1. rewrite (has_obj rec w a d _ H). cbn [dict_has]. destruct (dmem k d); [reflexivity|exact IH].
  Qed.
  Lemma any_has_ref w a x d ks y : val (w_heap w) a (PRef x) -> nth_error (w_schemas w) (r_schema x) = Some y -> s_ready y = false -> val (w_heap w) (r_node x) (PObj d) ->
    ev (fun rec => any_has rec a ks) w w (Ok (existsb (fun k => dmem k d) ks)).
  Proof.
    intros (n & Hn & En) Hy Ry (m & Hm & Em). induction ks as [|k ks IH]; cbn [any_has existsb]; [apply ev_ret|].
    eapply ev_bind with (a := dmem k d).
    - unfold node_has. eapply ev_known; [apply node_at_ok, Hn|]. rewrite En. eapply ev_bind with (a := RDict d); [|apply ev_ret].
      apply ev_step. cbn [Doc.step]. unfold ref_raw. eapply ev_known; [apply node_at_ok, Hn|]. rewrite En. eapply ev_known; [apply schema_at_ok, Hy|]. rewrite Ry.
      eapply ev_known; [apply node_at_ok, Hm|]. rewrite Em. apply ev_ret.
    - destruct (dmem k d); [apply ev_ret|exact IH].
  Qed.

  Definition keyed (its : list (pystr * addr)) : bool := dmem (u "$id") its || (dmem (u "id") its || false).
  Lemma keyed_none {A} (d : list (pystr * A)) : id_member d = None -> dmem (u "$id") d = false /\ dmem (u "id") d = false.
  Proof. unfold id_member. rewrite !dmem_get. destruct (dget (u "$id") d); [discriminate|]. intros ->. auto. Qed.
  Lemma texts_id h its d : texts h its d -> match id_member d with None => id_member its = None | Some (VStr t) => exists c, id_member its = Some c /\ val h c (PStr t) | _ => True end.
  Proof.
    intro T. unfold id_member. destruct (dget (u "$id") d) as [x|] eqn:E1.
    - destruct x; auto. destruct (texts_some _ _ _ _ _ T E1) as (c & -> & V). eauto.
    - rewrite (texts_none _ _ _ _ T E1). destruct (dget (u "id") d) as [x|] eqn:E2; [|exact (texts_none _ _ _ _ T E2)]. destruct x; auto. destruct (texts_some _ _ _ _ _ T E2) as (c & -> & V). eauto.
  Qed.
  Lemma id_text_ok rec w a its c t : val (w_heap w) a (PObj its) -> id_member its = Some c -> val (w_heap w) c (PStr t) -> id_text strx rec a w = (w, Ok t).
  Proof.
    intros Ha Hc Vc. unfold id_text, mbind. rewrite (has_obj rec w a its _ Ha). cbn [dict_has]. rewrite dmem_get. unfold id_member in Hc.
    destruct (dget (u "$id") its) as [c'|] eqn:E; [injection Hc as ->|]; eapply member_obj; eassumption.
  Qed.
  Lemma store_add_ok w v k d : is_absolute auth v = Ok true -> key_of auth v = Ok k -> store_add auth v d w = (World (w_heap w) (w_schemas w) (dset k d (w_store w)), Ok tt).
  Proof. intros A K. unfold store_add, mbind, lift. rewrite A. unfold store_key, lift. rewrite K. reflexivity. Qed.
  Lemma contains_ok w v k : key_of auth v = Ok k -> store_contains auth v w = (w, Ok (dmem k (w_store w))).
  Proof. intro K. unfold store_contains, mbind, store_key, lift. rewrite K. reflexivity. Qed.

  (** the id keyword on an object *)
  Lemma id_runs w a its d par key pth r root x li : hget (w_heap w) a = Some (Node (PObj its) par key) -> texts (w_heap w) its d ->
    nth_error (w_schemas w) s = Some x -> s_voc x = core -> node_path (w_heap w) a = Ok pth -> node_root (w_heap w) a = Ok r ->
    (par = None <-> pth = []) -> (par <> None -> root_id (w_heap w) r root) -> own_id auth root a pth d li ->
    exists w', (forall rec, apply_kws auth strx fetch rec [AKId] s a w = (w', Ok a)) /\ w_heap w' = w_heap w /\ (w_schemas w', w_store w') = fold_left (done s) li (w_schemas w, w_store w).
  Proof.
    intros Ha T Hx Vx Hp Hr Hpar Hroot Ho.
    assert (V : val (w_heap w) a (PObj its)) by (eexists; split; [exact Ha|reflexivity]).
    pose proof (texts_id _ _ _ T) as Ti.
    assert (K0 : forall rec, apply_kws auth strx fetch rec [AKId] s a w = mbind (if keyed its then apply_id auth strx rec s a else ret a) (fun a' => ret a') w).
    { intro rec. cbn [apply_kws kw_names apply_kw]. unfold mbind at 1. rewrite (any_has_obj rec w a its _ V). reflexivity. }
    destruct Ho as [N|t v Ei Np Eu Ef In_e|t v k Ei Np Nin Nm Ek|t v k Ei -> Eu Ef Ab Ek].
    - rewrite N in Ti. destruct (keyed_none _ Ti) as [K1 K2]. exists w. split; [|auto]. intro rec. rewrite K0. unfold keyed. rewrite K1, K2. reflexivity.
    - rewrite Ei in Ti. destruct Ti as (c & Hc & Vc). assert (Kd : keyed its = true) by (unfold keyed; rewrite !dmem_get; unfold id_member in Hc; destruct (dget (u "$id") its); [reflexivity|rewrite Hc; reflexivity]).
      exists w. split; [|auto]. intro rec. rewrite K0, Kd. unfold mbind at 1. unfold apply_id. unfold mbind at 1. rewrite (id_text_ok rec w a its c t V Hc Vc).
      unfold mbind at 1, lift. rewrite Eu, Ef. unfold mbind at 1. rewrite (node_at_ok _ _ _ Ha). cbn [n_parent].
      destruct par as [q|]; [|destruct (Np (proj1 Hpar eq_refl))]. unfold mbind at 1, get_world. unfold mbind at 1. rewrite Hp.
      replace (str_mem (u "enum") pth) with true by (symmetry; apply str_mem_In; exact In_e). reflexivity.
    - rewrite Ei in Ti. destruct Ti as (c & Hc & Vc). assert (Kd : keyed its = true) by (unfold keyed; rewrite !dmem_get; unfold id_member in Hc; destruct (dget (u "$id") its); [reflexivity|rewrite Hc; reflexivity]).
      destruct par as [q|]; [|destruct (Np (proj1 Hpar eq_refl))].
      assert (Nin' : str_mem (u "enum") pth = false) by (destruct (str_mem (u "enum") pth) eqn:E; [apply str_mem_In in E; contradiction|reflexivity]).
      assert (Abs : is_absolute auth v = Ok true) by (inversion Nm; assumption).
      eexists. split; [|split; [|]].
      + intro rec. rewrite K0, Kd. unfold mbind at 1. unfold apply_id. unfold mbind at 1. rewrite (id_text_ok rec w a its c t V Hc Vc).
        assert (M : exists u0, mk_uri auth t = Ok u0 /\ u_frag u0 = []) by (inversion Nm; eauto). destruct M as (u0 & Eu & Ef).
        unfold mbind at 1, lift. rewrite Eu, Ef. unfold mbind at 1. rewrite (node_at_ok _ _ _ Ha). cbn [n_parent n_val].
        unfold mbind at 1, get_world. unfold mbind at 1. rewrite Hp, Nin'.
        assert (M2 : forall B (k' : uri -> M B), (abs <~ (fun w0 => (w0, is_absolute auth u0)) ;; v' <~ (if abs : bool then ret u0
                       else
                         r <~ (fun w0 => (w0, node_root (w_heap w) a)) ;;
                         b <~ node_has rec r (KS (u "$id")) ;;
                         if b then
                           t <~ member_str strx rec r (u "$id") ;; bu <~ (fun w0 => (w0, mk_uri auth t)) ;; (fun w0 => (w0, resolve auth bu u0))
                         else
                           c <~ node_has rec r (KS (u "id")) ;;
                           if c then
                             t <~ member_str strx rec r (u "id") ;; bu <~ (fun w0 => (w0, mk_uri auth t)) ;; (fun w0 => (w0, resolve auth bu u0))
                           else raise EValue) ;; k' v') w = k' v w).
        { intros B k'. inversion Nm as [? ? M1 M2 M3|? u1 rt bu ? M1 M2 M3 M4 M5 M6 M7]; subst.
          - assert (u0 = v) as -> by congruence. unfold mbind. rewrite M3. reflexivity.
          - assert (u0 = u1) as -> by congruence. unfold mbind at 1. rewrite M3. unfold mbind at 1. unfold mbind at 1. rewrite Hr. destruct (Hroot ltac:(discriminate)) as (rits & Vr & cr & Hcr & Vcr).
            unfold mbind at 1. rewrite (has_obj rec w r rits _ Vr). cbn [dict_has]. rewrite dmem_get. unfold id_member in Hcr.
            destruct (dget (u "$id") rits) as [c'|] eqn:E.
            + injection Hcr as ->. unfold mbind at 1. rewrite (member_obj strx rec w r rits _ _ _ Vr E Vcr). unfold mbind at 1. rewrite M5, M6. reflexivity.
            + unfold mbind at 1. rewrite (has_obj rec w r rits _ Vr). cbn [dict_has]. rewrite dmem_get, Hcr. unfold mbind at 1. rewrite (member_obj strx rec w r rits _ _ _ Vr Hcr Vcr). unfold mbind at 1. rewrite M5, M6. reflexivity. }
        rewrite M2. unfold mbind at 1. rewrite (schema_at_ok _ _ _ Hx). unfold mbind at 1, add_schema. cbn [w_heap w_schemas w_store]. unfold mbind at 1. rewrite (store_add_ok _ _ k _ Abs Ek). reflexivity.
      + reflexivity.
      + cbn [w_schemas w_store fold_left done]. rewrite Vx. reflexivity.
    - rewrite Ei in Ti. destruct Ti as (c & Hc & Vc). assert (Kd : keyed its = true) by (unfold keyed; rewrite !dmem_get; unfold id_member in Hc; destruct (dget (u "$id") its); [reflexivity|rewrite Hc; reflexivity]).
      destruct par as [q|]; [discriminate (proj2 Hpar eq_refl)|].
      eexists. split; [|split; [|]].
      + intro rec. rewrite K0, Kd. unfold mbind at 1. unfold apply_id. unfold mbind at 1. rewrite (id_text_ok rec w a its c t V Hc Vc).
        unfold mbind at 1, lift. rewrite Eu, Ef. unfold mbind at 1. rewrite (node_at_ok _ _ _ Ha). cbn [n_parent n_val].
        unfold mbind at 1. rewrite (schema_at_ok _ _ _ Hx). unfold mbind at 1, set_schema. cbn [w_heap w_schemas w_store]. unfold mbind at 1. rewrite (contains_ok _ _ k Ek). cbn [w_store].
        unfold mbind at 1. instantiate (1 := World (w_heap w) (upd (w_schemas w) s (fun x => Schema (s_value x) (s_ready x) (s_voc x) (s_anchors x) (Some v))) (if dmem k (w_store w) then w_store w else dset k s (w_store w))).
        unfold upd. rewrite Hx. destruct (dmem k (w_store w)) eqn:Ed; cbn [w_store]; [reflexivity|]. rewrite (store_add_ok _ _ k _ Ab Ek). reflexivity.
      + reflexivity.
      + reflexivity.
  Qed.

  Lemma hget_app_old h g a n : hget h a = Some n -> hget (h ++ g) a = Some n.
  Proof. apply hget_app1. Qed.
  Lemma val_app h g a p : val h a p -> val (h ++ g) a p.
  Proof. intros (n & Hn & E). exists n. split; [apply hget_app1, Hn|exact E]. Qed.
  Lemma texts_impl h h' its d : (forall a t, val h a (PStr t) -> val h' a (PStr t)) -> texts h its d -> texts h' its d.
  Proof. intros H F. eapply Forall2_mono; [|exact F]. intros [k1 a1] [k2 x2] [E V]. split; [exact E|]. intros t Ht. apply H, V, Ht. Qed.
  Lemma dget_ddel_other {A} k k' (d : list (pystr * A)) : k <> k' -> dget k (ddel k' d) = dget k d.
  Proof. intro N. induction d as [|[k1 x] d IH]; cbn; [reflexivity|]. destruct (str_eqb_spec k' k1) as [->|]; cbn; [destruct (str_eqb_spec k k1); [contradiction|reflexivity]|]. rewrite IH. reflexivity. Qed.
  Lemma same_links_hset h a p : same_links h (hset h a p).
  Proof. intros y m H. rewrite hget_hset. destruct (Nat.eqb_spec a y) as [->|]; [rewrite H|]; eauto. Qed.
  Lemma same_links_app h g : same_links h (h ++ g).
  Proof. intros y m H. exists m. split; [apply hget_app1, H|auto]. Qed.
  Lemma str_hset h a its p y t : val h a (PObj its) -> val h y (PStr t) -> val (hset h a p) y (PStr t).
  Proof. intros (n & Hn & En) (m & Hm & Em). exists m. split; [|exact Em]. rewrite hget_hset. destruct (Nat.eqb_spec a y) as [->|]; [congruence|exact Hm]. Qed.

  (** the three keywords on an object whose members are done *)
  Lemma own_runs w a its d par key pth r root x o : hget (w_heap w) a = Some (Node (PObj its) par key) -> texts (w_heap w) its d ->
    nth_error (w_schemas w) s = Some x -> s_voc x = core -> s_ready x = false -> node_path (w_heap w) a = Ok pth -> node_root (w_heap w) a = Ok r ->
    (par = None <-> pth = []) -> (par <> None -> r <> a /\ root_id (w_heap w) r root) -> own auth root a pth d o ->
    exists w' a', ev (fun rec => apply_kws auth strx fetch rec core s a) w w' (Ok a') /\ (w_schemas w', w_store w') = fold_left (done s) o (w_schemas w, w_store w) /\
      ((dget (u "$ref") d = None /\ a' = a /\ w_heap w' = hset (w_heap w) a (PObj (ddel (u "$anchor") its))) \/
       (exists t v p, dget (u "$ref") d = Some (VStr t) /\ local auth t v p /\ a' = length (w_heap w) /\ w_heap w' = w_heap w ++ [Node (PRef (RefData v a s p)) par key])).
  Proof.
    intros Ha T Hx Vx Rx Hp Hr Hpar Hroot Ho.
    assert (V : val (w_heap w) a (PObj its)) by (eexists; split; [exact Ha|reflexivity]).
    destruct Ho as [t v p Er (L1 & L2 & bu & L3 & L4) Ea Ei|la li Er Oa Oi].
    - destruct (texts_some _ _ _ _ _ T Er) as (c & Hc & Vc). pose proof (texts_none _ _ _ _ T Ea) as Na. pose proof (texts_id _ _ _ T) as Ti. rewrite Ei in Ti. destruct (keyed_none _ Ti) as [K1 K2].
      set (nd := Node (PRef (RefData v a s p)) par key). exists (World (w_heap w ++ [nd]) (w_schemas w) (w_store w)), (length (w_heap w)).
      split; [|split; [reflexivity|right; exists t, v, p; split; [exact Er|]; split; [unfold local; eauto|auto]]].
      assert (Vr : val (w_heap w ++ [nd]) (length (w_heap w)) (PRef (RefData v a s p))).
      { exists nd. split; [|reflexivity]. unfold hget. rewrite nth_error_app2, Nat.sub_diag by lia. reflexivity. }
      unfold core. cbn [apply_kws]. eapply ev_bind; [apply ev_pure; intro rec; apply (any_has_obj rec w a its _ V)|]. cbn [kw_names existsb]. rewrite dmem_get, Hc. cbn [orb].
      eapply ev_bind.
      { apply ev_pure. intro rec. cbn [apply_kw]. unfold apply_ref. unfold mbind at 1. rewrite (member_obj strx rec w a its _ _ _ V Hc Vc). unfold mbind at 1, lift. rewrite L1. unfold mbind at 1. rewrite L2. unfold mbind at 1. rewrite L3.
        unfold mbind at 1. rewrite (node_at_ok _ _ _ Ha), L4. reflexivity. }
      cbn [n_parent n_key]. fold nd.
      eapply ev_bind; [eapply any_has_ref; [exact Vr|exact Hx|exact Rx|apply val_app, V]|]. cbn [kw_names existsb]. rewrite dmem_get, Na. cbn [orb].
      eapply ev_bind; [apply ev_ret|].
      eapply ev_bind; [eapply any_has_ref; [exact Vr|exact Hx|exact Rx|apply val_app, V]|]. cbn [kw_names existsb]. rewrite K1, K2. cbn [orb].
      eapply ev_bind; [apply ev_ret|]. apply ev_ret.
    - pose proof (texts_none _ _ _ _ T Er) as Nr.
      assert (S : exists w1, (forall rec, apply_kws auth strx fetch rec core s a w = apply_kws auth strx fetch rec [AKId] s a w1) /\
        w_heap w1 = hset (w_heap w) a (PObj (ddel (u "$anchor") its)) /\ (w_schemas w1, w_store w1) = fold_left (done s) la (w_schemas w, w_store w)).
      { destruct Oa as [Na|t Ea].
        - pose proof (texts_none _ _ _ _ T Na) as Na'. exists w. split; [|split; [|reflexivity]].
          + intro rec. unfold core. cbn [apply_kws]. unfold mbind at 1. rewrite (any_has_obj rec w a its _ V). cbn [kw_names existsb]. rewrite dmem_get, Nr. cbn [orb]. unfold mbind at 1. cbn [ret].
            unfold mbind at 1. rewrite (any_has_obj rec w a its _ V). cbn [kw_names existsb]. rewrite dmem_get, Na'. cbn [orb]. reflexivity.
          + rewrite ddel_absent by (rewrite dmem_get, Na'; reflexivity). symmetry. apply hset_same, V.
        - destruct (texts_some _ _ _ _ _ T Ea) as (c & Hc & Vc).
          exists (World (hset (w_heap w) a (PObj (ddel (u "$anchor") its))) (upd (w_schemas w) s (fun x => Schema (s_value x) (s_ready x) (s_voc x) (dset t a (s_anchors x)) (s_id x))) (w_store w)).
          split; [|split; reflexivity].
          intro rec. unfold core. cbn [apply_kws]. unfold mbind at 1. rewrite (any_has_obj rec w a its _ V). cbn [kw_names existsb]. rewrite dmem_get, Nr. cbn [orb]. unfold mbind at 1. cbn [ret].
          unfold mbind at 1. rewrite (any_has_obj rec w a its _ V). cbn [kw_names existsb]. rewrite dmem_get, Hc. cbn [orb apply_kw]. unfold mbind at 1. unfold apply_anchor. unfold mbind at 1.
          rewrite (member_obj strx rec w a its _ _ _ V Hc Vc). unfold mbind at 1. rewrite (schema_at_ok _ _ _ Hx). unfold mbind at 1, set_schema. cbn [w_heap w_schemas w_store].
          unfold mbind at 1, node_at. cbn [w_heap]. rewrite Ha. cbn [n_val]. unfold mbind at 1, set_value. cbn [w_heap w_schemas w_store]. unfold ret at 1, upd. rewrite Hx. reflexivity. }
      destruct S as (w1 & S1 & S2 & S3).
      assert (Sx : exists x1, nth_error (w_schemas w1) s = Some x1 /\ s_voc x1 = core).
      { destruct (done_schema s la (w_schemas w, w_store w) x Hx) as (x1 & H1 & _ & _ & E3). rewrite <- S3 in H1. exists x1. split; [exact H1|congruence]. }
      destruct Sx as (x1 & Hx1 & Vx1).
      assert (SL : same_links (w_heap w) (w_heap w1)) by (rewrite S2; apply same_links_hset).
      assert (Len : length (w_heap w1) = length (w_heap w)) by (rewrite S2; apply hset_length).
      destruct (id_runs w1 a (ddel (u "$anchor") its) (ddel (u "$anchor") d) par key pth r root x1 li) as (w2 & R1 & R2 & R3).
      + rewrite S2, hget_hset, Nat.eqb_refl, Ha. reflexivity.
      + apply texts_ddel. eapply texts_impl; [|exact T]. intros y t Vy. rewrite S2. eapply str_hset; eassumption.
      + exact Hx1.
      + exact Vx1.
      + unfold node_path in *. rewrite Len. eapply keys_up_same; eassumption.
      + unfold node_root in *. rewrite Len. eapply root_up_same; eassumption.
      + exact Hpar.
      + intro Np. destruct (Hroot Np) as (Nr' & rits & Vr & M). exists rits. split.
        * destruct Vr as (m & Hm & Em). exists m. split; [|exact Em]. rewrite S2, hget_hset. destruct (Nat.eqb_spec a r); [congruence|exact Hm].
        * destruct root as [rt|]; [|exact I]. destruct M as (c & Hc & Vc). exists c. split; [exact Hc|]. rewrite S2. eapply str_hset; eassumption.
      + assert (E : id_member (ddel (u "$anchor") d) = id_member d) by (unfold id_member; rewrite !dget_ddel_other by discriminate; reflexivity).
        inversion Oi; subst; [eapply oi_none|eapply oi_enum|eapply oi_reg|eapply oi_root]; try rewrite E; eauto.
      + exists w2, a. split; [|split; [|left; split; [exact Er|split; [reflexivity|congruence]]]].
        * apply ev_pure. intro rec. rewrite S1. apply R1.
        * rewrite fold_left_app, <- S3. exact R3.
  Qed.

  (** ** Processing a wrapped value *)
  (** what holds of [h'] on the changed part holds of every heap that agrees with it there *)
  Definition settled (h h' : heap) (base n : nat) (P : heap -> Prop) : Prop :=
    forall h2, (forall y, base <= y < base + n \/ length h <= y < length h' -> hget h2 y = hget h' y) -> P h2.
  (** objects without reference stay where they are *)
  Definition kept (h2 : heap) (base : addr) (v : pv) : Prop :=
    forall q b dd, spot base v q b (VDict dd) -> dget (u "$ref") dd = None -> loaded auth h2 s b (VDict dd).
  Definition kept_items (h2 : heap) (its : list (pystr * addr)) (d : list (pystr * pv)) : Prop :=
    forall k c x, dget k its = Some c -> dget k d = Some x -> kept h2 c x.
  (** what has neither references nor anchors stays as it is, ids included *)
  Definition still (h h2 : heap) (base : addr) (v : pv) : Prop :=
    forall q b z, spot base v q b z -> quiet z -> forall y, b <= y < b + size z -> hget h2 y = hget h y.
  Definition still_items (h h2 : heap) (its : list (pystr * addr)) (d : list (pystr * pv)) : Prop :=
    forall k c x, dget k its = Some c -> dget k d = Some x -> still h h2 c x.
  Definition processed (w : world) (base : addr) (n : nat) (l : list deed) (v : pv) : Prop :=
    exists w' a', Runs (CProcess s base) w w' (Ok a') /\ effect w w' base n l /\ settled (w_heap w) (w_heap w') base n (fun h2 => loaded auth h2 s a' v /\ kept h2 base v /\ still (w_heap w) h2 base v) /\
      (quiet v -> a' = base).
  Definition start (w : world) (base : addr) (par : option addr) (pth : list pystr) (root : option pystr) : Prop :=
    (exists x, nth_error (w_schemas w) s = Some x /\ s_voc x = core /\ s_ready x = false) /\
    keys_up (S base) (w_heap w) base = Ok pth /\
    exists r, root_up (S base) (w_heap w) base = Ok r /\ r <= base /\ (par <> None -> r < base) /\ root_id (w_heap w) r root.
  Definition mapper (rec : forall A, call A -> M A) (kx : pystr * addr) : M (pystr * addr) := c <~ rec addr (CProcess s (snd kx)) ;; ret (fst kx, c).

  Lemma holds_agree h h' v : forall base par key, placed h base (wrap base par key v) -> (forall y, base <= y < base + length (wrap base par key v) -> hget h' y = hget h y) -> placed h' base (wrap base par key v).
  Proof. intros base par key P A i n Hn. rewrite A; [apply P, Hn|]. assert (i < length (wrap base par key v)) by (apply nth_error_Some; congruence). lia. Qed.
  Lemma placed_lt h base ns i : placed h base ns -> i < length ns -> base + i < length h.
  Proof. intros P L. destruct (nth_error ns i) as [n|] eqn:E; [|apply nth_error_None in E; lia]. exact (hget_lt _ _ _ (P i n E)). Qed.

  Lemma process_leaf v : (forall d, v <> VDict d) -> forall w base par key pth root l, placed (w_heap w) base (wrap base par key v) ->
    plan auth root base pth v l -> processed w base (length (wrap base par key v)) l v.
  Proof.
    intros Leaf w base par key pth root l P Pl.
    assert (l = []) as -> by (inversion Pl; subst; [reflexivity|exfalso; eapply Leaf; reflexivity]).
    exists w, base; (split; [|split; [apply effect_refl|split; [|reflexivity]; intros h2 A; split; [|split; [intros q b dd Sp; inversion Sp; subst; exfalso; eapply Leaf; reflexivity|]]]]).
    2: apply ld_leaf; [exact Leaf|]; eapply wrap_holds, holds_agree; [exact P|]; intros y Hy; apply A; left; exact Hy.
    2: { intros q b z Sp _ y Hy. inversion Sp; subst; [|exfalso; eapply Leaf; reflexivity]. apply A. left. rewrite wrap_size. exact Hy. }
    pose proof (wrap_holds _ _ _ _ _ P) as H; apply ev_step; cbn [Doc.step]; unfold process;
      inversion H as [? V|? ? V|? ? V|? ? ? V|? ? ? V|? ? ? V|? ? els V F|? ? its V F]; subst; try (exfalso; eapply Leaf; reflexivity);
      (eapply ev_bind; [apply (runs_type _ _ _ _ w base _ V eq_refl)|]; apply ev_ret).
  Qed.
  Lemma process_value v : forall w base par key pth root l, placed (w_heap w) base (wrap base par key v) -> start w base par pth root ->
    plan auth root base pth v l -> processed w base (length (wrap base par key v)) l v.
  Proof.
    induction v as [v Hl Hd|l0 IH|d IH] using pv_ind_deep; intros w base par key pth root l P St Pl.
    1: eapply process_leaf; eassumption.
    1: eapply process_leaf; [discriminate|eassumption|eassumption].
    destruct St as ((x & Hx & Vx & Rx) & Kp & r & Kr & Hrb & Hrn & Hroot). inversion Pl as [? ? ? C|? ? ? ls o Pls Ho]; subst; [exfalso; eapply C; reflexivity|].
    rewrite wrap_dict in *. apply placed_cons in P as [P1 P2]. cbn [length]. set (its := fst (wrap_items base (S base) d)) in *. set (N := length (snd (wrap_items base (S base) d))) in *.
    (* the members *)
    assert (K : forall b ls w, base < b -> placed (w_heap w) b (snd (wrap_items base b d)) ->
      (exists x, nth_error (w_schemas w) s = Some x /\ s_voc x = core /\ s_ready x = false) ->
      keys_up (S base) (w_heap w) base = Ok pth -> root_up (S base) (w_heap w) base = Ok r ->
      root_id (w_heap w) r root -> r <= base ->
      plans auth root base b pth d ls ->
      exists w' its', ev (fun rec => mmap (mapper rec) (fst (wrap_items base b d))) w w' (Ok its') /\ effect w w' b (length (snd (wrap_items base b d))) ls /\
        settled (w_heap w) (w_heap w') b (length (snd (wrap_items base b d))) (fun h2 => Forall2 (fun ka kx => fst ka = fst kx /\ loaded auth h2 s (snd ka) (snd kx)) its' d /\ kept_items h2 (fst (wrap_items base b d)) d /\ still_items (w_heap w) h2 (fst (wrap_items base b d)) d /\
          (Forall (fun kx => quiet (snd kx)) d -> forall y, b <= y < b + length (snd (wrap_items base b d)) -> hget h2 y = hget (w_heap w) y)) /\
        (Forall (fun kx => quiet (snd kx)) d -> its' = fst (wrap_items base b d))).
    { clear -IH. induction IH as [|[k v] d Hv _ IHd]; intros b ls w Lb P S1 S2 S3 S5 S6 Pl.
      - inversion Pl; subst. exists w, []. split; [apply ev_ret|]. split; [apply effect_refl|]. split; [|reflexivity]. intros h2 _. split; [constructor|]. split; [intros k0 c0 x0 Hc; discriminate|]. split; [intros k0 c0 x0 Hc; discriminate|]. intros _ y Hy. cbn in Hy. lia.
      - inversion Pl as [|? ? ? ? ? ? l ls' Pv Pd]; subst. rewrite wrap_items_cons in P. cbn [snd] in P. apply placed_app in P as [Pv' Pd'].
        cbn [snd] in Hv.
        assert (Stv : start w b (Some base) (pth ++ [k]) root).
        { destruct (placed_head _ _ _ _ _ Pv') as (m & Hm & Em1 & Em2). split; [exact S1|]. split.
          - cbn [keys_up]. rewrite Hm, Em1, (keys_up_more _ _ _ _ S2 ltac:(discriminate) b ltac:(lia)), Em2. reflexivity.
          - exists r. split; [cbn [root_up]; rewrite Hm, Em1; apply (root_up_more _ _ _ _ S3); [discriminate|lia]|]. split; [lia|]. split; [intros _; lia|exact S5]. }
        destruct (Hv w b (Some base) k (pth ++ [k]) root l Pv' Stv Pv) as (w1 & a1 & R1 & E1 & L1 & A1).
        pose proof (e_len _ _ _ _ _ E1) as Len1.
        assert (SL : same_links (w_heap w) (w_heap w1)) by exact (e_link _ _ _ _ _ E1).
        assert (Fr : forall y n, hget (w_heap w) y = Some n -> ~ (b <= y < b + length (wrap b (Some base) k v)) -> hget (w_heap w1) y = Some n).
        { intros y n Hy Ny. rewrite (e_frame _ _ _ _ _ E1); [exact Hy|apply hget_lt in Hy; exact Hy|exact Ny]. }
        destruct (IHd (after b (wrap b (Some base) k v)) ls' w1) as (w2 & its2 & R2 & E2 & L2 & A2).
        + unfold after. lia.
        + eapply placed_mono; [|exact Pd']. intros y n Ly Hy. unfold after in Ly. apply Fr; [exact Hy|lia].
        + destruct S1 as (x & X1 & X2 & X3). destruct (done_schema s l (w_schemas w, w_store w) x X1) as (x1 & Y1 & _ & Y2 & Y3).
          rewrite <- (e_regs _ _ _ _ _ E1) in Y1. exists x1. split; [exact Y1|]. split; congruence.
        + eapply keys_up_same; eassumption.
        + eapply root_up_same; eassumption.
        + destruct S5 as (rits & (m & Hm & Em) & Mt). exists rits. split; [exists m; split; [apply Fr; [exact Hm|lia]|exact Em]|]. destruct root as [rt|]; [|exact I]. destruct Mt as (c & Hc & Vc). exists c. split; [exact Hc|]. exact (e_str _ _ _ _ _ E1 _ _ Vc).
        + exact S6.
        + exact Pd.
        + pose proof (e_len _ _ _ _ _ E2) as Len2. exists w2, ((k, a1) :: its2). rewrite wrap_items_cons. cbn [fst snd]. split; [|split; [|split]].
          * cbn [mmap]. eapply ev_bind with (w1 := w1) (a := (k, a1)); [unfold mapper; cbn [fst snd]; eapply ev_bind; [exact R1|apply ev_ret]|]. eapply ev_bind; [exact R2|apply ev_ret].
          * rewrite app_length. eapply effect_trans; [exact E1|exact E2].
          * unfold after in *. rewrite app_length. intros h2 A.
            assert (Bd : forall y, b + length (wrap b (Some base) k v) <= y < b + length (wrap b (Some base) k v) + length (snd (wrap_items base (b + length (wrap b (Some base) k v)) d)) -> y < length (w_heap w)).
            { intros y Hy. pose proof (placed_lt _ _ _ (y - (b + length (wrap b (Some base) k v))) Pd' ltac:(unfold after in *; lia)). lia. }
            assert (Q1 : loaded auth h2 s a1 v /\ kept h2 b v /\ still (w_heap w) h2 b v).
            { apply L1. intros y Hy. rewrite A by lia. apply (e_frame _ _ _ _ _ E2); [|intro C; pose proof (Bd y C); lia].
              destruct Hy as [Hy|Hy]; [|lia]. pose proof (placed_lt _ _ _ (y - b) Pv' ltac:(lia)). lia. }
            destruct Q1 as (Q1 & Q2 & T1). destruct (L2 h2) as (Q3 & Q4 & T2 & U2); [intros y Hy; apply A; lia|]. split; [|split; [|split]].
            -- constructor; [split; [reflexivity|exact Q1]|exact Q3].
            -- intros k0 c0 x0 Hc Hx0. cbn [fst dget] in Hc, Hx0. destruct (str_eqb k0 k); [injection Hc as <-; injection Hx0 as <-; exact Q2|]. eapply Q4; eassumption.
            -- intros k0 c0 x0 Hc Hx0. cbn [fst dget] in Hc, Hx0. destruct (str_eqb k0 k); [injection Hc as <-; injection Hx0 as <-; exact T1|].
               intros q0 b0 z Sp Qz y Hy. rewrite (T2 _ _ _ Hc Hx0 _ _ _ Sp Qz y Hy).
               pose proof (spot_items _ _ _ _ _ _ Hc Hx0 _ _ _ Sp) as Bz. apply (e_frame _ _ _ _ _ E1); [apply Bd; lia|lia].
            -- intros Qd y Hy. inversion Qd as [|? ? Qv Qr]; subst. cbn [snd] in Qv. rewrite wrap_size in *.
               destruct (Nat.lt_ge_cases y (b + size v)) as [Lv|Lv]; [apply (T1 [] b v); [constructor|exact Qv|lia]|]. rewrite (U2 Qr y ltac:(lia)). apply (e_frame _ _ _ _ _ E1); [apply Bd; lia|lia].
          * intro Qd. inversion Qd as [|? ? Qv Qr]; subst. rewrite (A1 Qv), (A2 Qr). reflexivity. }
    assert (Hr0 : (par = None -> r = base /\ pth = []) /\ (par <> None -> pth <> [])).
    { cbn [keys_up root_up] in Kp, Kr. rewrite P1 in Kp, Kr. cbn [n_parent] in *. destruct par as [q|]; split; try congruence; [|intros _; split; congruence].
      intros _ ->. destruct (keys_up base (w_heap w) q) as [ks|e|]; try discriminate. destruct ks; discriminate. }
    destruct (K (S base) ls w ltac:(lia) P2 ltac:(eauto) Kp Kr Hroot Hrb Pls) as (w1 & its' & R1 & E1 & L1 & A1). fold its in R1. fold N in E1, L1.
    pose proof (e_len _ _ _ _ _ E1) as Len1.
    assert (Hb1 : hget (w_heap w1) base = Some (Node (PObj its) par key)).
    { rewrite (e_frame _ _ _ _ _ E1); [exact P1|apply hget_lt in P1; exact P1|lia]. }
    set (w2 := World (hset (w_heap w1) base (PObj its')) (w_schemas w1) (w_store w1)).
    assert (Hb2 : hget (w_heap w2) base = Some (Node (PObj its') par key)) by (cbn [w2 w_heap]; rewrite hget_hset, Nat.eqb_refl, Hb1; reflexivity).
    assert (Ag : forall y, y <> base -> hget (w_heap w2) y = hget (w_heap w1) y).
    { intros y Ny. cbn [w2 w_heap]. rewrite hget_hset. destruct (Nat.eqb_spec base y); [congruence|reflexivity]. }
    assert (Pl2 : forall y, y < length (w_heap w) -> base < length (w_heap w)) by (intros; apply hget_lt in P1; exact P1).
    assert (Lb : base < length (w_heap w)) by (apply hget_lt in P1; exact P1). clear Pl2.
    assert (F2 : Forall2 (fun ka kx => fst ka = fst kx /\ loaded auth (w_heap w2) s (snd ka) (snd kx)) its' d).
    { apply (L1 (w_heap w2)). intros y Hy. apply Ag. lia. }
    assert (T2 : texts (w_heap w2) its' d).
    { eapply Forall2_mono; [|exact F2]. intros [k1 a1] [k2 x2] [E V]. split; [exact E|]. cbn [snd] in *. intros t ->. inversion V as [? ? ? Hv|? ? ? ?|]; subst. inversion Hv; subst. assumption. }
    assert (Sx : exists x1, nth_error (w_schemas w1) s = Some x1 /\ s_voc x1 = core /\ s_ready x1 = false).
    { destruct (done_schema s ls (w_schemas w, w_store w) x Hx) as (x1 & Y1 & _ & Y2 & Y3). rewrite <- (e_regs _ _ _ _ _ E1) in Y1. exists x1. split; [exact Y1|]. split; congruence. }
    destruct Sx as (x1 & Hx1 & Vx1 & Rx1).
    assert (SL : same_links (w_heap w) (w_heap w2)).
    { intros y m Hy. destruct (e_link _ _ _ _ _ E1 y m Hy) as (m1 & Hm1 & Ea & Eb). destruct (same_links_hset (w_heap w1) base (PObj its') y m1 Hm1) as (m2 & Hm2 & Ec & Ed). exists m2. split; [exact Hm2|]. split; congruence. }
    assert (Len2 : length (w_heap w2) = length (w_heap w1)) by (cbn [w2 w_heap]; apply hset_length).
    destruct (own_runs w2 base its' d par key pth r root x1 o) as (w3 & a3 & R3 & Q3 & Sh).
    - exact Hb2.
    - exact T2.
    - exact Hx1.
    - exact Vx1.
    - exact Rx1.
    - unfold node_path. apply (keys_up_more _ (S base)); [eapply keys_up_same; eassumption|discriminate|lia].
    - unfold node_root. apply (root_up_more _ (S base)); [eapply root_up_same; eassumption|discriminate|lia].
    - split; [intro E; apply (proj1 Hr0 E)|]. intro E. destruct par; [|reflexivity]. destruct (proj2 Hr0 ltac:(discriminate) E).
    - intro Np. specialize (Hrn Np). split; [lia|]. destruct Hroot as (rits & (m & Hm & Em) & Mt). exists rits. split.
      + exists m. split; [|exact Em]. rewrite Ag by lia. rewrite (e_frame _ _ _ _ _ E1); [exact Hm|apply hget_lt in Hm; exact Hm|lia].
      + destruct root as [rt|]; [|exact I]. destruct Mt as (c & Hc & Vc). exists c. split; [exact Hc|]. apply (e_str _ _ _ _ _ E1) in Vc. eapply str_hset; [|exact Vc]. eexists; split; [exact Hb1|reflexivity].
    - exact Ho.
    - assert (H3 : length (w_heap w2) <= length (w_heap w3) /\ (forall y, y <> base -> y < length (w_heap w2) -> hget (w_heap w3) y = hget (w_heap w2) y) /\ same_links (w_heap w2) (w_heap w3)).
      { destruct Sh as [(_ & _ & ->)|(t & v & p & _ & _ & _ & ->)].
        - rewrite hset_length. split; [lia|]. split; [|apply same_links_hset]. intros y Ny _. rewrite hget_hset. destruct (Nat.eqb_spec base y); [congruence|reflexivity].
        - rewrite app_length. split; [cbn; lia|]. split; [|apply same_links_app]. intros y _ Ly. unfold hget. rewrite nth_error_app1 by exact Ly. reflexivity. }
      destruct H3 as (H31 & H32 & H33).
      exists w3, a3. split; [|split; [|split]].
      + apply ev_step. cbn [Doc.step]. unfold process. assert (V0 : val (w_heap w) base (PObj its)) by (eexists; split; [exact P1|reflexivity]).
        eapply ev_bind; [apply (runs_type _ _ _ _ w base _ V0 eq_refl)|]. cbn [kind_of].
        eapply ev_bind; [apply ev_pure; intro rec; apply (items_obj rec w base its V0)|].
        eapply ev_bind; [exact R1|]. eapply ev_known; [apply node_at_ok, Hb1|]. cbn [n_val].
        eapply ev_known; [reflexivity|]. fold w2. eapply ev_known; [apply schema_at_ok; exact Hx1|]. rewrite Vx1. exact R3.
      + constructor.
        * lia.
        * intros y Ly Ny. rewrite H32 by lia. rewrite Ag by lia. apply (e_frame _ _ _ _ _ E1); lia.
        * intros y m Hy. destruct (SL y m Hy) as (m2 & Hm2 & Ea & Eb). destruct (H33 y m2 Hm2) as (m3 & Hm3 & Ec & Ed). exists m3. split; [exact Hm3|]. split; congruence.
        * intros y t Vy. assert (Ny : y <> base). { intros ->. destruct Vy as (m & Hm & Em). rewrite P1 in Hm. injection Hm as <-. discriminate. }
          apply (e_str _ _ _ _ _ E1) in Vy. destruct Vy as (m & Hm & Em). exists m. split; [|exact Em]. rewrite H32; [rewrite Ag by exact Ny; exact Hm|exact Ny|]. rewrite Len2. apply hget_lt in Hm. exact Hm.
        * intros y its0 Vy. assert (Hy3 : forall z, z <> base -> z < length (w_heap w1) -> hget (w_heap w3) z = hget (w_heap w1) z) by (intros z Nz Lz; rewrite H32 by lia; apply Ag, Nz).
          destruct (Nat.eq_dec y base) as [->|Ny].
          -- destruct Sh as [(_ & _ & ->)|(t & v & p & _ & _ & _ & ->)].
             ++ eexists. eexists. split; [rewrite hget_hset, Nat.eqb_refl, Hb2; reflexivity|reflexivity].
             ++ exists its'. eexists. split; [unfold hget; rewrite nth_error_app1 by lia; exact Hb2|reflexivity].
          -- destruct (e_obj _ _ _ _ _ E1 _ _ Vy) as (its1 & m & Hm & Em). exists its1, m. split; [|exact Em]. rewrite Hy3; [exact Hm|exact Ny|]. apply hget_lt in Hm. exact Hm.
        * rewrite fold_left_app, <- (e_regs _ _ _ _ _ E1). exact Q3.
      + intros h2 A.
        assert (Fd : Forall2 (fun ka kx => fst ka = fst kx /\ loaded auth h2 s (snd ka) (snd kx)) its' d /\ kept_items h2 its d /\ still_items (w_heap w) h2 its d /\
          (Forall (fun kx => quiet (snd kx)) d -> forall y, S base <= y < S base + N -> hget h2 y = hget (w_heap w) y)).
        { apply L1. intros y Hy. assert (y < length (w_heap w1)). { destruct Hy as [Hy|Hy]; [|lia]. pose proof (placed_lt _ _ _ (y - S base) P2 ltac:(unfold N in Hy; lia)). lia. }
          rewrite A by lia. rewrite H32 by lia. apply Ag. lia. }
        destruct Fd as (Fd & Kd & Td & Ud).
        assert (Ts : still (w_heap w) h2 base (VDict d)).
        { intros q b z Sp Qz y Hy. assert (Cs : (b = base /\ z = VDict d) \/ exists k c x' q', dget k its = Some c /\ dget k d = Some x' /\ spot c x' q' b z).
          { clear -Sp. inversion Sp; subst; [left; auto|right; eauto 10]. }
          destruct Cs as [(-> & ->)|(k & c & x' & q' & G1 & G2 & Sp')]; [|eapply Td; eassumption].
          inversion Qz as [? C|? Nr Na Qd]; subst; [exfalso; eapply C; reflexivity|].
          assert (Sz : size (VDict d) = S N) by (rewrite <- (wrap_size (VDict d) base par key), wrap_dict; reflexivity). rewrite Sz in Hy.
          destruct (Nat.eq_dec y base) as [->|Ny]; [|apply Ud; [exact Qd|lia]].
          destruct Sh as [(_ & _ & Hh)|(t & ? & ? & Er & _)]; [|congruence].
          rewrite A by lia. rewrite Hh, hget_hset, Nat.eqb_refl, Hb2, P1. cbn [n_parent n_key]. rewrite (A1 Qd). fold its.
          rewrite ddel_absent; [reflexivity|]. rewrite dmem_get. unfold its. rewrite (wrap_items_none _ _ _ Na). reflexivity. }
        assert (Kk : (dget (u "$ref") d = None -> loaded auth h2 s base (VDict d)) -> kept h2 base (VDict d)).
        { intros Hb q b dd Sp Nr. inversion Sp as [|? ? ? ? ? ? ? ? G1 G2 G3]; subst; [auto|]. eapply Kd; eassumption. }
        destruct Sh as [(Er & -> & Hh)|(t & v & p & Er & Lc & -> & Hh)].
        * enough (Hl : loaded auth h2 s base (VDict d)) by (split; auto).
          eapply ld_obj; [exact Er| |].
          -- eexists. split; [rewrite A by lia; rewrite Hh, hget_hset, Nat.eqb_refl, Hb2; reflexivity|reflexivity].
          -- clear -Fd. generalize (u "$anchor"). intro ka. induction Fd as [|[k1 a1] [k2 x2] its d [E V] F IH]; cbn [ddel]; [constructor|]. cbn [fst snd] in *. subst k2. destruct (str_eqb ka k1); [exact F|constructor; auto].
        * split; [|split; [apply Kk; congruence|exact Ts]]. eapply ld_ref; [exact Er|exact Lc| | |exact Fd].
          -- eexists. split; [rewrite A by (right; rewrite Hh, app_length; change (length [_]) with 1; lia); rewrite Hh; unfold hget; rewrite nth_error_app2, Nat.sub_diag by lia; reflexivity|reflexivity].
          -- eexists. split; [rewrite A by lia; rewrite Hh; unfold hget; rewrite nth_error_app1 by lia; exact Hb2|reflexivity].
      + intro Qz. inversion Qz as [? C|? Nr Na Qd]; subst; [exfalso; eapply C; reflexivity|]. destruct Sh as [(_ & E & _)|(t & ? & ? & Er & _)]; [exact E|congruence].
  Qed.
End Load.
