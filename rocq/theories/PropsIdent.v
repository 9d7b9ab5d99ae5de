(** C91-C93: the identifier of a document. *)
From Verif Require Import PyBase PyBaseFacts PyVal OrderFacts Regex Numbers Uri UriFacts UriSpec PropsUri Pointer Store Validators Heap HeapFacts PropsWrap PropsPlaces Doc DocMono DocFacts PropsQuery DocLoad PropsLoad DocDocument PropsAnchor Ident IdentFacts.
Local Open Scope nat_scope.
Local Notation length := List.length (only parsing).

(** the surrogates of Unicode, U+D800 to U+DFFF *)
Definition a_surrogate (c : N) : Prop := (55296 <= c <= 57343)%N.
Lemma surrogate_iff c : surrogate c = true <-> a_surrogate c.
Proof. unfold surrogate, a_surrogate. rewrite andb_true_iff, N.leb_le, N.ltb_lt. lia. Qed.
Lemma surrogate_not c : surrogate c = false <-> ~ a_surrogate c.
Proof. rewrite <- surrogate_iff. destruct (surrogate c); intuition congruence. Qed.

Section Text.
  Variable printable : N -> bool.
  (** ** The text of a JSON value that the identifier is computed from *)
  Fixpoint text (v : pv) : pystr :=
    match v with
    | VNone => u "None)"
    | VBool b => if b then u "JsonBool(True)" else u "JsonBool(False)"
    | VInt z => int_text z ++ u ")"
    | VFloat f => dec_text (frepr f) ++ u ")"
    | VDec d => dec_text d ++ u ")"
    | VStr s => s ++ u ")"
    | VList l => u "[" ++ join (u ", ") (map text l) ++ u "])"
    | VDict d => u "{" ++ join (u ", ") (map (fun kx => repr_str printable (fst kx) ++ u ": " ++ text (snd kx)) d) ++ u "})"
    end.
  Notation node_repr := (node_repr printable).
  Lemma map_res_all {A B C} (f : A -> res B) (g : C -> B) l m : Forall2 (fun x y => f x = Ok (g y)) l m -> map_res f l = Ok (map g m).
  Proof. induction 1 as [|x y l m H _ IH]; [reflexivity|]. cbn. rewrite H, IH. reflexivity. Qed.
  Lemma Forall2_common {A B} (R : nat -> A -> B -> Prop) l m : Forall2 (fun x y => exists n0, forall n, n0 <= n -> R n x y) l m -> exists n0, forall n, n0 <= n -> Forall2 (R n) l m.
  Proof.
    induction 1 as [|x y l m [n1 H1] _ [n2 H2]]; [exists 0; constructor|]. exists (n1 + n2). intros n L. constructor; [apply H1|apply H2]; lia.
  Qed.
  (** whatever else is in the heap, a node prints as the value it holds *)
  Lemma repr_holds h v : forall a, holds h a v -> exists n0, forall n, n0 <= n -> node_repr n h a = Ok (text v).
  Proof.
    assert (S1 : forall (P : nat -> Prop), (exists n0, forall n, n0 <= n -> P (S n)) -> exists n0, forall n, n0 <= n -> P n).
    { intros P [n0 H]. exists (S n0). intros [|n] L; [lia|]. apply H. lia. }
    induction v as [v Hl Hd|l IH|d IH] using pv_ind_deep; intros a H; apply S1.
    - exists 0. intros n _. inversion H as [? (m & Hm & Em)|? ? (m & Hm & Em)|? ? (m & Hm & Em)|? ? ? (m & Hm & Em) E|? ? ? (m & Hm & Em) E|? ? ? (m & Hm & Em) E|? ? els V Fe|? ? its V Fe]; subst; cbn [Ident.node_repr]; try rewrite Hm, Em; try reflexivity.
      + rewrite dec_text_int. reflexivity.
      + exfalso; eapply Hl; reflexivity.
      + exfalso; eapply Hd; reflexivity.
    - inversion H as [| | | | | |? ? els (m & Hm & Em) Fe|]; subst.
      assert (K : Forall2 (fun x y => exists n0, forall n, n0 <= n -> node_repr n h x = Ok (text y)) els l).
      { clear - Fe IH. induction Fe as [|x y els l Hx _ IHf]; inversion IH; subst; constructor; auto. }
      apply Forall2_common in K as [n0 K]. exists n0. intros n L. cbn [Ident.node_repr]. rewrite Hm, Em, (map_res_all _ text els l (K n L)). reflexivity.
    - inversion H as [| | | | | | |? ? its (m & Hm & Em) Fe]; subst.
      assert (K : Forall2 (fun x y => exists n0, forall n, n0 <= n -> (fun n x y => (t <- node_repr n h (snd x) ;; Ok (repr_str printable (fst x) ++ u ": " ++ t)) = Ok (repr_str printable (fst y) ++ u ": " ++ text (snd y))) n x y) its d).
      { clear - Fe IH. induction Fe as [|x y its d [Ek Hx] _ IHf]; inversion IH as [|? ? I1 I2]; subst; constructor; auto.
        destruct (I1 _ Hx) as [n0 K]. exists n0. intros n L. rewrite (K n L). cbn [bind]. rewrite Ek. reflexivity. }
      apply Forall2_common in K as [n0 K]. exists n0. intros n L. cbn [Ident.node_repr]. rewrite Hm, Em, (map_res_all _ _ its d (K n L)). reflexivity.
  Qed.

  (** ** Values without strings (names apart) are determined by their text *)
  Inductive stringless : pv -> Prop :=
  | sl_leaf v : (forall s, v <> VStr s) -> (forall l, v <> VList l) -> (forall d, v <> VDict d) -> stringless v
  | sl_list l : Forall stringless l -> stringless (VList l)
  | sl_dict d : Forall (fun kx => Forall code_point (fst kx) /\ stringless (snd kx)) d -> stringless (VDict d).
  (** the decimal number a JSON number is kept as *)
  Inductive decimal_of : pv -> dec -> Prop :=
  | do_int z : decimal_of (VInt z) (Dec z 0)
  | do_float f : decimal_of (VFloat f) (frepr f)
  | do_dec d : decimal_of (VDec d) d.
  (** the same JSON text, up to how a number is represented in Python *)
  Inductive alike : pv -> pv -> Prop :=
  | al_null : alike VNone VNone
  | al_bool b : alike (VBool b) (VBool b)
  | al_num v v' d : decimal_of v d -> decimal_of v' d -> alike v v'
  | al_str s : alike (VStr s) (VStr s)
  | al_list l l' : Forall2 alike l l' -> alike (VList l) (VList l')
  | al_dict d d' : Forall2 (fun kx ky => fst kx = fst ky /\ alike (snd kx) (snd ky)) d d' -> alike (VDict d) (VDict d').

  Lemma num_text v d : decimal_of v d -> text v = dec_text d ++ u ")".
  Proof. destruct 1; cbn [text]; [rewrite dec_text_int|..]; reflexivity. Qed.
  Definition first_in (P : N -> Prop) (t : pystr) : Prop := exists c r, t = c :: r /\ P c.
  Lemma dec_first d : first_in num_char (dec_text d).
  Proof.
    pose proof (dec_text_chars d) as F. pose proof (undec_text d) as E. destruct (dec_text d) as [|c r] eqn:T; [|exists c, r; split; [reflexivity|exact (Forall_inv F)]].
    exfalso. assert (K : dec_text (undec []) = []) by (rewrite E; exact T). discriminate K.
  Qed.
  Lemma split_at (c : N) (a a' r r' : pystr) : ~ In c a -> ~ In c a' -> a ++ c :: r = a' ++ c :: r' -> a = a' /\ r = r'.
  Proof.
    revert a'. induction a as [|x a IH]; intros [|y a'] N N' E; cbn in *.
    - injection E as ->. auto.
    - injection E as E _. subst. exfalso. apply N'. auto.
    - injection E as E _. subst. exfalso. apply N. auto.
    - injection E as -> E. destruct (IH a') as [-> ->]; auto.
  Qed.
  Lemma dec_no_close d : ~ In 41%N (dec_text d).
  Proof. intro H. pose proof (dec_text_chars d) as F. rewrite Forall_forall in F. specialize (F _ H). unfold num_char, digit_char in F. cbn in F. intuition lia. Qed.
  (** first characters tell the kinds apart *)
  Definition kind_char (v : pv) (c : N) : Prop :=
    match v with
    | VNone => c = 78%N | VBool _ => c = 74%N | VInt _ | VFloat _ | VDec _ => num_char c | VStr _ => True | VList _ => c = 91%N | VDict _ => c = 123%N
    end.
  Lemma text_first v : (forall s, v <> VStr s) -> first_in (kind_char v) (text v).
  Proof.
    intro N. assert (D : forall d, first_in num_char (dec_text d ++ u ")")) by (intro d; destruct (dec_first d) as (c & r & -> & K); exists c, (r ++ u ")"); auto).
    destruct v as [| [] |z|f|d|s|l|d]; cbn [text kind_char]; try (eexists; eexists; split; [reflexivity|reflexivity]); try (apply D); [|exfalso; eapply N; reflexivity].
    rewrite <- dec_text_int. apply D.
  Qed.

  Lemma join_cons w ws (sep : pystr) : join sep (w :: ws) = w ++ match ws with [] => [] | _ => sep ++ join sep ws end.
  Proof. destruct ws; cbn; [rewrite app_nil_r|]; reflexivity. Qed.
  (** lists of texts, each of which can be read off *)
  Lemma join_pf {A} (f : A -> pystr) (R : A -> A -> Prop) c (close : pystr) l :
    c <> 44%N ->
    forall l', Forall (fun x => forall x' r r', In x' l' -> f x ++ r = f x' ++ r' -> R x x' /\ r = r') l ->
    (forall x, In x l \/ In x l' -> first_in (fun d => d <> c) (f x)) ->
    forall r r', join (u ", ") (map f l) ++ (c :: close) ++ r = join (u ", ") (map f l') ++ (c :: close) ++ r' -> Forall2 R l l' /\ r = r'.
  Proof.
    intros Nc. destruct l as [|x l]; intros l' F N r r' E.
    - destruct l' as [|x' l']; [split; [constructor|]; cbn in E; injection E as E; apply app_inv_head in E; exact E|].
      exfalso. destruct (N x' (or_intror (or_introl eq_refl))) as (d & t & Et & Nd). cbn [map] in E. rewrite join_cons, Et in E. cbn in E. injection E as E _. congruence.
    - destruct l' as [|x' l'].
      { exfalso. destruct (N x (or_introl (or_introl eq_refl))) as (d & t & Et & Nd). cbn [map] in E. rewrite join_cons, Et in E. cbn in E. injection E as E _. congruence. }
      revert x x' l' F N r r' E. induction l as [|y l IH]; intros x x' l' F N r r' E; cbn [map] in E; rewrite (join_cons (f x)), (join_cons (f x')), <- !app_assoc in E;
        (destruct (Forall_inv F x' _ _ (or_introl eq_refl) E) as [Rx E']); (destruct l' as [|y' l']; cbn [map] in E').
      + cbn in E'. injection E' as E'. apply app_inv_head in E'. split; [constructor; [exact Rx|constructor]|exact E'].
      + exfalso. cbn in E'. injection E' as E1 _. congruence.
      + exfalso. cbn in E'. injection E' as E1 _. congruence.
      + rewrite <- !app_assoc in E'. apply app_inv_head in E'. destruct (IH y y' l') with (3 := E') as [I1 I2].
        * apply Forall_inv_tail in F. eapply Forall_impl; [|exact F]. intros z Hz z' q q' Hi. apply Hz. right. exact Hi.
        * intros z Hz. apply N. destruct Hz; [left|right]; right; assumption.
        * split; [constructor; assumption|exact I2].
  Qed.

  Lemma text_pf v : stringless v -> forall v' r r', stringless v' -> text v ++ r = text v' ++ r' -> alike v v' /\ r = r'.
  Proof.
    assert (NS : forall v, stringless v -> forall s, v <> VStr s) by (intros x Hx s ->; inversion Hx as [? K| |]; subst; eapply K; reflexivity).
    induction v as [v Hl Hd|l IH|d IH] using pv_ind_deep; intros Hs v' r r' Hs' E.
    - destruct (text_first v (NS _ Hs)) as (c & t & Et & Kc). destruct (text_first v' (NS _ Hs')) as (c' & t' & Et' & Kc').
      assert (c = c') by (rewrite Et, Et' in E; cbn in E; congruence). subst c'.
      assert (Num : (exists d, decimal_of v d) -> (exists d, decimal_of v' d) -> alike v v' /\ r = r').
      { intros [d1 H1] [d2 H2]. rewrite (num_text _ _ H1), (num_text _ _ H2), <- !app_assoc in E. apply split_at in E as [E1 E2]; [|apply dec_no_close|apply dec_no_close].
        apply dec_text_inj in E1. subst d2. split; [eapply al_num; eassumption|exact E2]. }
      assert (Nn : forall x, num_char x -> x <> 78%N /\ x <> 74%N /\ x <> 91%N /\ x <> 123%N) by (intros x Hx; unfold num_char, digit_char in Hx; cbn in Hx; intuition lia).
      destruct v; try (exfalso; eapply Hl; reflexivity); try (exfalso; eapply Hd; reflexivity); try (exfalso; eapply (NS _ Hs); reflexivity);
        destruct v'; try (exfalso; eapply (NS _ Hs'); reflexivity); cbn [kind_char] in Kc, Kc'; try (exfalso; first [pose proof (Nn _ Kc)|pose proof (Nn _ Kc')]; lia); try (exfalso; lia);
        try (apply Num; eexists; constructor).
      + apply app_inv_head in E. split; [constructor|exact E].
      + destruct b, b0; cbn in E; try discriminate E; injection E as E; (split; [constructor|exact E]).
    - destruct (text_first v' (NS _ Hs')) as (c' & t' & Et' & Kc'). assert (c' = 91%N) by (rewrite Et' in E; cbn in E; congruence). subst c'.
      destruct v' as [| | | | |s|l'|d']; try (exfalso; eapply (NS _ Hs'); reflexivity); cbn [kind_char] in Kc'; try discriminate; try (exfalso; unfold num_char, digit_char in Kc'; cbn in Kc'; intuition lia).
      inversion Hs as [? _ K|? Fl|]; subst; [exfalso; eapply K; reflexivity|]. inversion Hs' as [? _ K|? Fl'|]; subst; [exfalso; eapply K; reflexivity|].
      cbn [text] in E. rewrite <- !app_assoc in E. apply app_inv_head in E.
      destruct (join_pf text alike 93%N (u ")") l ltac:(discriminate) l') with (3 := E) as [G1 G2].
      + rewrite Forall_forall in *. intros x Hx x' q q' Hx' Eq. eapply IH; eauto.
      + rewrite Forall_forall in *. intros x Hx. assert (Sx : stringless x) by (destruct Hx; auto). destruct (text_first x (NS _ Sx)) as (c & t & Et & Kc).
        exists c, t. split; [exact Et|]. intros ->. destruct x; cbn [kind_char] in Kc; try discriminate; try (eapply (NS _ Sx); reflexivity); unfold num_char, digit_char in Kc; cbn in Kc; intuition lia.
      + split; [constructor; exact G1|exact G2].
    - destruct (text_first v' (NS _ Hs')) as (c' & t' & Et' & Kc'). assert (c' = 123%N) by (rewrite Et' in E; cbn in E; congruence). subst c'.
      destruct v' as [| | | | |s|l'|d']; try (exfalso; eapply (NS _ Hs'); reflexivity); cbn [kind_char] in Kc'; try discriminate; try (exfalso; unfold num_char, digit_char in Kc'; cbn in Kc'; intuition lia).
      inversion Hs as [? _ _ K| |? Fl]; subst; [exfalso; eapply K; reflexivity|]. inversion Hs' as [? _ _ K| |? Fl']; subst; [exfalso; eapply K; reflexivity|].
      cbn [text] in E. rewrite <- !app_assoc in E. apply app_inv_head in E.
      destruct (join_pf (fun kx => repr_str printable (fst kx) ++ u ": " ++ text (snd kx)) (fun kx ky => fst kx = fst ky /\ alike (snd kx) (snd ky)) 125%N (u ")") d ltac:(discriminate) d') with (3 := E) as [G1 G2].
      + rewrite Forall_forall in *. intros x Hx x' q q' Hx' Eq. destruct (Fl _ Hx) as [K1 K2]. destruct (Fl' _ Hx') as [K1' K2']. rewrite <- !app_assoc in Eq.
        apply repr_str_pf in Eq as [Ek Eq]; [|assumption|assumption]. apply app_inv_head in Eq. destruct (IH _ Hx K2 _ _ _ K2' Eq) as [I1 I2]. auto.
      + intros x _. unfold repr_str. eexists. eexists. split; [reflexivity|]. destruct (quote_cases (fst x)) as [-> | ->]; discriminate.
      + split; [constructor; exact G1|exact G2].
  Qed.
End Text.

(** ** What leaves the record of a loaded document alone *)
Section Keeps.
  Variables (auth : pystr -> option authority) (dig : N -> option Z) (strx : heap -> addr -> pystr) (fetch : uri -> res pv).
  Variables (s : nat) (x : schema).
  Hypothesis Ready : s_ready x = true.
  Definition keeps {A} (m : M A) : Prop := forall w w' r, nth_error (w_schemas w) s = Some x -> m w = (w', r) -> nth_error (w_schemas w') s = Some x.
  Lemma k_ret {A} (a : A) : keeps (ret a).
  Proof. intros w w' r H [= <- _]. exact H. Qed.
  Lemma k_raise {A} e : keeps (@raise A e).
  Proof. intros w w' r H [= <- _]. exact H. Qed.
  Lemma k_lift {A} (a : res A) : keeps (lift a).
  Proof. intros w w' r H [= <- _]. exact H. Qed.
  Lemma k_bind {A B} (m : M A) (k : A -> M B) : keeps m -> (forall a, keeps (k a)) -> keeps (mbind m k).
  Proof.
    intros Hm Hk w w' r H E. unfold mbind in E. destruct (m w) as [w1 [a|e|]] eqn:Em; [|injection E as <- _; eapply Hm; eauto|injection E as <- _; eapply Hm; eauto].
    eapply Hk; [eapply Hm; eauto|exact E].
  Qed.
  Lemma k_node a : keeps (node_at a).
  Proof. intros w w' r H E. unfold node_at in E. destruct (hget (w_heap w) a); injection E as <- _; exact H. Qed.
  Lemma k_get : keeps get_world.
  Proof. intros w w' r H [= <- _]. exact H. Qed.
  Lemma k_value a p : keeps (set_value a p).
  Proof. intros w w' r H [= <- _]. exact H. Qed.
  Lemma k_alloc n : keeps (alloc n).
  Proof. intros w w' r H [= <- _]. exact H. Qed.
  Lemma k_at t : keeps (schema_at t).
  Proof. intros w w' r H E. unfold schema_at in E. destruct (nth_error (w_schemas w) t); injection E as <- _; exact H. Qed.
  Lemma k_set t y : t <> s -> keeps (set_schema t y).
  Proof. intros N w w' r H [= <- _]. cbn [w_schemas]. rewrite nth_lput. destruct (Nat.eqb_spec t s); [contradiction|exact H]. Qed.
  Lemma k_add y : keeps (add_schema y).
  Proof. intros w w' r H [= <- _]. cbn [w_schemas]. rewrite nth_error_app1; [exact H|apply nth_error_Some; congruence]. Qed.
  Lemma k_put k t : keeps (store_put k t).
  Proof. intros w w' r H [= <- _]. exact H. Qed.
  Lemma k_wrap v : keeps (wrap_new v).
  Proof. intros w w' r H [= <- _]. exact H. Qed.
  Lemma k_str a : keeps (node_str strx a).
  Proof. intros w w' r H E. unfold node_str in E. destruct (hget (w_heap w) a) as [[[] ? ?]|]; injection E as <- _; exact H. Qed.
  Lemma k_mmap {A B} (f : A -> M B) l : (forall a, keeps (f a)) -> keeps (mmap f l).
  Proof. intro H. induction l as [|a l IH]; cbn [mmap]; [apply k_ret|]. apply k_bind; [apply H|]. intro b. apply k_bind; [exact IH|]. intro bs. apply k_ret. Qed.

  Ltac kp := repeat lazymatch goal with
    | |- keeps (mbind _ _) => apply k_bind; [|intro]
    | |- keeps (ret _) => apply k_ret
    | |- keeps (raise _) => apply k_raise
    | |- keeps (lift _) => apply k_lift
    | |- keeps (node_at _) => apply k_node
    | |- keeps get_world => apply k_get
    | |- keeps (set_value _ _) => apply k_value
    | |- keeps (alloc _) => apply k_alloc
    | |- keeps (schema_at _) => apply k_at
    | |- keeps (add_schema _) => apply k_add
    | |- keeps (store_put _ _) => apply k_put
    | |- keeps (wrap_new _) => apply k_wrap
    | |- keeps (node_str _ _) => apply k_str
    | |- keeps (set_schema _ _) => apply k_set; assumption
    | |- keeps (match ?e with _ => _ end) => destruct e
    end; try assumption.

  Definition away {A} (c : call A) : Prop := match c with CProcess t _ => t <> s | _ => True end.
  Section Step.
    Variable rec : forall {A}, call A -> M A.
    Hypothesis Rec : forall A (c : call A), away c -> keeps (rec c).
    Ltac kr := kp; try (apply Rec; exact I); try (apply Rec; assumption).
    Lemma k_type a : keeps (node_type (@rec) a).
    Proof. unfold node_type. kr. Qed.
    Lemma k_items a : keeps (node_items (@rec) a).
    Proof. unfold node_items. kr. Qed.
    Lemma k_raw a : keeps (ref_raw (@rec) a).
    Proof. unfold ref_raw. kr; apply k_items. Qed.
    Lemma k_eq a k : keeps (node_eq (@rec) a k).
    Proof. unfold node_eq. kr. Qed.
    Lemma k_any_eq l k : keeps (any_eq (@rec) l k).
    Proof. induction l as [|y l IH]; cbn [any_eq]; kr. Qed.
    Lemma k_has a k : keeps (node_has (@rec) a k).
    Proof. unfold node_has. kr; apply k_any_eq. Qed.
    Lemma k_item a k : keeps (node_get (@rec) a k).
    Proof. unfold node_get. kr. Qed.
    Lemma k_member a k : keeps (member_str strx (@rec) a k).
    Proof. unfold member_str. kp. apply k_item. Qed.
    Lemma k_make v voc : keeps (make_schema v voc).
    Proof. unfold make_schema. kp. Qed.
    Lemma k_load_store v voc : keeps (store_load auth fetch v voc).
    Proof. unfold store_load, store_key. kp; apply k_make. Qed.
    Lemma k_add_store v t : keeps (store_add auth v t).
    Proof. unfold store_add, store_key. kp. Qed.
    Lemma k_any_has a ks : keeps (any_has (@rec) a ks).
    Proof. induction ks as [|k ks IH]; cbn [any_has]; kp. apply k_has. Qed.
    Lemma k_apply k t a : t <> s -> keeps (apply_kw auth strx fetch (@rec) k t a).
    Proof.
      intro N. destruct k; cbn [apply_kw]; unfold apply_ref, apply_anchor, apply_id, id_text, store_contains, store_key; kp.
      all: first [apply k_member|apply k_load_store|apply k_has|apply k_add_store|idtac].
    Qed.
    Lemma k_applies ks t a : t <> s -> keeps (apply_kws auth strx fetch (@rec) ks t a).
    Proof. intro N. revert a. induction ks as [|k ks IH]; intro a; cbn [apply_kws]; kp; [apply k_any_has|apply k_apply, N|apply IH]. Qed.
    Lemma k_process t a : t <> s -> keeps (process auth strx fetch (@rec) t a).
    Proof. intro N. unfold process. kr; try apply k_items; try (apply k_applies, N). apply k_mmap. intro kx. kr. Qed.
    Lemma k_load t : keeps (load (@rec) t).
    Proof.
      unfold load. intros w w' r H E. unfold mbind at 1, schema_at at 1 in E. destruct (nth_error (w_schemas w) t) as [y|] eqn:Ey; [|injection E as <- _; exact H].
      destruct (s_ready y) eqn:Ry; [injection E as <- _; exact H|]. assert (N : t <> s) by (intros ->; congruence).
      revert w w' r H Ey E. intros w w' r H _. revert w w' r H. change (keeps (a <~ rec (CProcess t (s_value y)) ;; y <~ schema_at t ;; set_schema t (Schema a true (s_voc y) (s_anchors y) (s_id y)))). kr.
    Qed.
    Lemma k_follow p : forall a, keeps (follow dig (@rec) a p).
    Proof. induction p as [|k p IH]; intro a; cbn [follow]; kr; apply IH. Qed.
    Lemma k_query t p : keeps (query dig (@rec) t p).
    Proof. unfold query. kp; try apply k_load; apply k_follow. Qed.
    Lemma k_step A (c : call A) : away c -> keeps (step auth dig strx fetch (@rec) A c).
    Proof. destruct c; cbn [step away]; intro W; [apply k_query|apply k_type|apply k_raw|apply k_has|apply k_item|apply k_eq|apply k_process, W]. Qed.
  End Step.
  Lemma k_exec n : forall A (c : call A), away c -> keeps (exec auth dig strx fetch n A c).
  Proof. induction n as [|n IH]; intros A c W; [intros w w' r H [= <- _]; exact H|]. cbn [exec]. apply k_step; [exact IH|exact W]. Qed.
End Keeps.

Section Ids.
  Variables (auth : pystr -> option authority) (dig : N -> option Z) (strx : heap -> addr -> pystr) (fetch : uri -> res pv).
  Variables (printable : N -> bool) (sha : list N -> pystr).
  Notation ev := (ev auth dig strx fetch).
  Notation doc_id := (doc_id printable auth sha).
  Notation text := (text printable).

  (** ** What a program may do with documents; [n] bounds the depth of calls *)
  Inductive doing :=
  | DoOpen (v : pv) (voc : list appkw)              (* JsonSchema(v, voc) *)
  | DoLoad (n s : nat)                              (* schema.load() *)
  | DoQuery (n s : nat) (t : pystr)                 (* schema.query(text) *)
  | DoType (n : nat) (a : addr)                     (* node.type *)
  | DoHas (n : nat) (a : addr) (k : ikey)           (* key in node *)
  | DoGet (n : nat) (a : addr) (k : ikey)           (* node[key] *)
  | DoId (n s : nat)                                (* schema.id *)
  | DoEdit (e : edit).                              (* assignments, deletions *)
  Definition did (w : world) (o : doing) : world :=
    match o with
    | DoOpen v voc => fst (make_schema v voc w)
    | DoLoad n s => fst (load_n auth dig strx fetch n s w)
    | DoQuery n s t => fst (query_text auth dig strx fetch n s t w)
    | DoType n a => fst (exec auth dig strx fetch n _ (CType a) w)
    | DoHas n a k => fst (exec auth dig strx fetch n _ (CHas a k) w)
    | DoGet n a k => fst (exec auth dig strx fetch n _ (CGet a k) w)
    | DoId n s => fst (doc_id n s w)
    | DoEdit e => World (edited (w_heap w) e) (w_schemas w) (w_store w)
    end.
  Definition after_all (os : list doing) (w : world) : world := fold_left did os w.

  (** the record of a loaded document that knows its identifier *)
  Lemma did_keeps s x v o w : s_ready x = true -> s_id x = Some v -> nth_error (w_schemas w) s = Some x -> nth_error (w_schemas (did w o)) s = Some x.
  Proof.
    intros R I H. assert (K : forall A (m : M A), keeps s x m -> nth_error (w_schemas (fst (m w))) s = Some x).
    { intros A m Hm. destruct (m w) as [w' r] eqn:E. cbn. eapply Hm; eassumption. }
    assert (X : forall n A (c : call A), away s c -> keeps s x (exec auth dig strx fetch n A c)) by (intros; apply k_exec; assumption).
    destruct o as [v' voc|n t|n t q|n a|n a k|n a k|n t|e]; cbn [did].
    - apply K, k_make.
    - apply K. unfold load_n. apply k_load; [exact R|]. intros A c W. apply X, W.
    - apply K. unfold query_text. apply k_bind; [apply k_lift|]. intro p. apply X. exact Logic.I.
    - apply (K _ (exec auth dig strx fetch n _ (CType a))). apply X. exact Logic.I.
    - apply (K _ (exec auth dig strx fetch n _ (CHas a k))). apply X. exact Logic.I.
    - apply (K _ (exec auth dig strx fetch n _ (CGet a k))). apply X. exact Logic.I.
    - destruct (Nat.eq_dec t s) as [->|N].
      + unfold Ident.doc_id, mbind at 1, schema_at. rewrite H, I. exact H.
      + apply K. unfold Ident.doc_id. apply k_bind; [apply k_at|]. intro y. destruct (s_id y); [apply k_ret|]. repeat (apply k_bind; [first [apply k_get|apply k_lift|apply k_set, N]|intro]). apply k_ret.
    - exact H.
  Qed.
  (** C91, where it holds: once a loaded document has told its identifier, it is that one for ever *)
  Theorem C91_loaded n s w w1 v : (exists x, nth_error (w_schemas w) s = Some x /\ s_ready x = true) -> doc_id n s w = (w1, Ok v) ->
    forall os k, doc_id k s (after_all os w1) = (after_all os w1, Ok v).
  Proof.
    intros (x & Hx & R) E os k.
    assert (G : exists y, nth_error (w_schemas w1) s = Some y /\ s_ready y = true /\ s_id y = Some v).
    { unfold Ident.doc_id, mbind at 1, schema_at at 1 in E. rewrite Hx in E. destruct (s_id x) as [v'|] eqn:I; [injection E as <- <-; eauto|].
      unfold mbind, get_world, lift in E. destruct (node_repr printable n (w_heap w) (s_value x)); try discriminate. destruct (utf8 a); try discriminate. destruct (mk_uri auth _); try discriminate.
      unfold set_schema in E. injection E as <- <-. cbn [w_schemas]. rewrite nth_lput, Nat.eqb_refl, Hx. eexists. split; [reflexivity|]. auto. }
    destruct G as (y & Hy & Ry & Iy). assert (K : nth_error (w_schemas (after_all os w1)) s = Some y).
    { clear E. revert w1 Hy. induction os as [|o os IH]; intros w1 Hy; [exact Hy|]. cbn. apply IH. eapply did_keeps; eassumption. }
    unfold Ident.doc_id, mbind at 1, schema_at. rewrite K, Iy. reflexivity.
  Qed.
  Lemma loaded_ready s w w' : ev (fun rec => load rec s) w w' (Ok tt) -> exists x, nth_error (w_schemas w') s = Some x /\ s_ready x = true.
  Proof.
    intros [n0 H]. specialize (H n0 (Nat.le_refl _)). unfold load, mbind, schema_at in H. destruct (nth_error (w_schemas w) s) as [x|] eqn:E; [|discriminate].
    destruct (s_ready x) eqn:Rx; [injection H as <-; eauto|]. destruct (exec auth dig strx fetch n0 addr (CProcess s (s_value x)) w) as [w1 [a|e|]]; try discriminate.
    destruct (nth_error (w_schemas w1) s) as [y|] eqn:Ey; [|discriminate]. unfold set_schema in H. injection H as <-. cbn [w_schemas].
    rewrite nth_lput, Nat.eqb_refl, Ey. eauto.
  Qed.
  (** ... in particular the one it declares *)
  Theorem C91_declared w v s w0 t x : fit_document auth v -> opened w v s w0 -> id_of v = Some t -> mk_uri auth t = Ok x ->
    exists w', ev (fun rec => load rec s) w0 w' (Ok tt) /\ forall os k, doc_id k s (after_all os w') = (after_all os w', Ok x).
  Proof.
    intros Ft O It Mt. pose proof Ft as ((d & ->) & _). destruct (opened_dict _ _ _ _ O) as (Es & _ & Ess & _).
    destruct (load_store auth dig strx fetch w (VDict d) s w0 (length (w_heap w)) Ft O) as (w' & L & _ & x' & Hx' & Ix').
    { eexists. split; [rewrite Ess, Es, nth_error_app2, Nat.sub_diag by lia; reflexivity|reflexivity]. }
    exists w'. split; [exact L|]. intros os k. destruct (loaded_ready _ _ _ L) as (x1 & Hx1 & R1). assert (x1 = x') as -> by congruence.
    eapply (C91_loaded 0 s w'); [eauto|]. unfold Ident.doc_id, mbind at 1, schema_at. rewrite Hx', (Ix' t x It Mt). reflexivity.
  Qed.

  (** ** The identifier of a document that declares none *)
  (** [hexdigest] gives lower-case hexadecimal digits; such a text is read as a host *)
  Definition hex_text (t : pystr) : Prop := t <> [] /\ Forall (fun c => (48 <= c <= 57)%N \/ (97 <= c <= 102)%N) t.
  Hypothesis Sha : forall b, hex_text (sha b).
  Hypothesis Auth : forall t, hex_text t -> auth t = Some (Uri.Auth [] t []).
  Definition local (t : pystr) : uri := Uri (u "local") (Uri.Auth [] t []) (u "/") [] [].
  Lemma local_uri t : hex_text t -> mk_uri auth (u "local://" ++ t ++ u "/") = Ok (local t).
  Proof.
    intro H. assert (P : proper (Some (u "local")) (Some t) (u "/") None None).
    { repeat split; try discriminate.
      - intros q [= <-]. exists 108%N, (u "ocal"). split; [reflexivity|]. split; [unfold letter; lia|]. unfold letter. cbn. repeat constructor; lia.
      - injection H0 as <-. intros c Hc Hi. destruct H as [_ H]. rewrite Forall_forall in H. specialize (H c Hc). cbn in Hi. lia.
      - right. exists []. left. reflexivity.
      - intros c Hc. cbn in Hc. cbn. lia. }
    destruct (parts_of _ _ _ _ _ [] P (or_introl eq_refl)) as (E1 & E2 & E3 & E4 & E5). rewrite app_nil_r in *.
    change (u "local://" ++ t ++ u "/") with (u "local:" ++ (u "//" ++ t) ++ u "/").
    change (compose (Some (u "local")) (Some t) (u "/") None None) with (u "local:" ++ (u "//" ++ t) ++ u "/") in *.
    rewrite mk_uri_parts, E1, E2, E3, E4, E5. cbn [text_of]. rewrite (Auth t H). reflexivity.
  Qed.
  Definition told (w : world) (s : nat) (v : uri) : world :=
    World (w_heap w) (upd (w_schemas w) s (fun x => Schema (s_value x) (s_ready x) (s_voc x) (s_anchors x) (Some v))) (w_store w).
  (** it is computed from the JSON value it holds, and from nothing else *)
  Theorem C91_default w s x v b : nth_error (w_schemas w) s = Some x -> s_id x = None -> holds (w_heap w) (s_value x) v -> utf8 (text v) = Ok b ->
    exists n0, forall n, n0 <= n -> doc_id n s w = (told w s (local (sha b)), Ok (local (sha b))).
  Proof.
    intros Hx I H Eb. destruct (repr_holds printable _ _ _ H) as [n0 K]. exists n0. intros n L. unfold Ident.doc_id, mbind at 1, schema_at. rewrite Hx, I.
    unfold mbind, get_world, lift. rewrite (K n L), Eb, (local_uri _ (Sha b)). unfold set_schema, told, upd. rewrite Hx. reflexivity.
  Qed.
  (** asking before or after loading makes no difference if loading changes nothing *)
  Theorem C91_untouched w s x v b : nth_error (w_schemas w) s = Some x -> s_id x = None -> holds (w_heap w) (s_value x) v -> without (triggers (s_voc x)) v -> utf8 (text v) = Ok b ->
    exists w', ev (fun rec => load rec s) w w' (Ok tt) /\ exists n0, forall n, n0 <= n -> snd (doc_id n s w) = Ok (local (sha b)) /\ snd (doc_id n s w') = Ok (local (sha b)).
  Proof.
    intros Hx I H F Eb. exists (made_ready w s). split; [eapply C45_untouched; eassumption|].
    destruct (C91_default w s x v b Hx I H Eb) as [n1 K1].
    destruct (C91_default (made_ready w s) s (Schema (s_value x) true (s_voc x) (s_anchors x) (s_id x)) v b) as [n2 K2]; try assumption.
    { unfold made_ready. cbn [w_schemas]. rewrite nth_upd, Nat.eqb_refl, Hx. reflexivity. }
    exists (n1 + n2). intros n L. rewrite K1, K2 by lia. auto.
  Qed.

  (** ** C92 *)
  (** where it holds: two documents without strings that get the same identifier are the same, unless the hash collides *)
  Lemma Forall_join (P : N -> Prop) (sep : pystr) l : Forall P sep -> Forall (Forall P) l -> Forall P (join sep l).
  Proof. intros Hs F. induction F as [|w l Hw F IH]; [constructor|]. destruct l as [|w' l]; [exact Hw|]. cbn [join]. apply Forall_app. split; [exact Hw|]. apply Forall_app. split; [exact Hs|exact IH]. Qed.
  Lemma u_small q : Forall (fun c => (c < 256)%N) (u q).
  Proof. apply Forall_forall. intros c Hc. unfold u in Hc. apply in_map_iff in Hc as (ch & <- & _). destruct ch as [[] [] [] [] [] [] [] []]; vm_compute; reflexivity. Qed.
  (** what holds of all small characters and of those of the strings holds of the text *)
  Lemma repr_chars (P : N -> Prop) q k : (forall c, (c < 256)%N -> P c) -> (q = 34 \/ q = 39)%N ->
    (forall c, In c k -> P c \/ printable c = false) -> Forall P (flat_map (repr_char printable q) k).
  Proof.
    intros S Q H. induction k as [|c k IH]; [constructor|]. cbn [flat_map]. apply Forall_app. split; [|apply IH; intros; apply H; right; assumption].
    assert (Hx : forall m z, Forall P (hexn m z)).
    { induction m as [|m IHm]; intro z; [constructor|]. cbn [hexn]. apply Forall_app. split; [apply IHm|]. constructor; [|constructor]. apply S.
      pose proof (N.mod_lt z 16 ltac:(lia)). unfold hex1. destruct (N.ltb_spec (z mod 16) 10); lia. }
    specialize (H c (or_introl eq_refl)).
    unfold repr_char. destruct ((c =? q) || (c =? 92))%N eqn:E1; [apply orb_true_iff in E1; rewrite !N.eqb_eq in E1; repeat constructor; apply S; lia|].
    assert (U : forall t, Forall P (u t)) by (intro t; eapply Forall_impl; [|apply u_small]; exact S).
    destruct (c =? 9)%N; [apply U|]. destruct (c =? 10)%N; [apply U|]. destruct (c =? 13)%N; [apply U|].
    destruct ((c <? 32) || (c =? 127))%N; [apply Forall_app; split; [apply U|apply Hx]|]. destruct (N.ltb_spec c 127); [repeat constructor; apply S; lia|].
    destruct (printable c); [repeat constructor; destruct H as [H|H]; [exact H|discriminate]|].
    destruct (c <? 256)%N; [|destruct (c <? 65536)%N]; (apply Forall_app; split; [apply U|apply Hx]).
  Qed.
  (** strings that occur in a value, as values or as names *)
  Inductive says : pv -> pystr -> Prop :=
  | sy_here s : says (VStr s) s
  | sy_elem l x s : In x l -> says x s -> says (VList l) s
  | sy_member d k x s : In (k, x) d -> says x s -> says (VDict d) s.
  Inductive names : pv -> pystr -> Prop :=
  | nm_elem l x s : In x l -> names x s -> names (VList l) s
  | nm_here d k x : In (k, x) d -> names (VDict d) k
  | nm_member d k x s : In (k, x) d -> names x s -> names (VDict d) s.
  Lemma text_chars (P : N -> Prop) v : (forall c, (c < 256)%N -> P c) -> (forall k c, names v k -> In c k -> P c \/ printable c = false) ->
    (forall s, says v s -> Forall P s) -> Forall P (text v).
  Proof.
    intros S. assert (U : forall t, Forall P (u t)) by (intro t; eapply Forall_impl; [|apply u_small]; exact S).
    assert (D : forall d, Forall P (dec_text d)) by (intro d; eapply Forall_impl; [|apply dec_text_chars]; intros c Hc; apply S; unfold num_char, digit_char in Hc; cbn in Hc; intuition lia).
    induction v as [v Hl Hd|l IH|d IH] using pv_ind_deep; intros HN HS.
    - destruct v as [| [] |z|f|e|s|l|d]; cbn [PropsIdent.text]; try apply U; try (exfalso; eapply Hl; reflexivity); try (exfalso; eapply Hd; reflexivity); try (apply Forall_app; split; [apply D|apply U]).
      + rewrite <- dec_text_int. apply Forall_app. split; [apply D|apply U].
      + apply Forall_app. split; [apply HS; constructor|apply U].
    - cbn [PropsIdent.text]. apply Forall_app. split; [apply U|]. apply Forall_app. split; [|apply U]. apply (Forall_join P (u ", ")); [apply U|].
      apply Forall_map. rewrite Forall_forall in *. intros x Hx. apply IH; [exact Hx| |].
      + intros k c Hk. apply HN. econstructor; eassumption.
      + intros s Hs. apply HS. econstructor; eassumption.
    - cbn [PropsIdent.text]. apply Forall_app. split; [apply U|]. apply Forall_app. split; [|apply U]. apply (Forall_join P (u ", ")); [apply U|].
      apply Forall_map. rewrite Forall_forall in *. intros [k x] Hx. cbn [fst snd]. apply Forall_app. split; [|apply Forall_app; split; [apply U|]].
      + assert (C2 : forall c, In c k -> P c \/ printable c = false) by (intro c; apply HN; econstructor; eassumption). unfold repr_str. apply Forall_app. split; [|apply Forall_app; split].
        * constructor; [|constructor]. apply S. destruct (quote_cases k) as [-> | ->]; lia.
        * apply repr_chars; try assumption. apply quote_cases.
        * constructor; [|constructor]. apply S. destruct (quote_cases k) as [-> | ->]; lia.
      + apply (IH (k, x) Hx); cbn [snd].
        * intros k' c Hk. apply HN. eapply nm_member; eassumption.
        * intros s Hs. apply HS. econstructor; eassumption.
  Qed.
  Lemma stringless_says v s : stringless v -> ~ says v s.
  Proof.
    intros H K. induction K as [s|l x s Hi _ IH|d k x s Hi _ IH].
    - inversion H as [? N| |]; subst. eapply N; reflexivity.
    - inversion H as [? _ N|? F|]; subst; [eapply N; reflexivity|]. rewrite Forall_forall in F. auto.
    - inversion H as [? _ _ N| |? F]; subst; [eapply N; reflexivity|]. rewrite Forall_forall in F. apply IH. apply (F _ Hi).
  Qed.
  Lemma stringless_names v k : stringless v -> names v k -> Forall code_point k.
  Proof.
    intros H K. induction K as [l x s Hi _ IH|d k x Hi|d k x s Hi _ IH].
    - inversion H as [? _ N|? F|]; subst; [exfalso; eapply N; reflexivity|]. rewrite Forall_forall in F. auto.
    - inversion H as [? _ _ N| |? F]; subst; [exfalso; eapply N; reflexivity|]. rewrite Forall_forall in F. apply (F _ Hi).
    - inversion H as [? _ _ N| |? F]; subst; [exfalso; eapply N; reflexivity|]. rewrite Forall_forall in F. apply IH. apply (F _ Hi).
  Qed.
  Lemma text_codes v : stringless v -> Forall code_point (text v).
  Proof.
    intro H. apply text_chars.
    - unfold code_point. intros. lia.
    - intros k c Hk Hc. pose proof (stringless_names _ _ H Hk) as F. left. rewrite Forall_forall in F. auto.
    - intros s Hs. destruct (stringless_says _ _ H Hs).
  Qed.
  Lemma map_res_impl {A B} (f g : A -> res B) l m : (forall x y, f x = Ok y -> g x = Ok y) -> map_res f l = Ok m -> map_res g l = Ok m.
  Proof.
    intro H. revert m. induction l as [|x l IH]; intros m E; [exact E|]. cbn in *. destruct (f x) as [y|e|] eqn:Ef; try discriminate. rewrite (H _ _ Ef).
    cbn [bind] in *. destruct (map_res f l) as [ys|e|]; try discriminate. rewrite (IH _ eq_refl). exact E.
  Qed.
  Lemma node_repr_more h n : forall a t m, n <= m -> node_repr printable n h a = Ok t -> node_repr printable m h a = Ok t.
  Proof.
    induction n as [|n IH]; intros a t m L E; [discriminate|]. destruct m as [|m]; [lia|]. cbn [node_repr] in *. destruct (hget h a) as [nd|]; [|discriminate].
    assert (IH' : forall x y, node_repr printable n h x = Ok y -> node_repr printable m h x = Ok y) by (intros; eapply IH; [lia|eassumption]).
    destruct (n_val nd) as [|b|d|q|l|d|r]; try exact E.
    - destruct (map_res (node_repr printable n h) l) as [ts|e|] eqn:M; try discriminate. rewrite (map_res_impl _ _ _ _ IH' M). exact E.
    - match type of E with bind (map_res ?f d) _ = _ => destruct (map_res f d) as [ts|e|] eqn:M; try discriminate end.
      rewrite (map_res_impl _ (fun kx => t <- node_repr printable m h (snd kx);; Ok (repr_str printable (fst kx) ++ u ": " ++ t)) _ _) with (2 := M); [exact E|].
      intros [k x] y. cbn. destruct (node_repr printable n h x) as [t1|e|] eqn:Ex; try discriminate. rewrite (IH' _ _ Ex). auto.
  Qed.
  Lemma id_from_text w s x v n w1 i : nth_error (w_schemas w) s = Some x -> s_id x = None -> holds (w_heap w) (s_value x) v -> doc_id n s w = (w1, Ok i) ->
    exists b, utf8 (text v) = Ok b /\ i = local (sha b).
  Proof.
    intros Hx I H E. unfold Ident.doc_id, mbind at 1, schema_at in E. rewrite Hx, I in E. unfold mbind, get_world, lift in E.
    destruct (node_repr printable n (w_heap w) (s_value x)) as [t|e|] eqn:R; try discriminate.
    destruct (repr_holds printable _ _ _ H) as [n0 K]. assert (t = text v) as ->.
    { specialize (K (n + n0) ltac:(lia)). rewrite (node_repr_more _ n _ t) in K; [congruence|lia|exact R]. }
    destruct (utf8 (text v)) as [b|e|]; try discriminate. rewrite (local_uri _ (Sha b)) in E. unfold set_schema in E. injection E as _ <-. eauto.
  Qed.
  Theorem C92_partial w w' s s' x x' v v' n n' w1 w2 i :
    nth_error (w_schemas w) s = Some x -> s_id x = None -> holds (w_heap w) (s_value x) v -> stringless v ->
    nth_error (w_schemas w') s' = Some x' -> s_id x' = None -> holds (w_heap w') (s_value x') v' -> stringless v' ->
    doc_id n s w = (w1, Ok i) -> doc_id n' s' w' = (w2, Ok i) ->
    alike v v' \/ exists b b', b <> b' /\ sha b = sha b'.
  Proof.
    intros Hx I H F Hx' I' H' F' E E'. destruct (id_from_text _ _ _ _ _ _ _ Hx I H E) as (b & Eb & ->). destruct (id_from_text _ _ _ _ _ _ _ Hx' I' H' E') as (b' & Eb' & Eq).
    injection Eq as Eq. destruct (list_eq_dec N.eq_dec b b') as [<-|N]; [left|right; eauto].
    eapply (text_pf printable v F v' [] [] F'). rewrite (utf8_inj _ _ _ (text_codes v F) (text_codes v' F') Eb Eb'). reflexivity.
  Qed.

  (** ** C93 *)
  (** Python prints surrogates as escapes *)
  Hypothesis Pr : forall c, a_surrogate c -> printable c = false.
  Lemma In_join c t sep l : In t l -> In c t -> In c (join sep l).
  Proof. induction l as [|t' l IH]; intros H K; [destruct H|]. destruct l as [|t2 l]; cbn [join]; [destruct H as [->|[]]; exact K|]. apply in_app_iff. destruct H as [->|H]; [left; exact K|right; apply in_app_iff; right; apply IH; assumption]. Qed.
  Lemma says_text v s c : says v s -> In c s -> In c (text v).
  Proof.
    induction 1 as [s|l x s Hi _ IH|d k x s Hi _ IH]; intro Hc; cbn [PropsIdent.text].
    - apply in_app_iff. left. exact Hc.
    - apply in_app_iff. right. apply in_app_iff. left. eapply In_join; [apply in_map, Hi|apply IH, Hc].
    - apply in_app_iff. right. apply in_app_iff. left. eapply In_join; [apply (in_map _ _ _ Hi)|]. cbn [fst snd]. apply in_app_iff. right. apply in_app_iff. right. apply IH, Hc.
  Qed.
  (** asking fails for every document with a lone surrogate in a string value ... *)
  Theorem C93_fails w s x v q c : nth_error (w_schemas w) s = Some x -> s_id x = None -> holds (w_heap w) (s_value x) v ->
    says v q -> In c q -> a_surrogate c -> exists n0, forall n, n0 <= n -> doc_id n s w = (w, Raise EValue).
  Proof.
    intros Hx I H Sq Hc Sc%surrogate_iff. destruct (repr_holds printable _ _ _ H) as [n0 K]. exists n0. intros n L. unfold Ident.doc_id, mbind at 1, schema_at. rewrite Hx, I.
    unfold mbind, get_world, lift. rewrite (K n L). unfold utf8. replace (existsb surrogate (text v)) with true; [reflexivity|]. symmetry. apply existsb_exists. eauto using says_text.
  Qed.
  (** ... and only for those *)
  Theorem C93_partial w s x v : nth_error (w_schemas w) s = Some x -> s_id x = None -> holds (w_heap w) (s_value x) v ->
    (forall q c, says v q -> In c q -> ~ a_surrogate c) -> exists t n0, hex_text t /\ forall n, n0 <= n -> doc_id n s w = (told w s (local t), Ok (local t)).
  Proof.
    intros Hx I H N. assert (E : exists b, utf8 (text v) = Ok b).
    { unfold utf8. destruct (existsb surrogate (text v)) eqn:E; [|eauto]. exfalso. apply existsb_exists in E as (c & Hc & Sc).
      assert (F : Forall (fun c => surrogate c = false) (text v)).
      { apply text_chars.
        - intros c' L. unfold surrogate. destruct (N.leb_spec 55296 c'); [lia|reflexivity].
        - intros k c' _ _. destruct (surrogate c') eqn:Sx; auto. right. apply Pr, surrogate_iff, Sx.
        - intros q Sq. apply Forall_forall. intros c' Hc'. apply surrogate_not. eauto. }
      rewrite Forall_forall in F. rewrite (F _ Hc) in Sc. discriminate. }
    destruct E as [b Eb]. destruct (C91_default w s x v b Hx I H Eb) as [n0 K]. exists (sha b), n0. split; [apply Sha|exact K].
  Qed.
End Ids.

(** ** Where they fail *)
Section Refuted.
  Variables (dig : N -> option Z) (strx : heap -> addr -> pystr) (fetch : uri -> res pv) (printable : N -> bool) (sha : list N -> pystr).
  Hypothesis Sha : forall b, hex_text (sha b).
  Definition auth0 (t : pystr) : option authority := Some (Uri.Auth [] t []).
  Notation after := (after_all auth0 dig strx fetch printable sha).
  Notation id_told n s w := (snd (doc_id printable auth0 sha n s w)).
  Definition w_none : world := World [] [] [].
  Definition d_id : pv := VDict [(u "$id", VStr (u "http://a/"))].
  Definition d_ref : pv := VDict [(u "a", VDict [(u "$ref", VStr (u "#/b"))]); (u "b", VDict [])].

  Lemma first_id w s x n t b : nth_error (w_schemas w) s = Some x -> s_id x = None -> node_repr printable n (w_heap w) (s_value x) = Ok t -> utf8 t = Ok b ->
    doc_id printable auth0 sha n s w = (told w s (local (sha b)), Ok (local (sha b))).
  Proof.
    intros Hx I Er Eb. unfold Ident.doc_id, mbind at 1, schema_at. rewrite Hx, I. unfold mbind, get_world, lift. rewrite Er, Eb, (local_uri auth0 (fun _ _ => eq_refl) _ (Sha b)).
    unfold set_schema, told, upd. rewrite Hx. reflexivity.
  Qed.
  Lemma known_id w s x n v : nth_error (w_schemas w) s = Some x -> s_id x = Some v -> doc_id printable auth0 sha n s w = (w, Ok v).
  Proof. intros Hx I. unfold Ident.doc_id, mbind at 1, schema_at. rewrite Hx, I. reflexivity. Qed.

  Ltac told_id := idtac; match goal with |- doc_id _ _ _ ?n ?s ?w = _ => let x := eval vm_compute in (nth_error (w_schemas w) s) in lazymatch x with Some ?x => let t := eval vm_compute in (node_repr printable n (w_heap w) (s_value x)) in lazymatch t with Ok ?t => apply (first_id w s x n t); [vm_cast_no_check (eq_refl (Some x))|reflexivity|vm_cast_no_check (eq_refl (Ok t))|vm_compute; reflexivity] end end end.
  (** C91: asked for, loaded, asked for again, a document that declares an
      identifier gives two different ones, whatever the hash *)
  Theorem C91_refuted :
    let w0 := after [DoOpen d_id core] w_none in
    let w1 := after [DoId 9 0; DoLoad 9 0] w0 in
    exists i j, id_told 9 0 w0 = Ok i /\ id_told 9 0 w1 = Ok j /\ i <> j.
  Proof.
    cbv zeta. set (w0 := after [DoOpen d_id core] w_none). pose (b := match utf8 (text printable d_id) with Ok b => b | _ => [] end).
    assert (E0 : doc_id printable auth0 sha 9 0 w0 = (told w0 0 (local (sha b)), Ok (local (sha b)))) by told_id.
    exists (local (sha b)), (Uri (u "http") (Uri.Auth [] (u "a") []) (u "/") [] []). rewrite E0. split; [reflexivity|].
    split; [|discriminate]. unfold after_all, fold_left, did at 2. rewrite E0. cbn [fst did].
    erewrite known_id; [reflexivity|vm_compute; reflexivity|reflexivity].
  Qed.
  (** ... and whether it has been loaded shows in the identifier of a document
      that declares none: for two equal documents they are different, unless the
      hash collides *)
  Theorem C91_content_refuted :
    let w0 := after [DoOpen d_ref core; DoOpen d_ref core; DoLoad 9 1] w_none in
    exists i j, id_told 9 0 w0 = Ok i /\ id_told 9 1 w0 = Ok j /\ (i = j -> exists b b', b <> b' /\ sha b = sha b').
  Proof.
    cbv zeta. set (w0 := after [DoOpen d_ref core; DoOpen d_ref core; DoLoad 9 1] w_none).
    pose (b := match utf8 (text printable d_ref) with Ok b => b | _ => [] end).
    pose (b' := match node_repr printable 9 (w_heap w0) 4 with Ok t => match utf8 t with Ok b => b | _ => [] end | _ => [] end).
    assert (E0 : doc_id printable auth0 sha 9 0 w0 = (told w0 0 (local (sha b)), Ok (local (sha b)))) by told_id.
    assert (E1 : doc_id printable auth0 sha 9 1 w0 = (told w0 1 (local (sha b')), Ok (local (sha b')))) by told_id.
    assert (D : b <> b') by (vm_compute; discriminate). clearbody b b'.
    exists (local (sha b)), (local (sha b')). rewrite E0, E1. split; [reflexivity|]. split; [reflexivity|]. intros [= E]. exists b, b'. split; [exact D|exact E].
  Qed.
  (** C92: the number one and the string "1" *)
  Definition d_one : pv := VDict [(u "const", VInt 1)].
  Definition d_one' : pv := VDict [(u "const", VStr (u "1"))].
  Theorem C92_refuted :
    let w0 := after [DoOpen d_one core; DoOpen d_one' core; DoLoad 9 0; DoLoad 9 1] w_none in
    ~ alike d_one d_one' /\ exists i, id_told 9 0 w0 = Ok i /\ id_told 9 1 w0 = Ok i.
  Proof.
    cbv zeta. set (w0 := after [DoOpen d_one core; DoOpen d_one' core; DoLoad 9 0; DoLoad 9 1] w_none). split.
    - intro H. inversion H as [| |? ? ? D _| | |? ? F]; subst; [inversion D|]. inversion F as [|? ? ? ? [_ K]]; subst. inversion K as [| |? ? ? _ D| | |]; subst. inversion D.
    - pose (b := match utf8 (text printable d_one) with Ok b => b | _ => [] end). exists (local (sha b)).
      assert (E0 : doc_id printable auth0 sha 9 0 w0 = (told w0 0 (local (sha b)), Ok (local (sha b)))) by told_id.
      assert (E1 : doc_id printable auth0 sha 9 1 w0 = (told w0 1 (local (sha b)), Ok (local (sha b)))) by told_id.
      clearbody b. rewrite E0, E1. split; reflexivity.
  Qed.
  (** C93: a lone surrogate (the JSON text ["\ud800"]) *)
  Theorem C93_refuted : let w0 := after [DoOpen (VList [VStr [55296%N]]) core; DoLoad 9 0] w_none in doc_id printable auth0 sha 9 0 w0 = (w0, Raise EValue).
  Proof. vm_compute. reflexivity. Qed.
End Refuted.

(** ** Cases that meet the hypotheses *)
Definition sha0 (b : list N) : pystr := u "0123456789abcdef".
Definition printable0 (c : N) : bool := negb (surrogate c).
Example C91_params : (forall b, hex_text (sha0 b)) /\ (forall t, hex_text t -> auth0 t = Some (Uri.Auth [] t [])) /\ (forall c, a_surrogate c -> printable0 c = false).
Proof. split; [|split; [reflexivity|intros c H%surrogate_iff; unfold printable0; rewrite H; reflexivity]]. intros b. split; [discriminate|]. let t := eval vm_compute in (sha0 b) in change (sha0 b) with t. repeat (apply Forall_cons; [lia|]). apply Forall_nil. Qed.
Definition C91_value : pv := VDict [(u "items", VList [VInt 1; VDec (Dec 25 (-1)); VNone; VBool true]); (u "a'b", VDict [])].
Definition C91_world : world := fst (make_schema C91_value core w_none).
Lemma keys_ok (l : list pystr) k : existsb (str_eqb k) l = false -> ~ In k l.
Proof. intros H Hi. assert (existsb (str_eqb k) l = true); [|congruence]. apply existsb_exists. exists k. split; [exact Hi|apply str_eqb_refl]. Qed.
Example C91_some : exists x b, nth_error (w_schemas C91_world) 0 = Some x /\ s_id x = None /\ holds (w_heap C91_world) (s_value x) C91_value /\
  without (triggers (s_voc x)) C91_value /\ utf8 (text printable0 C91_value) = Ok b /\ b = u "{'items': [1), 2.5), None), JsonBool(True)]), ""a'b"": {})})".
Proof.
  do 2 eexists. split; [reflexivity|]. split; [reflexivity|]. split; [apply (C37_shape [] C91_value)|]. split; [|split; vm_compute; reflexivity].
  assert (N : forall k, existsb (str_eqb k) (triggers core) = false -> ~ In k (triggers core)) by (intros; apply keys_ok; assumption).
  apply wo_dict. repeat (apply Forall_cons; [split; [apply N; vm_compute; reflexivity|]|]); [| |apply Forall_nil]; cbn [snd]; [apply wo_leaf; discriminate|apply wo_dict, Forall_nil].
Qed.
Example C91_declared_some : fit_document auth0 d_id /\ opened w_none d_id 0 (fst (make_schema d_id core w_none)) /\ id_of d_id = Some (u "http://a/") /\ exists x, mk_uri auth0 (u "http://a/") = Ok x /\ uri_text x = u "http://a/".
Proof. split; [apply fit_documentb_ok; vm_compute; reflexivity|]. split; [reflexivity|]. split; [reflexivity|]. eexists. split; [vm_compute; reflexivity|reflexivity]. Qed.
Example C92_some : stringless C91_value.
Proof.
  assert (C : forall q, Forall code_point (u q)) by (intro q; eapply Forall_impl; [|apply u_small]; unfold code_point; intros; lia).
  apply sl_dict. repeat (apply Forall_cons; [split; [apply C|]|]); [| |apply Forall_nil]; cbn [snd]; [apply sl_list; repeat (apply Forall_cons; [apply sl_leaf; discriminate|]); apply Forall_nil|apply sl_dict, Forall_nil].
Qed.
Example C93_some : says (VDict [(u "a", VList [VStr [97%N; 55296%N]])]) [97%N; 55296%N] /\ a_surrogate 55296 /\
  forall q c, says (VDict [([55296%N], VStr (u "x"))]) q -> In c q -> ~ a_surrogate c.
Proof.
  split; [eapply sy_member; [left; reflexivity|]; eapply sy_elem; [left; reflexivity|]; constructor|]. split; [unfold a_surrogate; lia|].
  intros q c H Hc. inversion H as [| |? ? ? ? Hi K]; subst. destruct Hi as [E|[]]. injection E as <- <-. inversion K; subst. destruct Hc as [<-|[]]. intros [H1 _]. vm_compute in H1. congruence.
Qed.

Print Assumptions C91_loaded.
Print Assumptions C91_declared.
Print Assumptions C91_untouched.
Print Assumptions C91_refuted.
Print Assumptions C92_partial.
Print Assumptions C92_refuted.
Print Assumptions C93_fails.
Print Assumptions C93_partial.
