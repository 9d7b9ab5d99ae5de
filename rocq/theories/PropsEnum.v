(** C89: enum with arrays and objects among its members. *)
From Verif Require Import PyBase PyBaseFacts PyVal Errors Validators Keywords Spec RunFacts Master Claims LeafFacts OrderFacts Numbers PropsNumber Uri Heap HeapFacts PropsWrap PropsScalar Parametric KeywordFacts ScalarFacts Validate ExBase.
From Coq Require Import QArith ZifyBool.
Local Open Scope nat_scope.
Local Notation length := List.length (only parsing).

(** [v] is the member [x]: scalars by kind and value, arrays and objects as C38 compares them *)
Definition is_member (x v : pv) : Prop :=
  match x with
  | VList _ | VDict _ => same_json x v
  | VInt _ | VFloat _ | VDec _ => number v /\ exists p q, stands_for (Plain x) p /\ value_is v q /\ (p == q)%Q
  | _ => v = x
  end.
(** comparing them fails *)
Definition member_clash (x v : pv) : Prop := match x with VList _ | VDict _ => clash x v | _ => False end.

Section Scan.
  Context {node : Type} (view : node -> res (nview node)).
  Definition judge (x : nval node) (v : pv) : res bool :=
    match eq_raw view x v with Ok true => Ok (Bool.eqb (is_nbool x) (is_bool v)) | r => r end.
  Fixpoint scan (l : list (nval node)) (v : pv) : res bool :=
    match l with [] => Ok false | x :: l' => b <- judge x v ;; if b then Ok true else scan l' v end.
  Lemma tweak_scan l v : enum_tweak_loop view l v = scan l v.
  Proof.
    induction l as [|x l IH]; [reflexivity|]. cbn [enum_tweak_loop scan]. unfold judge. destruct (eq_raw view x v) as [[|]|e|]; cbn [bind]; try reflexivity; [|exact IH].
    destruct (is_nbool x), (is_bool v); cbn; auto.
  Qed.
  Lemma in_scan l v : (forall y, In y l -> eq_raw view y v = Ok true -> is_nbool y = is_bool v) -> enum_in view l v = scan l v.
  Proof.
    intro H. induction l as [|x l IH]; [reflexivity|]. cbn [enum_in scan]. unfold judge. destruct (eq_raw view x v) as [[|]|e|] eqn:E; cbn [bind]; try reflexivity.
    - rewrite (H x (or_introl eq_refl) E), Bool.eqb_reflx. reflexivity.
    - apply IH. intros y Hy. apply H. right. exact Hy.
  Qed.
  Lemma none_scan l b : existsb is_nbool l = false -> scan l (VBool b) = Ok false.
  Proof.
    induction l as [|x l IH]; [reflexivity|]. cbn [existsb scan]. intro H. apply orb_false_iff in H as [H1 H2]. unfold judge.
    destruct x; try discriminate; cbn [eq_raw is_nbool is_bool Bool.eqb]; cbn [bind]; auto. destruct (opt_q_eqb _ _); cbn [bind]; auto.
  Qed.
  Lemma enum_scan l v c : enum_validate view l v c = (b <- scan l v ;; if b then Ok tt else raise_verr KEnum (ctx_path c)).
  Proof.
    unfold enum_validate. destruct (is_bool v && negb (existsb is_nbool l))%bool eqn:G.
    - apply andb_true_iff in G as [Hv Hn]. apply negb_true_iff in Hn. destruct v; try discriminate. rewrite none_scan by exact Hn. reflexivity.
    - destruct ((existsb is_nbool l && py_eq v (VInt 1)) || py_eq v (VInt 0))%bool eqn:Ht; [rewrite tweak_scan; reflexivity|]. rewrite in_scan; [reflexivity|].
      apply orb_false_iff in Ht as [Ht1 Ht0]. intros y Hin Heq. destruct (is_nbool y) eqn:Hy.
      + destruct (eq_raw_nbool view y v Hy Heq) as [H1|H0]; [|congruence]. assert (existsb is_nbool l = true) by (apply existsb_exists; eauto). rewrite H, H1 in Ht1. discriminate.
      + destruct (is_bool v) eqn:Hv; [|reflexivity]. cbn in G. apply negb_false_iff in G. rewrite G in Ht1. destruct v; cbn in Hv; try discriminate. destruct b; cbn in Ht1, Ht0; discriminate.
  Qed.
End Scan.

(** ** Members read from the schema's JSON value *)
Lemma holds_seen h a n : holds h n a -> rel_res (rel_view (fun a n => holds h n a)) (pv_view a) (hview h n).
Proof.
  intro H. inversion H as [? Hv|? c Hv|? s Hv|? z e Hv He|? f e Hv He|? e' e Hv He|? l' els Hv Hf|? d' its Hv Hf]; subst; rewrite (view_val _ _ _ Hv); constructor; (split; [|reflexivity]); constructor.
  - clear -Hf. induction Hf; constructor; assumption.
  - clear -Hf. induction Hf as [|? ? ? ? [E1 E2]]; constructor; [split; [symmetry; exact E1|exact E2]|assumption].
Qed.
Lemma plain_verdict a b : verdict a b (eq_node pv_view b a).
Proof.
  pose proof (C37_shape [] a) as H. destruct (new [] a) as [n h].
  rewrite (strict_eq_node (fun a n => holds h n a) pv_view (hview h) (holds_seen h) b a n H). apply compare_verdict, H.
Qed.

(** what [enum] reads as the member [x] *)
Definition read (x : pv) : nval pv :=
  match x with
  | VNone => NNull | VBool b => NBool b | VInt z => NNum (Dec z 0) | VFloat f => NNum (frepr f) | VDec d => NNum d
  | VStr s => NStr s | VList l => NArr l | VDict d => NObj d
  end.
Lemma value_q v q : value_is v q <-> num_q v = Some q.
Proof. destruct v as [|[]| | | | | |]; cbn; split; intro H; try contradiction; try discriminate; try (injection H as <-; reflexivity); subst; reflexivity. Qed.
Lemma number_judge x d p v : number x -> read x = NNum d -> stands_for (Plain x) p -> (p == dec_q d)%Q ->
  (judge pv_view (NNum d) v = Ok true /\ is_member x v) \/ (judge pv_view (NNum d) v = Ok false /\ ~ is_member x v).
Proof.
  intros Nx Rx Sx Ep. unfold judge. cbn [eq_raw is_nbool].
  assert (M : is_member x v <-> number v /\ exists q, num_q v = Some q /\ (dec_q d == q)%Q).
  { assert (U : forall p1 p2, stands_for (Plain x) p1 -> stands_for (Plain x) p2 -> p1 = p2) by (intros p1 p2 A B; inversion A; subst; inversion B; reflexivity).
    assert (K : is_member x v <-> number v /\ exists p q, stands_for (Plain x) p /\ value_is v q /\ (p == q)%Q) by (destruct x; cbn in Nx; try contradiction; reflexivity).
    rewrite K. split.
    - intros (Nv & p' & q & A & B & C). split; [exact Nv|]. exists q. split; [apply value_q, B|]. rewrite <- Ep, (U _ _ Sx A). exact C.
    - intros (Nv & q & B & C). split; [exact Nv|]. exists p, q. split; [exact Sx|]. split; [apply value_q, B|]. rewrite Ep. exact C. }
  rewrite M. unfold opt_q_eqb. destruct (num_q v) as [q|] eqn:Q.
  - destruct (Qeq_bool (dec_q d) q) eqn:Eq.
    + apply Qeq_bool_eq in Eq. destruct v; try discriminate; cbn [number is_bool Bool.eqb]; [right|left..]; (split; [reflexivity|]); [intros [[] _]|..]; eauto.
    + right. split; [reflexivity|]. intros (_ & q' & [= <-] & C). apply Qeq_bool_neq in Eq. contradiction.
  - right. split; [reflexivity|]. intros (_ & q' & C & _). discriminate.
Qed.
Lemma member_judge x v :
  (judge pv_view (read x) v = Ok true /\ is_member x v /\ ~ member_clash x v) \/
  (judge pv_view (read x) v = Ok false /\ ~ is_member x v /\ ~ member_clash x v) \/
  (judge pv_view (read x) v = Raise EType /\ member_clash x v /\ ~ is_member x v).
Proof.
  assert (C : forall (P : Prop) r, (r = Ok true /\ P) \/ (r = Ok false /\ ~ P) -> (r = Ok true /\ P /\ ~ False) \/ (r = Ok false /\ ~ P /\ ~ False) \/ (r = Raise EType /\ False /\ ~ P)) by (intros; tauto).
  destruct x as [|b|z|f|d|s|l|d]; cbn [member_clash].
  1-6: apply C.
  - unfold judge; destruct v; cbn; [left|right..]; (split; [reflexivity|]); try discriminate; reflexivity.
  - unfold judge. destruct b; destruct v as [|[]|z|f|d| | |]; cbn; try (right; split; [reflexivity|discriminate]); try (left; split; reflexivity);
      try (destruct (Qeq_bool _ _); cbn; right; split; [reflexivity|discriminate|reflexivity|discriminate]).
  - apply (number_judge (VInt z) _ (inject_Z z)); [exact I|reflexivity|constructor|]. unfold dec_q, scaled. cbn. rewrite Z.mul_1_r. reflexivity.
  - apply (number_judge (VFloat f) _ (dec_q (frepr f))); [exact I|reflexivity|constructor|reflexivity].
  - apply (number_judge (VDec d) _ (dec_q d)); [exact I|reflexivity|constructor|reflexivity].
  - unfold judge; destruct v as [| | | | |t| |]; cbn; try (right; split; [reflexivity|discriminate]). destruct (str_eqb_spec s t) as [->|Hn]; [left; split; reflexivity|right; split; [reflexivity|congruence]].
  - assert (K : eq_raw pv_view (NArr l) v = eq_node pv_view v (VList l)) by (destruct v; reflexivity).
    assert (B : eq_node pv_view v (VList l) = Ok true -> is_bool v = false) by (destruct v; try reflexivity; discriminate).
    unfold judge. cbn [read is_member is_nbool]. rewrite K. destruct (plain_verdict (VList l) v) as [(E & S & N)|[(E & S & N)|(E & S & N)]]; rewrite E; [rewrite (B E)|..]; auto.
  - assert (K : eq_raw pv_view (NObj d) v = eq_node pv_view v (VDict d)) by (destruct v as [| | | | | | |e]; try reflexivity; rewrite eq_node_dict; cbn [bind pv_view nv_val eq_raw]; destruct (Nat.eqb _ _); [|reflexivity]; induction d as [|[k x] d IH]; cbn [dict_eq]; [reflexivity|destruct (dget k e); [|reflexivity]; rewrite IH; reflexivity]).
    assert (B : eq_node pv_view v (VDict d) = Ok true -> is_bool v = false) by (destruct v; try reflexivity; discriminate).
    unfold judge. cbn [read is_member is_nbool]. rewrite K. destruct (plain_verdict (VDict d) v) as [(E & S & N)|[(E & S & N)|(E & S & N)]]; rewrite E; [rewrite (B E)|..]; auto.
Qed.

(** some member is met, and the comparison with no member before it fails *)
Definition met (ms : list pv) (v : pv) : Prop := exists l1 x l2, ms = l1 ++ x :: l2 /\ is_member x v /\ forall y, In y l1 -> ~ member_clash y v.
(** the comparison with some member fails, and no member before it is met *)
Definition failed (ms : list pv) (v : pv) : Prop := exists l1 x l2, ms = l1 ++ x :: l2 /\ member_clash x v /\ forall y, In y l1 -> ~ is_member y v.
Definition missed (ms : list pv) (v : pv) : Prop := forall x, In x ms -> ~ is_member x v /\ ~ member_clash x v.

Lemma scan_members ms v :
  (scan pv_view (map read ms) v = Ok true /\ met ms v) \/ (scan pv_view (map read ms) v = Ok false /\ missed ms v) \/ (scan pv_view (map read ms) v = Raise EType /\ failed ms v).
Proof.
  induction ms as [|x ms IH]; [right; left; split; [reflexivity|intros ? []]|]. cbn [map scan].
  destruct (member_judge x v) as [(E & M & C)|[(E & M & C)|(E & C & M)]]; rewrite E; cbn [bind].
  - left. split; [reflexivity|]. exists [], x, ms. repeat split; [exact M|intros ? []].
  - destruct IH as [(E1 & l1 & y & l2 & -> & Y & F)|[(E1 & Z)|(E1 & l1 & y & l2 & -> & Y & F)]]; rewrite E1.
    + left. split; [reflexivity|]. exists (x :: l1), y, l2. repeat split; [exact Y|]. intros z [<-|Hz]; auto.
    + right; left. split; [reflexivity|]. intros z [<-|Hz]; auto.
    + right; right. split; [reflexivity|]. exists (x :: l1), y, l2. repeat split; [exact Y|]. intros z [<-|Hz]; auto.
  - right; right. split; [reflexivity|]. exists [], x, ms. repeat split; [exact C|intros ? []].
Qed.
Lemma read_members ms : map_res (enum_item pv_view) ms = Ok (map read ms).
Proof. induction ms as [|x ms IH]; [reflexivity|]. cbn [map_res]. rewrite IH. destruct x; reflexivity. Qed.

(** ** Equal as JSON values *)
Inductive equal_json : pv -> pv -> Prop :=
| e_null : equal_json VNone VNone
| e_bool b : equal_json (VBool b) (VBool b)
| e_str s : equal_json (VStr s) (VStr s)
| e_num x y p q : number x -> number y -> stands_for (Plain x) p -> stands_for (Plain y) q -> (p == q)%Q -> equal_json x y
| e_list l m : Forall2 equal_json l m -> equal_json (VList l) (VList m)
| e_dict d e : length d = length e ->
    Forall (fun kx => exists y, dget (fst kx) e = Some y /\ equal_json (snd kx) y) d -> equal_json (VDict d) (VDict e).
Lemma alike_equal x : forall y, same_kinds x y -> same_json x y <-> equal_json x y.
Proof.
  induction x as [x Hl Hd|l IH|d IH] using pv_ind_deep; intros y K.
  - split; intro H; inversion H; subst; try (exfalso; eapply Hl; reflexivity); try (exfalso; eapply Hd; reflexivity); try constructor.
    + inversion K; subst; try contradiction. eapply e_num; eassumption.
    + eapply s_num; eassumption.
  - inversion K as [| | |? ? N|? ? F|]; subst; [contradiction|]. split; intro H; inversion H as [| | |? ? ? ? N|? m G|]; subst; try contradiction; constructor; specialize (F m eq_refl); clear K H.
    + revert m F G. induction IH as [|a l Ha _ IHl]; intros m F G; inversion G; subst; inversion F; subst; constructor; [apply Ha; assumption|apply IHl; assumption].
    + revert m F G. induction IH as [|a l Ha _ IHl]; intros m F G; inversion G; subst; inversion F; subst; constructor; [apply Ha; assumption|apply IHl; assumption].
  - inversion K as [| | |? ? N| |? ? F]; subst; [contradiction|]. split; intro H; inversion H as [| | |? ? ? ? N| |? e L G]; subst; try contradiction; (constructor; [exact L|]); specialize (F e eq_refl); clear K H L.
    + induction IH as [|a d Ha _ IHd]; inversion G as [|? ? (z & G1 & G2) G3]; subst; inversion F; subst; constructor; [|apply IHd; assumption]. exists z. split; [exact G1|]. apply Ha; auto.
    + induction IH as [|a d Ha _ IHd]; inversion G as [|? ? (z & G1 & G2) G3]; subst; inversion F; subst; constructor; [|apply IHd; assumption]. exists z. split; [exact G1|]. apply Ha; auto.
Qed.
Lemma member_equal x v : match x with VList _ | VDict _ => same_kinds x v | _ => True end ->
  (forall f, v = VFloat f -> (float_q f == dec_q (frepr f))%Q) -> is_member x v <-> equal_json x v.
Proof.
  intros K F.
  assert (N : number x -> (number v /\ exists p q, stands_for (Plain x) p /\ value_is v q /\ (p == q)%Q) <-> equal_json x v).
  { intro Nx. split.
    - intros (Nv & p & q & P & Q & Epq). destruct v; try contradiction; cbn in Q; subst q; (eapply e_num; [exact Nx|exact I|exact P|constructor|]); [exact Epq| |exact Epq]. rewrite Epq. apply F. reflexivity.
    - intro H. inversion H as [| | |? ? p q _ Nv P Q Epq| |]; subst; try contradiction. split; [exact Nv|]. exists p. destruct v; try contradiction; inversion Q; subst; cbn [value_is]; (eexists; split; [exact P|split; [reflexivity|]]); [exact Epq| |exact Epq]. rewrite Epq. symmetry. apply F. reflexivity. }
  destruct x; cbn [is_member]; try (apply N; exact I); try (apply alike_equal, K); split; try (intros ->; constructor); intro H; inversion H; subst; try contradiction; reflexivity.
Qed.

Section Schema.
  Variables (says : pv -> pystr) (E : env) (voc : list akw).
  Hypothesis HV : In KwEnum voc.
  Notation Accepts := (Accepts pv_view says E voc).
  Notation Outcome := (Outcome pv_view says E voc).
  Notation RejectsWith := (RejectsWith pv_view says E voc).
  Definition enum_of (ms : list pv) : pv := VDict [(u "enum", VList ms)].

  Lemma enum_run ms f v c : validate pv_view says E voc (S f) (enum_of ms) v c = enum_validate pv_view (map read ms) v c.
  Proof.
    cbn [validate]. rewrite (sole_compile_in pv_view says E voc (enum_of ms) [(u "enum", VList ms)] KwEnum (VList ms) (VEnum (map read ms))).
    - cbn [bind]. rewrite for_each_one. reflexivity.
    - intros k n w m H V Hm. cbn [dget] in H. destruct (str_eqb k (u "enum")); [|discriminate]. injection H as <-. injection V as <-. discriminate.
    - eexists. split; reflexivity.
    - exact HV.
    - reflexivity.
    - intros k' _ [H|[]]. left. destruct k'; try reflexivity; discriminate H.
    - reflexivity.
    - unfold apply, opnd, opnd_node. cbn [dget kw_key]. rewrite str_eqb_refl. cbn [bind pv_view nv_val]. rewrite read_members. reflexivity.
  Qed.

  Theorem C89_exact ms v c :
    (Accepts (enum_of ms) v c <-> met ms v) /\
    (plain c -> Outcome (enum_of ms) v c (Raise EType) <-> failed ms v) /\
    (plain c -> RejectsWith (enum_of ms) v c KEnum c <-> missed ms v) /\
    (met ms v \/ failed ms v \/ missed ms v).
  Proof.
    assert (O : forall r, r <> OutOfFuel -> Outcome (enum_of ms) v c r <-> enum_validate pv_view (map read ms) v c = r).
    { intros r Hr. split; [intros [_ [[|f] H]]; [cbn in H; congruence|]; rewrite enum_run in H; exact H|]. intro H. split; [exact Hr|]. exists 1. rewrite enum_run. exact H. }
    assert (D1 : met ms v -> scan pv_view (map read ms) v = Ok true).
    { clear O. intros (l1 & x & l2 & -> & M & F). induction l1 as [|y l1 IH]; cbn [map app scan].
      - destruct (member_judge x v) as [(-> & _)|[(_ & N & _)|(_ & _ & N)]]; [reflexivity|contradiction..].
      - destruct (member_judge y v) as [(-> & _)|[(-> & _)|(_ & N & _)]]; [reflexivity| |exfalso; apply (F y (or_introl eq_refl) N)]. cbn [bind]. apply IH. intros z Hz. apply F. right. exact Hz. }
    assert (D2 : failed ms v -> scan pv_view (map read ms) v = Raise EType).
    { clear O D1. intros (l1 & x & l2 & -> & M & F). induction l1 as [|y l1 IH]; cbn [map app scan].
      - destruct (member_judge x v) as [(_ & _ & N)|[(_ & _ & N)|(-> & _)]]; [contradiction..|reflexivity].
      - destruct (member_judge y v) as [(_ & N & _)|[(-> & _)|(-> & _)]]; [exfalso; apply (F y (or_introl eq_refl) N)| |reflexivity]. cbn [bind]. apply IH. intros z Hz. apply F. right. exact Hz. }
    assert (D3 : missed ms v -> scan pv_view (map read ms) v = Ok false).
    { intro F. destruct (scan_members ms v) as [(_ & l1 & x & l2 & -> & M & _)|[(S & _)|(_ & l1 & x & l2 & -> & M & _)]]; [|exact S|]; destruct (F x); try contradiction; apply in_or_app; right; left; reflexivity. }
    split; [|split; [|split]].
    - rewrite <- outcome_accepts, O, enum_scan by discriminate. split; [|intro H; rewrite (D1 H); reflexivity].
      destruct (scan_members ms v) as [(-> & M)|[(-> & _)|(-> & _)]]; cbn [bind]; [auto|intro H; destruct (raise_verr_not_ok _ _ _ H)|discriminate].
    - intro Hc. rewrite O, enum_scan by discriminate. split; [|intro H; rewrite (D2 H); reflexivity].
      destruct (scan_members ms v) as [(-> & M)|[(-> & _)|(-> & M)]]; cbn [bind]; [discriminate|rewrite (raise_at _ _ Hc); discriminate|auto].
    - intro Hc. unfold Claims.RejectsWith. rewrite O, enum_scan by discriminate. split; [|intro H; rewrite (D3 H); cbn [bind]; apply raise_at, Hc].
      destruct (scan_members ms v) as [(-> & M)|[(-> & M)|(-> & M)]]; cbn [bind]; [discriminate|auto|discriminate].
    - destruct (scan_members ms v) as [(_ & M)|[(_ & M)|(_ & M)]]; auto.
  Qed.

  (** [v] and the members are alike: where an array or object member could be met,
      numbers stand against numbers and bools against bools, and the text of a
      float [v] is its exact value *)
  Definition alike (ms : list pv) (v : pv) : Prop :=
    (forall x, In x ms -> match x with VList _ | VDict _ => same_kinds x v | _ => True end) /\
    (forall f, v = VFloat f -> (float_q f == dec_q (frepr f))%Q).
  Theorem C89_partial ms v c : alike ms v ->
    (Accepts (enum_of ms) v c <-> exists x, In x ms /\ equal_json x v) /\
    (plain c -> ~ (exists x, In x ms /\ equal_json x v) -> RejectsWith (enum_of ms) v c KEnum c).
  Proof.
    intros [K F]. destruct (C89_exact ms v c) as (A & _ & R & _).
    assert (NC : forall x, In x ms -> ~ member_clash x v).
    { intros x Hx C. specialize (K x Hx). destruct x; try contradiction; exact (same_kinds_clash _ _ C K). }
    assert (I : forall x, In x ms -> is_member x v <-> equal_json x v) by (intros x Hx; apply member_equal; [exact (K x Hx)|exact F]).
    split.
    - rewrite A. split.
      + intros (l1 & x & l2 & -> & M & _). assert (Hx : In x (l1 ++ x :: l2)) by (apply in_or_app; right; left; reflexivity). exists x. split; [exact Hx|]. apply I; assumption.
      + intros (x & Hx & M). destruct (in_split _ _ Hx) as (l1 & l2 & Es). exists l1, x, l2. split; [exact Es|]. split; [apply I; assumption|].
        intros y Hy. apply NC. rewrite Es. apply in_or_app. left. exact Hy.
    - intros Hc N. apply R; [exact Hc|]. intros x Hx. split; [|apply NC, Hx]. intro M. apply N. exists x. split; [exact Hx|]. apply I; assumption.
  Qed.
End Schema.

(** [0.1]: the float nearest to a tenth *)
Definition tenth : pv := VFloat (PFloat 3602879701896397 (-55) (Dec 1 (-1))).
Theorem C89_refuted : exists ms1 v1 ms2 v2 ms3 v3 x1 x3, In x1 ms1 /\ equal_json x1 v1 /\ In x3 ms3 /\ equal_json x3 v3 /\
  (forall x, In x ms2 -> ~ equal_json x v2) /\
  forall says E voc, In KwEnum voc ->
    Outcome pv_view says E voc (enum_of ms1) v1 [] (Raise EType) /\
    Accepts pv_view says E voc (enum_of ms2) v2 [] /\
    RejectsWith pv_view says E voc (enum_of ms3) v3 [] KEnum [].
Proof.
  exists [VList [VInt 1]; VList [VStr (u "a")]], (VList [VStr (u "a")]), [VList [VInt 1]], (VList [VBool true]), [tenth], tenth, (VList [VStr (u "a")]), tenth.
  split; [right; left; reflexivity|]. split; [constructor; repeat constructor|]. split; [left; reflexivity|].
  split; [eapply e_num; [exact I|exact I|constructor|constructor|reflexivity]|]. split.
  - intros x [<-|[]] H. inversion H as [| | |? ? ? ? N|? ? F|]; subst; [contradiction|]. inversion F as [|? ? ? ? K _]; subst. inversion K; subst. contradiction.
  - intros says E voc HV. split; [|split].
    + apply C89_exact; [exact HV|constructor|]. exists [], (VList [VInt 1]), [VList [VStr (u "a")]]. split; [reflexivity|]. split; [|intros ? []].
      apply (c_list [] (VInt 1) [] [] (VStr (u "a")) []); [constructor|reflexivity|]. apply c_num; [exact I|]. intros q H. inversion H.
    + apply C89_exact; [exact HV|]. exists [], (VList [VInt 1]), []. split; [reflexivity|]. split; [|intros ? []]. constructor. constructor; [|constructor].
      eapply s_num; [exact I|constructor|constructor|reflexivity].
    + apply C89_exact; [exact HV|constructor|]. intros x [<-|[]]. split; [|exact (fun H => H)]. intros (_ & p & q & P & Q & Epq). inversion P; subst. cbn in Q. subst q. vm_compute in Epq. discriminate.
Qed.
(** members of every kind, met and missed *)
Definition C89_members : list pv := [VNone; VList [VInt 1; VStr (u "a")]; VDict [(u "k", VList [VBool true])]; VStr (u "b")].
Definition C89_value : pv := VDict [(u "k", VList [VBool true])].
Example C89_some : alike C89_members C89_value /\ (exists x, In x C89_members /\ equal_json x C89_value) /\
  alike C89_members (VList [VInt 1; VStr (u "b")]) /\ ~ (exists x, In x C89_members /\ equal_json x (VList [VInt 1; VStr (u "b")])).
Proof.
  split; [|split; [|split]].
  - split; [|discriminate]. intros x [<-|[<-|[<-|[<-|[]]]]]; try exact I; [apply k_list; discriminate|]. apply k_dict. intros e [= <-]. constructor; [|constructor]. cbn. intros z [= <-]. apply k_list. intros m [= <-]. repeat constructor.
  - eexists. split; [right; right; left; reflexivity|]. constructor; [reflexivity|]. repeat constructor. eexists. split; [reflexivity|]. repeat constructor.
  - split; [|discriminate]. intros x [<-|[<-|[<-|[<-|[]]]]]; try exact I; [|apply k_dict; discriminate]. apply k_list. intros m [= <-]. constructor; [apply k_num; exact I|repeat constructor].
  - intros (x & [<-|[<-|[<-|[<-|[]]]]] & H); inversion H as [| | |? ? ? ? N|? ? F|]; subst; try contradiction. inversion F as [|? ? ? ? _ F2]; subst. inversion F2 as [|? ? ? ? K _]; subst. inversion K; subst; contradiction.
Qed.
