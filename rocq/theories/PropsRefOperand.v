(** C119: operands that are given by a reference. *)
From Verif Require Import PyBase PyBaseFacts PyVal OrderFacts Errors Regex Numbers Validators Keywords Uri Pointer Store Heap HeapFacts PropsNumber PropsWrap PropsPlaces PropsUriEx Doc DocMono DocFacts Parametric PropsRefArray RefOperand.
From Coq Require Import QArith.
Local Open Scope nat_scope.
Local Notation length := List.length (only parsing).

(** ** Specification *)
(** the number a float is printed as; anything else is itself *)
Definition shown (v : pv) : pv := match v with VFloat f => VDec (frepr f) | _ => v end.
Definition a_number (v : pv) : Prop := match v with VInt _ | VFloat _ | VDec _ => True | _ => False end.
Definition a_text (v : pv) : Prop := match v with VStr _ => True | _ => False end.
Definition an_array (v : pv) : Prop := match v with VList _ => True | _ => False end.
Definition bounds : list akw := [KwMinimum; KwMaximum; KwExclusiveMinimum; KwExclusiveMaximum].
Definition sizes : list akw := [KwMinLength; KwMaxLength; KwMinItems; KwMaxItems; KwMinProperties; KwMaxProperties].
Definition lists : list akw := [KwAllOf; KwAnyOf; KwOneOf; KwPrefixItems; KwItems; KwRequired; KwType].
(** the text of a reference *)
Definition reference_text (uri : pystr) : pystr := (u "JsonReference(" ++ uri ++ u ")")%list.

(** ** Iterating over a reference never ends well *)
(** each element stands for at most one number, so [length l] elements cannot stand
    for all of 0, ..., [length l] *)
Lemma hit_few {A} (R : A -> Z -> Prop) (zs : list Z) : NoDup zs -> forall l : list A, (forall a i j, In a l -> R a i -> R a j -> i = j) ->
  (forall z, In z zs -> exists a, In a l /\ R a z) -> length zs <= length l.
Proof.
  induction 1 as [|z zs Nz ND IH]; intros l F H; [cbn; lia|].
  destruct (H z (or_introl eq_refl)) as (a & Ia & Ra). apply in_split in Ia as (l1 & l2 & ->).
  rewrite app_length. cbn [length]. assert (L : length zs <= length (l1 ++ l2)); [|rewrite app_length in L; lia].
  apply IH.
  - intros b i j Ib. apply F. apply in_or_app. apply in_app_or in Ib as [Ib|Ib]; [left|right; right]; exact Ib.
  - intros z' Iz. destruct (H z' (or_intror Iz)) as (b & Ib & Rb). exists b. split; [|exact Rb]. apply in_or_app.
    apply in_app_or in Ib as [Ib|[<-|Ib]]; [left; exact Ib| |right; exact Ib].
    exfalso. assert (z = z') as -> by (apply (F a); [apply in_or_app; right; left; reflexivity|exact Ra|exact Rb]). contradiction.
Qed.
Lemma all_hit {A} (R : A -> Z -> Prop) (l : list A) : (forall a i j, In a l -> R a i -> R a j -> i = j) ->
  ~ (forall i, i <= length l -> exists a, In a l /\ R a (Z.of_nat i)).
Proof.
  intros F H. assert (ND : NoDup (map Z.of_nat (seq 0 (S (length l))))).
  { apply FinFun.Injective_map_NoDup; [intros x y; lia|apply seq_NoDup]. }
  pose proof (hit_few R _ ND l F) as L. rewrite map_length, seq_length in L. enough (S (length l) <= length l) by lia.
  apply L. intros z Iz. apply in_map_iff in Iz as (i & <- & Ii). apply in_seq in Ii. apply H. lia.
Qed.

Section Iteration.
  Local Notation eqz z := (eq_node operand_view (VInt z)).
  Lemma eqz_plain z x : eqz z (Here x) = match shape x with
    | NNum d => Ok (Qeq_bool (dec_q d) (inject_Z z)) | NBool _ => Raise EType | _ => Ok false end.
  Proof. destruct x; reflexivity. Qed.
  Lemma any_cases z l : (exists x, In x l /\ eqz z x = Ok true /\ any_equals z l = Ok true) \/ any_equals z l = Ok false \/
    (exists x e, In x l /\ eqz z x = Raise e /\ any_equals z l = Raise e) \/ (exists x, In x l /\ eqz z x = OutOfFuel).
  Proof.
    induction l as [|x l IH]; [right; left; reflexivity|]. cbn [any_equals]. destruct (eqz z x) as [[]|e|] eqn:Q; cbn [bind].
    - left. exists x. split; [left; reflexivity|split; [exact Q|reflexivity]].
    - destruct IH as [(y & I & A & B)|[B|[(y & e & I & A & B)|(y & I & A)]]]; [left; exists y|right; left|right; right; left; exists y, e|right; right; right; exists y]; repeat split; try assumption; right; assumption.
    - right. right. left. exists x, e. repeat split; [left; reflexivity|exact Q].
    - right. right. right. exists x. split; [left; reflexivity|exact Q].
  Qed.
  Lemma any_plain z l : (exists x, In x l /\ eqz z (Here x) = Ok true /\ any_equals z (map Here l) = Ok true) \/
    any_equals z (map Here l) = Ok false \/ any_equals z (map Here l) = Raise EType.
  Proof.
    destruct (any_cases z (map Here l)) as [(y & I & A & B)|[B|[(y & e & I & A & B)|(y & I & A)]]]; [left|right; left; exact B|right; right|exfalso];
      try (apply in_map_iff in I as (x & <- & I)).
    - exists x. repeat split; assumption.
    - rewrite eqz_plain in A. destruct (shape x); try discriminate A. injection A as <-. exact B.
    - rewrite eqz_plain in A. destruct (shape x); discriminate A.
  Qed.
  Lemma contains_final n z : contains_int n z = contains_int (Here (final n)) z.
  Proof. induction n as [v|uri t IH]; [reflexivity|exact IH]. Qed.
  (** reaching an element by way of references: only if some element equals the index *)
  Lemma item_list n l i : final n = VList l -> contains_int n (Z.of_nat i) = Ok true -> item n i = match nth_error l i with Some x => Ok (Here x) | None => Raise EIndex end.
  Proof.
    induction n as [v|uri t IH]; intros F C; cbn [final] in F; [subst v; cbn; rewrite nth_error_map; destruct (nth_error l i); reflexivity|].
    cbn [contains_int] in C. cbn [item]. rewrite C. cbn [bind]. exact (IH F C).
  Qed.
  Definition stopped {A} (r : res A) : Prop := r = Raise (EKey []) \/ r = Raise EType.
  Lemma iterate_array uri t l : final t = VList l -> forall fuel i, length l < fuel + i -> i <= length l ->
    (forall j, j < i -> exists x, In x l /\ eqz (Z.of_nat j) (Here x) = Ok true) -> stopped (iterate fuel (There uri t) i).
  Proof.
    intros F fuel. induction fuel as [|fuel IH]; intros i Hf Hi Hit; [lia|]. cbn [iterate item].
    pose proof (contains_final t (Z.of_nat i)) as C. rewrite F in C. cbn [contains_int shape] in C.
    destruct (any_plain (Z.of_nat i) l) as [(x & Ix & Ex & B)|[B|B]]; rewrite B in C; rewrite C; cbn [bind]; [|left; reflexivity|right; reflexivity].
    rewrite (item_list t l i F C).
    assert (Hit' : forall j, j < S i -> exists x, In x l /\ eqz (Z.of_nat j) (Here x) = Ok true).
    { intros j Hj. destruct (Nat.eq_dec j i) as [->|Nj]; [exists x; split; assumption|apply Hit; lia]. }
    destruct (Nat.eq_dec i (length l)) as [->|Ni].
    - exfalso. refine (all_hit (fun x z => eqz z (Here x) = Ok true) l _ _).
      + intros a p q _. rewrite !eqz_plain. destruct (shape a); try discriminate. intros P Q. injection P as P. injection Q as Q.
        apply Qeq_bool_eq in P. apply Qeq_bool_eq in Q. rewrite P in Q. apply inject_Z_injective. exact Q.
      + intros j Hj. apply Hit'. lia.
    - destruct (nth_error l i) as [y|] eqn:Ny; [|apply nth_error_None in Ny; lia].
      destruct (IH (S i)) as [->| ->]; [lia|lia|exact Hit'| |]; [left|right]; reflexivity.
  Qed.
  (** ** whatever a reference leads to, iterating over it ends with a KeyError or a TypeError *)
  Theorem C119_iteration uri t : stopped (elements (There uri t)).
  Proof.
    unfold elements, width. cbn [final]. destruct (final t) as [| | | | | |l|d] eqn:F; cbn [shape].
    7: { rewrite map_length. apply (iterate_array uri t l F); [lia|lia|intros j Hj; lia]. }
    all: cbn [iterate item]; rewrite contains_final, F; cbn [contains_int shape bind]; first [right; reflexivity|left; reflexivity].
  Qed.
End Iteration.

Section Exact.
  Variable E : env.
  Variable strx : operand -> pystr.
  Variable rec : operand -> pv -> ctx -> res unit.
  Variable lf : nat.
  Notation result := (outcome E strx rec lf).

  (** a keyword whose operand is written out is the keyword of Keywords.v *)
  Theorem C119_written k x v c : result k (Here x) v c =
    (d <- apply operand_view strx E k [(kw_key k, Here x)] [] ;; for_each (fun '(_, o) => run_vobj operand_view E rec lf o v c) d).
  Proof.
    assert (U : forall k', (rs <- as_usual E strx k' (Here x) ;; for_each (fun '(_, r) => run_rule E rec lf r v c) rs) =
      (d <- apply operand_view strx E k' [(kw_key k', Here x)] [] ;; for_each (fun '(_, o) => run_vobj operand_view E rec lf o v c) d)).
    { intro k'. unfold as_usual. destruct (apply operand_view strx E k' [(kw_key k', Here x)] []) as [d|e|]; cbn [bind]; try reflexivity.
      induction d as [|[key o] d IH]; [reflexivity|]. cbn [map for_each run_rule]. destruct (run_vobj operand_view E rec lf o v c); [exact IH|reflexivity|reflexivity]. }
    destruct k; try exact (U _);
      destruct x; try reflexivity; try exact (U KwItems).
    - change (apply operand_view strx E KwEnum [(kw_key KwEnum, Here (VList l))] []) with (xs <- map_res (enum_item operand_view) (map Here l) ;; Ok (put KwEnum (VEnum xs) [])).
      unfold outcome, apply_any. cbn [final shape value_of bind]. destruct (map_res _ (map Here l)); reflexivity.
    - change (apply operand_view strx E KwFormat [(kw_key KwFormat, Here (VStr s))] []) with (match fmt E s with None => Raise ESchemaParse | Some _ => Ok (put KwFormat (VFormat s) ([] : list (pystr * vobj operand operand))) end).
      unfold outcome, apply_any. cbn [final shape str_of]. destruct (fmt E s); reflexivity.
    - change (apply operand_view strx E KwPattern [(kw_key KwPattern, Here (VStr s))] []) with (if re_ok E s then Ok (put KwPattern (VPattern s) ([] : list (pystr * vobj operand operand))) else Raise ERe).
      unfold outcome, apply_any. cbn [final shape str_of]. destruct (re_ok E s); reflexivity.
    - change (apply operand_view strx E KwType [(kw_key KwType, Here (VStr s))] []) with (if forallb (fun t => str_mem t valid_types) [s] then Ok (put KwType (VType [s]) ([] : list (pystr * vobj operand operand))) else Raise ESchemaParse).
      unfold outcome, apply_any. cbn [final shape str_of bind]. destruct (forallb _ _); reflexivity.
    - change (apply operand_view strx E KwType [(kw_key KwType, Here (VList l))] []) with (if forallb (fun t => str_mem t valid_types) (map (item_str operand_view strx) (map Here l)) then Ok (put KwType (VType (map (item_str operand_view strx) (map Here l))) ([] : list (pystr * vobj operand operand))) else Raise ESchemaParse).
      unfold outcome, apply_any. cbn [final shape elements bind]. destruct (forallb _ _); reflexivity.
  Qed.

  (** minimum and the like: as written out, but a float counts for what it is printed as *)
  Theorem C119_bounds k uri t v c : In k bounds -> result k (There uri t) v c = result k (Here (final t)) (shown v) c.
  Proof.
    assert (N : forall f n w, node_compare f n w = match shape (final n) with NNum d => f d (Plain w) | _ => Raise EType end) by (intros f n w; induction n; [reflexivity|assumption]).
    intros I. repeat destruct I as [<-|I]; try contradiction;
      (unfold outcome, apply_any, with_value; cbn [final value_of]; destruct (final t) eqn:F; cbn [shape bind]; try reflexivity;
       unfold one; cbn [bind for_each run_rule run_vobj]; rewrite N; unfold number_of; rewrite F; cbn [shape]; unfold minimum_validate, maximum_validate; destruct v; reflexivity).
  Qed.

  (** the six bounds on sizes: always a TypeError *)
  Theorem C119_sizes k uri t v c : In k sizes -> a_number (final t) -> result k (There uri t) v c = Raise EType.
  Proof.
    intros I. repeat destruct I as [<-|I]; try contradiction; unfold outcome, apply_any, with_int; cbn [final]; destruct (final t); try contradiction; reflexivity.
  Qed.

  (** multipleOf: a TypeError for every number, and nothing is accepted *)
  Theorem C119_multiples uri t v c : a_number (final t) ->
    (a_number v -> result KwMultipleOf (There uri t) v c = Raise EType) /\ result KwMultipleOf (There uri t) v c <> Ok tt.
  Proof.
    intro N. assert (R : result KwMultipleOf (There uri t) v c = (_ <- dec_of_value E v ;; Raise EType)).
    { unfold outcome, apply_any, with_value. cbn [final value_of]. destruct (final t); try contradiction; cbn [shape bind]; unfold one; cbn [bind for_each run_rule]; destruct (dec_of_value E v); reflexivity. }
    rewrite R. split; [destruct v; try contradiction; reflexivity|destruct (dec_of_value E v); discriminate].
  Qed.

  (** pattern and format: the text of the reference is taken, not the text it leads to *)
  Theorem C119_texts k uri t v c : k = KwPattern \/ k = KwFormat -> a_text (final t) ->
    result k (There uri t) v c = result k (Here (VStr (reference_text uri))) v c.
  Proof. intros [-> | ->] T; unfold outcome, apply_any; cbn [final]; destruct (final t); try contradiction; reflexivity. Qed.
  (** type: such a text is no type *)
  Theorem C119_type uri t v c : a_text (final t) -> result KwType (There uri t) v c = Raise ESchemaParse.
  Proof. intro T. unfold outcome, apply_any. cbn [final]. destruct (final t); try contradiction; reflexivity. Qed.

  (** lists of schemas, names or types: a KeyError or a TypeError *)
  Theorem C119_lists k uri t v c : In k lists -> an_array (final t) -> stopped (result k (There uri t) v c).
  Proof.
    intros I A. pose proof (C119_iteration uri t) as S.
    repeat destruct I as [<-|I]; try contradiction; unfold outcome, apply_any, with_list; cbn [final];
      (destruct (final t); try contradiction); cbn [shape]; (destruct S as [S|S]; rewrite S; [left|right]; reflexivity).
  Qed.

  (** enum: as written out, if the reference leads there at once *)
  Theorem C119_enum uri t v c : an_array (final t) ->
    (forall x, t = Here x -> result KwEnum (There uri t) v c = result KwEnum (Here x) v c) /\
    (forall uri' t', t = There uri' t' -> stopped (result KwEnum (There uri t) v c)).
  Proof.
    intro A. split.
    - intros x ->. unfold outcome, apply_any. cbn [final value_of] in *. destruct x; try contradiction. reflexivity.
    - intros uri' t' ->. pose proof (C119_iteration uri' t') as S. unfold outcome, apply_any. cbn [final value_of] in *.
      destruct (final t'); try contradiction. cbn [shape]. destruct S as [S|S]; rewrite S; [left|right]; reflexivity.
  Qed.

  (** const *)
  Lemma const_node uri t v c : ~ an_array (final t) -> (forall d, final t <> VDict d) ->
    result KwConst (There uri t) v c = (if is_bool v then raise_verr KConst (ctx_path c) else b <- eq_node operand_view v (Here (final t)) ;; if b then Ok tt else raise_verr KConst (ctx_path c)).
  Proof.
    intros A D. assert (Q : eq_node operand_view v t = eq_node operand_view v (Here (final t))) by (destruct v; reflexivity).
    rewrite <- Q. assert (R : outcome E strx rec lf KwConst (There uri t) v c = (run_rule E rec lf (ConstNode t) v c ;;; Ok tt)).
    { unfold outcome, apply_any. cbn [final value_of]. destruct (final t); try (exfalso; apply A; exact I); try (exfalso; eapply D; reflexivity); reflexivity. }
    rewrite R. cbn [run_rule]. match goal with |- bind ?r _ = _ => destruct r as [[]| |]; reflexivity end.
  Qed.
  Lemma const_here x v c : ~ an_array x -> (forall d, x <> VDict d) -> result KwConst (Here x) v c = const_validate operand_view (shape x) v c.
  Proof.
    intros A D. assert (R : outcome E strx rec lf KwConst (Here x) v c = (const_validate operand_view (shape x) v c ;;; Ok tt)) by (destruct x; try (exfalso; apply A; exact I); try (exfalso; eapply D; reflexivity); reflexivity).
    rewrite R. destruct (const_validate operand_view (shape x) v c) as [[]| |]; reflexivity.
  Qed.
  (** null and texts: as written out *)
  Theorem C119_const_plain uri t v c : final t = VNone \/ a_text (final t) -> result KwConst (There uri t) v c = result KwConst (Here (final t)) v c.
  Proof.
    intro H. assert (A : ~ an_array (final t)) by (destruct H as [->|H]; [auto|destruct (final t); auto]).
    assert (D : forall d, final t <> VDict d) by (intros d F; rewrite F in H; destruct H as [H|H]; [discriminate H|exact H]).
    rewrite const_node, const_here by assumption. destruct (final t) as [| | | | |s| |]; try (destruct H as [H|H]; [discriminate H|contradiction]); destruct v; reflexivity.
  Qed.
  (** numbers: booleans are rejected, numbers compared by what they are printed as,
      anything else is a TypeError *)
  Theorem C119_const_number uri t v c : a_number (final t) ->
    (is_bool v = true \/ a_number v -> result KwConst (There uri t) v c = result KwConst (Here (final t)) (shown v) c) /\
    (is_bool v = false -> ~ a_number v -> result KwConst (There uri t) v c = Raise EType).
  Proof.
    intro N. assert (A : ~ an_array (final t)) by (destruct (final t); auto).
    assert (D : forall d, final t <> VDict d) by (intros d F; rewrite F in N; exact N).
    rewrite const_node, const_here by assumption. split.
    - intro V. destruct (final t); try contradiction; (destruct v; try (destruct V as [V|V]; [discriminate V|contradiction]); reflexivity).
    - intros B V. destruct (final t); try contradiction; (destruct v; try discriminate B; try (exfalso; apply V; exact I); reflexivity).
  Qed.
  (** booleans: nothing is ever accepted *)
  Theorem C119_const_boolean uri t b v c : final t = VBool b ->
    (is_bool v = true -> result KwConst (There uri t) v c = raise_verr KConst (ctx_path c)) /\
    (is_bool v = false -> result KwConst (There uri t) v c = Raise EType).
  Proof.
    intro F. rewrite const_node; [|rewrite F; exact (fun H => H)|intros d; rewrite F; discriminate]. rewrite F.
    split; intro B; rewrite B; [reflexivity|destruct v; try discriminate B; reflexivity].
  Qed.

  (** minContains and maxContains: as written out, if the reference leads there at once *)
  Theorem C119_contains uri t : a_number (final t) ->
    (forall x, t = Here x -> contains_bound (There uri t) = contains_bound (Here x)) /\
    (forall uri' t', t = There uri' t' -> contains_bound (There uri t) = Raise EType).
  Proof.
    intro N. split; [intros x ->|intros uri' t' ->]; unfold contains_bound; cbn [final value_of] in *; [destruct x|destruct (final t')]; try contradiction; reflexivity.
  Qed.

  (** the other keywords, and operands of a type the keyword does not take *)
  Hypothesis rec_reference : forall uri t v c, rec (There uri t) v c = rec (Here (final t)) v c.
  Definition harmless (k : akw) (t : operand) (v : pv) : Prop :=
    match k with
    | KwMinimum | KwMaximum | KwExclusiveMinimum | KwExclusiveMaximum => shown v = v \/ ~ a_number (final t)
    | KwMinLength | KwMaxLength | KwMinItems | KwMaxItems | KwMinProperties | KwMaxProperties | KwMultipleOf => ~ a_number (final t)
    | KwPattern | KwFormat => ~ a_text (final t)
    | KwType => ~ a_text (final t) /\ ~ an_array (final t)
    | KwAllOf | KwAnyOf | KwOneOf | KwPrefixItems | KwItems | KwRequired => ~ an_array (final t)
    | KwEnum => is_reference t = false \/ ~ an_array (final t)
    | KwConst =>
        match final t with
        | VBool _ => False
        | VInt _ | VFloat _ | VDec _ => shown v = v /\ (is_bool v = true \/ a_number v)
        | _ => True
        end
    | _ => True
    end.
  Definition stands_for (a b : operand) : Prop := a = b \/ exists uri t, a = There uri t /\ b = Here (final t).
  Lemma run_alike o o' v c : rel_vobj stands_for o o' -> run_vobj (fun _ => Raise EOther) E rec lf o v c = run_vobj (fun _ => Raise EOther) E rec lf o' v c.
  Proof.
    apply (rel_run stands_for (fun _ => Raise EOther) (fun _ => Raise EOther) E); [intros; constructor|].
    intros a b [<-|(uri & t & -> & ->)] w d; [reflexivity|apply rec_reference].
  Qed.
  Lemma stands_here uri t : stands_for (There uri t) (Here (final t)).
  Proof. right. exists uri, t. split; reflexivity. Qed.
  Lemma seq_same (r r' : res unit) : r = r' -> (r ;;; Ok tt) = (r' ;;; Ok tt).
  Proof. intros ->. reflexivity. Qed.
  Ltac open_usual k uri t :=
    unfold outcome, apply_any, as_usual, apply, opnd, opnd_node, operand_view;
    change (dget (kw_key k) [(kw_key k, There uri t)]) with (Some (There uri t));
    change (dget (kw_key k) [(kw_key k, Here (final t))]) with (Some (Here (final t)));
    cbn [final value_of is_reference bind].
  Theorem C119_partial k uri t v c : harmless k t v -> result k (There uri t) v c = result k (Here (final t)) v c.
  Proof.
    intro H. pose proof (stands_here uri t) as S.
    destruct k; cbn [harmless] in H;
      try (destruct H as [H|H]; [rewrite C119_bounds, H by (cbn; auto); reflexivity|]);
      try (unfold outcome, apply_any, with_value, with_int, with_list; cbn [final value_of]; destruct (final t); try (exfalso; apply H; exact I); reflexivity).
    - open_usual KwAdditionalProperties uri t. revert S. destruct (final t) as [|[]| | | | | |d]; intro S; try reflexivity.
      apply seq_same, (run_alike (VObject (ObjV [] (Some (SLazy (There uri t))) None false None)) (VObject (ObjV [] (Some (SLazy (Here (VDict d)))) None false None))).
      repeat first [exact S|constructor].
    - destruct (final t) eqn:F; try (unfold outcome, apply_any; cbn [final]; rewrite F; reflexivity).
      + rewrite <- F. apply C119_const_plain. left. exact F.
      + contradiction.
      + rewrite <- F. destruct H as [Hs Hv]. rewrite <- Hs at 2. apply C119_const_number; [rewrite F; exact I|exact Hv].
      + rewrite <- F. destruct H as [Hs Hv]. rewrite <- Hs at 2. apply C119_const_number; [rewrite F; exact I|exact Hv].
      + rewrite <- F. destruct H as [Hs Hv]. rewrite <- Hs at 2. apply C119_const_number; [rewrite F; exact I|exact Hv].
      + rewrite <- F. apply C119_const_plain. right. rewrite F. exact I.
    - open_usual KwContains uri t. revert S. destruct (final t) as [| | | | | | |d]; intro S; try reflexivity.
      apply seq_same, (run_alike (VContains (There uri t) 1 None) (VContains (Here (VDict d)) 1 None)). constructor. exact S.
    - open_usual KwDependentRequired uri t. destruct (final t) as [| | | | | | |d]; reflexivity.
    - open_usual KwDependentSchemas uri t. destruct (final t) as [| | | | | | |d]; reflexivity.
    - open_usual KwElse uri t. revert S. destruct (final t) as [| | | | | | |d]; intro S; try reflexivity.
    - unfold outcome, apply_any. cbn [final]. destruct H as [H|H].
      + destruct t as [x|]; [|discriminate H]. cbn [final value_of]. destruct x; reflexivity.
      + destruct (final t); try reflexivity. exfalso. apply H. exact I.
    - open_usual KwIf uri t. revert S. destruct (final t) as [| | | | | | |d]; intro S; try reflexivity.
      apply seq_same, (run_alike (VCond (CondV (Some (There uri t)) None None)) (VCond (CondV (Some (Here (VDict d))) None None))). repeat first [exact S|constructor].
    - open_usual KwItems uri t. revert S H. destruct (final t) as [|[]| | | | | |d]; intros S H; try reflexivity; try (exfalso; apply H; exact I).
      + apply seq_same, (run_alike (VArray (Some (There uri t)) None) (VArray (Some (Here (VBool false))) None)). repeat first [exact S|constructor].
      + apply seq_same, (run_alike (VArray (Some (There uri t)) None) (VArray (Some (Here (VDict d))) None)). repeat first [exact S|constructor].
    - open_usual KwNot uri t. revert S. destruct (final t) as [| | | | | | |d]; intro S; try reflexivity.
      apply seq_same, (run_alike (VNot (There uri t)) (VNot (Here (VDict d)))). repeat first [exact S|constructor].
    - open_usual KwPatternProperties uri t. destruct (final t) as [| | | | | | |d]; reflexivity.
    - open_usual KwProperties uri t. destruct (final t) as [| | | | | | |d]; reflexivity.
    - open_usual KwPropertyNames uri t. revert S. destruct (final t) as [| | | | | | |d]; intro S; try reflexivity.
      apply seq_same, (run_alike (VObject (ObjV [] None None false (Some (There uri t)))) (VObject (ObjV [] None None false (Some (Here (VDict d)))))). repeat first [exact S|constructor].
    - open_usual KwThen uri t. revert S. destruct (final t) as [| | | | | | |d]; intro S; try reflexivity.
    - destruct H as [H1 H2]. unfold outcome, apply_any. cbn [final]. destruct (final t); try reflexivity; exfalso; [apply H1|apply H2]; exact I.
    - open_usual KwUnevaluatedProperties uri t. destruct (final t) as [|[]| | | | | |d]; reflexivity.
    - open_usual KwUniqueItems uri t. destruct (final t) as [|[]| | | | | |d]; reflexivity.
  Qed.
End Exact.

(** ** The same of a document that was loaded (Doc.v): [for x in node] asks for
    [node[0]], [node[1]] and so on, and one of these raises. *)
Section Loaded.
  Variables (auth : pystr -> option authority) (dig : N -> option Z) (strx : heap -> addr -> pystr) (fetch : uri -> res pv).
  Notation Runs := (Runs auth dig strx fetch).
  Variables (w : world) (a : addr) (rf : refdata) (x : schema) (f : addr) (vs : list pv).
  Hypothesis Ref : array_reference auth dig strx fetch w a rf x f vs.
  Lemma scan z : Forall (differs z) vs \/ (exists l1 v l2, vs = l1 ++ v :: l2 /\ Forall (differs z) l1 /\ clash v (VInt z)) \/
    (exists l1 v l2, vs = l1 ++ v :: l2 /\ Forall (differs z) l1 /\ same_json v (VInt z) /\ ~ clash v (VInt z)).
  Proof.
    destruct Ref as (_ & _ & _ & _ & H). inversion H as [| | | | | |? ? els V F|]; subst. clear H V Ref.
    induction F as [|e v els vs He F IH]; [left; constructor|].
    destruct (eq_verdict auth dig strx fetch w e v (KI z) He) as (o & _ & Vo). cbn [plain_key] in Vo.
    destruct Vo as [(_ & S & C)|[(_ & S & C)|(_ & C & _)]].
    - right. right. exists [], v, vs. repeat split; [constructor|exact S|exact C].
    - assert (D : differs z v) by (split; assumption).
      destruct IH as [IH|[(l1 & y & l2 & -> & A & B)|(l1 & y & l2 & -> & A & B & B')]]; [left; constructor; assumption|right; left|right; right];
        (exists (v :: l1), y, l2); repeat split; try assumption; constructor; assumption.
    - right. left. exists [], v, vs. repeat split; [constructor|exact C].
  Qed.
  Lemma same_int v i j : same_json v (VInt i) -> same_json v (VInt j) -> i = j.
  Proof.
    assert (G : forall z, same_json v (VInt z) -> exists q, PropsNumber.stands_for (Plain v) q /\ (q == inject_Z z)%Q).
    { intros z S. inversion S as [| | |? ? p q _ Hp Hq Hpq| |]; subst. inversion Hq; subst. exists p. split; assumption. }
    intros Si Sj. destruct (G i Si) as (p & Hp & Ep). destruct (G j Sj) as (q & Hq & Eq). apply inject_Z_injective. rewrite <- Ep, <- Eq.
    inversion Hp; subst; inversion Hq; subst; reflexivity.
  Qed.
  Theorem C119_loaded : exists i e, i <= length vs /\ (e = EKey [] \/ e = EType) /\ Runs (CGet a (KI (Z.of_nat i))) w w (Raise e) /\
    forall j, j < i -> exists c, Runs (CGet a (KI (Z.of_nat j))) w w (Ok c).
  Proof.
    assert (Step : forall i, (exists e, (e = EKey [] \/ e = EType) /\ Runs (CGet a (KI (Z.of_nat i))) w w (Raise e)) \/
      ((exists v, In v vs /\ same_json v (VInt (Z.of_nat i))) /\ (i < length vs -> exists c, Runs (CGet a (KI (Z.of_nat i))) w w (Ok c)))).
    { intro i. destruct (C86_exact auth dig strx fetch w a rf x f vs Ref (Z.of_nat i)) as (C1 & C2 & C3).
      destruct (scan (Z.of_nat i)) as [D|[(l1 & v & l2 & S & D & C)|(l1 & v & l2 & S & D & C & C')]].
      - left. exists (EKey []). split; [left; reflexivity|exact (C1 D)].
      - left. exists EType. split; [right; reflexivity|exact (C2 l1 v l2 S D C)].
      - right. split; [exists v; split; [rewrite S; apply in_or_app; right; left; reflexivity|exact C]|].
        intro L. destruct (C3 l1 v l2 S D C C') as (r & R & _ & K). destruct (nth_error vs i) as [y|] eqn:Ny; [|apply nth_error_None in Ny; lia].
        destruct (K i y eq_refl Ny) as (c & -> & _). exists c. exact R. }
    assert (Go : forall n i, length vs < n + i -> i <= length vs -> (forall j, j < i -> exists v, In v vs /\ same_json v (VInt (Z.of_nat j))) ->
      (forall j, j < i -> exists c, Runs (CGet a (KI (Z.of_nat j))) w w (Ok c)) -> exists i e, i <= length vs /\ (e = EKey [] \/ e = EType) /\ Runs (CGet a (KI (Z.of_nat i))) w w (Raise e) /\
      forall j, j < i -> exists c, Runs (CGet a (KI (Z.of_nat j))) w w (Ok c)).
    { induction n as [|n IH]; intros i Hn Hi Hit Hok; [lia|]. destruct (Step i) as [(e & He & R)|[Si Ri]]; [exists i, e; auto|].
      assert (Hit' : forall j, j < S i -> exists v, In v vs /\ same_json v (VInt (Z.of_nat j))).
      { intros j Hj. destruct (Nat.eq_dec j i) as [->|Nj]; [exact Si|apply Hit; lia]. }
      destruct (Nat.eq_dec i (length vs)) as [->|Ni].
      - exfalso. refine (all_hit (fun v z => same_json v (VInt z)) vs _ _); [intros v p q _; apply same_int|]. intros j Hj. apply Hit'. lia.
      - apply (IH (S i)); [lia|lia|exact Hit'|]. intros j Hj. destruct (Nat.eq_dec j i) as [->|Nj]; [apply Ri; lia|apply Hok; lia]. }
    apply (Go (S (length vs)) 0); [lia|lia|intros j Hj; lia|intros j Hj; lia].
  Qed.
End Loaded.

(** ** Examples *)
Local Open Scope string_scope.
Definition limit (x : pv) : operand := There (u "#/limits/low") (Here x).
(** a size, a list of names and a boolean constant: fine when written out, not by way
    of a reference.  A float on the bound: accepted or not by how it is compared. *)
Definition tenth : pfloat := PFloat 3602879701896397 (-55) (Dec 1 (-1)).
Theorem C119_refuted E strx rec lf :
  (exists k x v, outcome E strx rec lf k (Here x) v [] = Ok tt /\ outcome E strx rec lf k (limit x) v [] = Raise EType) /\
  (exists k x v, outcome E strx rec lf k (Here x) v [] = Ok tt /\ outcome E strx rec lf k (limit x) v [] = Raise (EKey [])) /\
  (exists k x v, outcome E strx rec lf k (Here x) v [] = Ok tt /\ outcome E strx rec lf k (limit x) v [] = Raise ESchemaParse) /\
  (exists k x v, outcome E strx rec lf k (Here x) v [] = Ok tt /\ outcome E strx rec lf k (limit x) v [] = Raise (EValid (VErr KConst []))) /\
  (exists k x v e, outcome E strx rec lf k (Here x) v [] = Ok tt /\ outcome E strx rec lf k (limit x) v [] = Raise (EValid e)).
Proof.
  split; [exists KwMinLength, (VInt 2), (VStr (u "abc")); split; reflexivity|].
  split; [exists KwRequired, (VList [VStr (u "a")]), (VDict [(u "a", VInt 1)]); split; reflexivity|].
  split; [exists KwType, (VStr (u "string")), (VStr (u "abc")); split; reflexivity|].
  split; [exists KwConst, (VBool true), (VBool true); split; reflexivity|].
  exists KwExclusiveMinimum, (VFloat tenth), (VFloat tenth), (VErr (KMinimum (Dec 1 (-1))) []). split; vm_compute; reflexivity.
Qed.
(** the pattern [^a] given by a reference is the text of the reference *)
Example C119_some E strx rec lf :
  harmless KwMinimum (Here (VInt 3)) (VInt 5) /\ outcome E strx rec lf KwMinimum (limit (VInt 3)) (VInt 5) [] = Ok tt /\
  outcome E strx rec lf KwMinimum (limit (VInt 3)) (VInt 2) [] = Raise (EValid (VErr (KMinimum (Dec 3 0)) [])) /\
  harmless KwEnum (Here (VList [VInt 1; VBool true])) (VBool true) /\ outcome E strx rec lf KwEnum (limit (VList [VInt 1; VBool true])) (VBool true) [] = Ok tt /\
  outcome E strx rec lf KwEnum (There (u "#/a") (limit (VList [VInt 1]))) (VInt 1) [] = Raise (EKey []) /\
  elements (limit (VList [VInt 1; VInt 0])) = Raise (EKey []) /\ item (limit (VList [VInt 1; VInt 0])) 1 = Ok (Here (VInt 0)) /\
  elements (limit (VList [VBool true])) = Raise EType /\
  str_of (limit (VStr (u "^a"))) = u "JsonReference(#/limits/low)" /\
  (let rec' := fun n v c => match final n with VBool b => if b then Ok tt else raise_verr KFail (ctx_path c) | VDict d => if is_bool v then raise_verr KFail (ctx_path c) else Ok tt | _ => Raise ESchemaParse end in
   (forall uri t v c, rec' (There uri t) v c = rec' (Here (final t)) v c) /\ harmless KwNot (Here (VDict [])) (VInt 1) /\
   outcome E strx rec' lf KwNot (limit (VDict [])) (VBool true) [] = Ok tt /\ outcome E strx rec' lf KwNot (limit (VDict [])) (VInt 1) [] = Raise (EValid (VErr KNot []))).
Proof. repeat split; try reflexivity; left; reflexivity. Qed.
(** [C119_loaded] has instances: [C86_some] gives a reference to an array *)
