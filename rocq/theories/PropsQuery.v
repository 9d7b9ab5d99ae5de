(** C44: [query] on a loaded document without anchors and references. *)
From Verif Require Import PyBase PyBaseFacts PyVal Regex Numbers Uri Pointer Store Validators Claims Heap HeapFacts PropsWrap PropsPlaces PropsPointer Doc DocMono DocFacts.
Local Open Scope nat_scope.
Local Notation length := List.length (only parsing).

(** [dig] knows the ten ASCII digits *)
Definition digits_ok (dig : N -> option Z) : Prop := forall c, (48 <= c <= 57)%N -> dig c = Some (Z.of_N c - 48)%Z.

Lemma int_digits_uint dig d : digits_ok dig -> forall acc b, (b = true -> uint_chars d <> []) ->
  int_digits dig (uint_chars d) (Z.of_nat acc) b = Some (Z.of_nat (Nat.of_uint_acc d acc)).
Proof.
  intro X. assert (D : forall n c acc, (48 <= c <= 57)%N -> (Z.of_N c - 48 = Z.of_nat n)%Z -> dig c = Some (Z.of_nat n) /\ (10 * Z.of_nat acc + Z.of_nat n)%Z = Z.of_nat (n + Nat.tail_mul 10 acc)).
  { intros n c acc Hc Hn. rewrite (X c Hc), Hn. split; [reflexivity|]. rewrite Nat2Z.inj_add, Nat.tail_mul_spec, Nat2Z.inj_mul. change (Z.of_nat 10) with 10%Z. lia. }
  induction d as [|d IH|d IH|d IH|d IH|d IH|d IH|d IH|d IH|d IH|d IH]; intros acc b Hb; [destruct b; [exfalso; apply Hb; reflexivity|reflexivity]|..];
    cbn [uint_chars int_digits Nat.of_uint_acc].
  all: match goal with |- match _ ?c with _ => _ end = _ =>
         let n := eval vm_compute in (N.to_nat (c - 48)) in destruct (D n c acc ltac:(lia) ltac:(reflexivity)) as [D1 D2]; rewrite D1; rewrite D2; rewrite IH by discriminate; reflexivity end.
Qed.
Lemma nat_str_some n : nat_str n <> [].
Proof.
  unfold nat_str. intro H. pose proof (DecimalNat.Unsigned.of_to n) as E.
  destruct (Nat.to_uint n) as [| | | | | | | | | |] eqn:E1; try discriminate. simpl in E. subst n. discriminate.
Qed.
Lemma lstrip_digits s : Forall (fun x => (48 <= x <= 57)%N) s -> lstrip s = s.
Proof.
  intro F. destruct s as [|c s]; [reflexivity|]. cbn. inversion F; subst. replace (is_space c) with false; [reflexivity|]. symmetry. unfold is_space, between, among. cbn. lia.
Qed.
Lemma py_int_nat dig n : digits_ok dig -> py_int dig (nat_str n) = Some (Z.of_nat n).
Proof.
  intro X. unfold py_int. rewrite (lstrip_digits _ (nat_str_digits n)), lstrip_digits by (apply Forall_rev, nat_str_digits). rewrite rev_involutive.
  pose proof (nat_str_digits n) as F. pose proof (nat_str_some n) as Hn.
  assert (K : int_digits dig (nat_str n) 0 true = Some (Z.of_nat n)).
  { unfold nat_str. change 0%Z with (Z.of_nat 0). rewrite (int_digits_uint dig _ X); [|intros _; exact Hn]. f_equal. f_equal. exact (DecimalNat.Unsigned.of_to n). }
  destruct (nat_str n) as [|c s]; [congruence|]. inversion F; subst.
  destruct (N.eqb_spec c 43); [lia|]. destruct (N.eqb_spec c 45); [lia|]. exact K.
Qed.

(** The position in an array of [len] elements that the token [k] means to Python:
    [int(k)], counted from the end when negative. *)
Definition means_index (dig : N -> option Z) (k : pystr) (len i : nat) : Prop :=
  i < len /\ (py_int dig k = Some (Z.of_nat i) \/ py_int dig k = Some (Z.of_nat i - Z.of_nat len)%Z).
(** [b] is reached from [a] by Python's reading of the tokens *)
Inductive reaches (dig : N -> option Z) (h : heap) : addr -> list pystr -> addr -> Prop :=
| r_here a : reaches dig h a [] a
| r_member a d k c p b : val h a (PObj d) -> dget k d = Some c -> reaches dig h c p b -> reaches dig h a (k :: p) b
| r_elem a l k i c p b : val h a (PArr l) -> means_index dig k (length l) i -> nth_error l i = Some c -> reaches dig h c p b -> reaches dig h a (k :: p) b.

Lemma val_unique h a p q : val h a p -> val h a q -> p = q.
Proof. intros (n & H & <-) (m & H' & <-). congruence. Qed.
Lemma index_spec dig l k z : py_int dig k = Some z -> forall c, index l z = Ok c <-> exists i, means_index dig k (length l) i /\ nth_error l i = Some c.
Proof.
  intros Hz c. unfold index, means_index. rewrite Hz. cbv zeta. split.
  - destruct (z <? 0)%Z eqn:Hs.
    + destruct (Z.of_nat (length l) + z <? 0)%Z eqn:Hj; [discriminate|]. destruct (nth_error l _) as [x|] eqn:E; [|discriminate]. intro H. injection H as <-. eexists. split; [|exact E].
      match type of E with nth_error l ?q = _ => assert (L : q < length l) by (apply nth_error_Some; congruence) end. split; [exact L|]. right. f_equal. lia.
    + rewrite Hs. destruct (nth_error l _) as [x|] eqn:E; [|discriminate]. intro H. injection H as <-. eexists. split; [|exact E].
      match type of E with nth_error l ?q = _ => assert (L : q < length l) by (apply nth_error_Some; congruence) end. split; [exact L|]. left. f_equal. lia.
  - intros (i & (L & [[= ->]|[= ->]]) & E).
    + replace (Z.of_nat i <? 0)%Z with false by lia. replace (Z.of_nat i <? 0)%Z with false by lia. rewrite Nat2Z.id, E. reflexivity.
    + replace (Z.of_nat i - Z.of_nat (length l) <? 0)%Z with true by lia. replace (Z.of_nat (length l) + (Z.of_nat i - Z.of_nat (length l)))%Z with (Z.of_nat i) by lia.
      replace (Z.of_nat i <? 0)%Z with false by lia. rewrite Nat2Z.id, E. reflexivity.
Qed.
Lemma index_fails l z e : index l z = Raise e -> e = EIndex.
Proof. unfold index. destruct (_ <? 0)%Z; [congruence|]. destruct (nth_error _ _); congruence. Qed.
Lemma index_ends l z : index l z <> OutOfFuel.
Proof. unfold index. destruct (_ <? 0)%Z; [discriminate|]. destruct (nth_error _ _); discriminate. Qed.
Definition lookup_error (e : exn) : Prop := (exists k, e = EKey k) \/ e = EIndex \/ e = EValue.

Lemma holds_member h a d its k c : holds h a (VDict d) -> val h a (PObj its) -> dget k its = Some c -> exists x, dget k d = Some x /\ holds h c x.
Proof.
  intros H V G. inversion H as [| | | | | | |? ? its' V' F]; subst. pose proof (val_unique _ _ _ _ V V') as [= ->]. clear -F G.
  induction F as [|[k1 c1] [k2 x] its d [E1 E2] F IH]; cbn in *; [discriminate|]. subst k2. destruct (str_eqb k k1); [injection G as <-; eauto|auto].
Qed.
Lemma Forall2_nth {A B} (R : A -> B -> Prop) l m i x : Forall2 R l m -> nth_error l i = Some x -> exists y, nth_error m i = Some y /\ R x y.
Proof. intro F. revert i. induction F as [|a b l m H F IH]; intros [|i] E; cbn in *; try discriminate; [injection E as <-; eauto|auto]. Qed.

Section Query.
  Variables (auth : pystr -> option authority) (dig : N -> option Z) (strx : heap -> addr -> pystr) (fetch : uri -> res pv).
  Notation Runs := (Runs auth dig strx fetch).
  Notation ev := (ev auth dig strx fetch).

  Lemma follow_all w v : forall p a, holds (w_heap w) a v -> exists r, ev (fun rec => follow dig rec a p) w w r /\
    (forall b, r = Ok b <-> reaches dig (w_heap w) a p b) /\ (forall e, r = Raise e -> lookup_error e) /\ r <> OutOfFuel.
  Proof.
    intros p. revert v. induction p as [|k p IH]; intros v a H.
    - exists (Ok a). split; [apply ev_ret|]. split; [|split; [discriminate|discriminate]]. intro b. split; [intros [= ->]; constructor|]. inversion 1; subst; reflexivity.
    - assert (S : (forall pl, val (w_heap w) a pl -> is_ref pl = false /\ kind_of pl <> JObj /\ kind_of pl <> JArr) \/ (exists d its, v = VDict d /\ val (w_heap w) a (PObj its)) \/ (exists l els, v = VList l /\ val (w_heap w) a (PArr els) /\ Forall2 (holds (w_heap w)) els l)).
      { inversion H as [? V|? ? V|? ? V|? ? ? V|? ? ? V|? ? ? V|? l els V F|? d its V F]; subst; [left|left|left|left|left|left|right; right; eauto|right; left; eauto];
          intros pl Vp; rewrite (val_unique _ _ _ _ Vp V); repeat split; discriminate. }
      destruct S as [S|[(d & its & -> & V)|(l & els & -> & V & F)]].
      + assert (exists pl, val (w_heap w) a pl) as [pl V] by (inversion H; eauto). destruct (S pl V) as (S1 & S2 & S3).
        exists (Raise (EKey k)). split; [|split; [|split; [intros e [= <-]; left; eauto|discriminate]]].
        * cbn [follow]. eapply ev_bind; [apply (runs_type _ _ _ _ w a _ V S1)|]. destruct (kind_of pl); try congruence; apply ev_pure; reflexivity.
        * intro b. split; [discriminate|]. intro K. inversion K as [|? d' ? ? ? ? V'|? l' ? ? ? ? ? V']; subst; rewrite (val_unique _ _ _ _ V V') in *; cbn in *; congruence.
      + destruct (dget k its) as [c|] eqn:G.
        * destruct (holds_member _ _ _ _ _ _ H V G) as (x & _ & Hx). destruct (IH x c Hx) as (r & R1 & R2 & R3 & R4). exists r. split; [eapply follow_obj; eauto|]. split; [|auto].
          intro b. rewrite R2. split; [intro K; eapply r_member; eauto|]. intro K. inversion K as [|? d' ? ? ? ? V' G'|? l' ? ? ? ? ? V']; subst; pose proof (val_unique _ _ _ _ V V') as E; [injection E as <-|discriminate]. congruence.
        * exists (Raise (EKey k)). split; [|split; [|split; [intros e [= <-]; left; eauto|discriminate]]].
          -- cbn [follow]. eapply ev_bind; [apply (runs_type _ _ _ _ w a _ V eq_refl)|]. cbn [kind_of]. eapply ev_bind_raise.
             pose proof (runs_get_obj auth dig strx fetch w a its (KS k) V) as R. cbn in R. rewrite G in R. exact R.
          -- intro b. split; [discriminate|]. intro K. inversion K as [|? d' ? ? ? ? V' G'|? l' ? ? ? ? ? V']; subst; pose proof (val_unique _ _ _ _ V V') as E; [injection E as <-|discriminate]. congruence.
      + destruct (py_int dig k) as [z|] eqn:Hz.
        * pose proof (index_spec dig els k z Hz) as I. pose proof (index_ends els z) as I2. destruct (index els z) as [c|e|] eqn:G; [| |congruence].
          -- destruct (proj1 (I c) eq_refl) as (i & Hi & E). destruct (Forall2_nth _ _ _ _ _ F E) as (x & _ & Hx). destruct (IH x c Hx) as (r & R1 & R2 & R3 & R4). exists r.
             split; [eapply follow_arr; eauto|]. split; [|auto]. intro b. rewrite R2. split; [intro K; eapply r_elem; eauto|]. intro K.
             inversion K as [|? d' ? ? ? ? V' G'|? l' ? j c' ? ? V' Hj E']; subst; pose proof (val_unique _ _ _ _ V V') as Ev; [discriminate|injection Ev as <-].
             assert (Ok c = Ok c') as [= ->]; [|assumption]. apply I. eauto.
          -- exists (Raise e). split; [|split; [|split; [intros e' [= <-]; right; left; eapply index_fails, G|discriminate]]].
             ++ cbn [follow]. eapply ev_bind; [apply (runs_type _ _ _ _ w a _ V eq_refl)|]. cbn [kind_of]. rewrite Hz. eapply ev_bind_raise.
                pose proof (runs_get_arr auth dig strx fetch w a els z V) as R. rewrite G in R. exact R.
             ++ intro b. split; [discriminate|]. intro K. inversion K as [|? d' ? ? ? ? V' G'|? l' ? j c' ? ? V' Hj E']; subst; pose proof (val_unique _ _ _ _ V V') as Ev; [discriminate|injection Ev as <-].
                discriminate (proj2 (I c') (ex_intro _ j (conj Hj E'))).
        * exists (Raise EValue). split; [|split; [|split; [intros e [= <-]; right; right; reflexivity|discriminate]]].
          -- cbn [follow]. eapply ev_bind; [apply (runs_type _ _ _ _ w a _ V eq_refl)|]. cbn [kind_of]. rewrite Hz. apply ev_pure. reflexivity.
          -- intro b. split; [discriminate|]. intro K. inversion K as [|? d' ? ? ? ? V' G'|? l' ? j c' ? ? V' (_ & [Hj|Hj]) E']; subst; [pose proof (val_unique _ _ _ _ V V'); discriminate|congruence|congruence].
  Qed.

  (** a loaded document with value [v], without anchors and references *)
  Definition plain_document (w : world) (s : nat) (r : addr) (v : pv) : Prop :=
    exists x, nth_error (w_schemas w) s = Some x /\ s_ready x = true /\ s_anchors x = [] /\ s_value x = r /\ holds (w_heap w) r v.

  (** C44, the exact answers: Python's reading of each token, except that the
      pointer with one empty token gives the root *)
  Theorem C44_exact w s r v p : plain_document w s r v ->
    exists o, Runs (CQuery s p) w w o /\ o <> OutOfFuel /\
      (forall b, o = Ok b <-> (p = [[]] /\ b = r) \/ (p <> [[]] /\ reaches dig (w_heap w) r p b)) /\
      (forall e, o = Raise e -> lookup_error e).
  Proof.
    intros (x & Hx & Rx & Ax & <- & H). destruct (follow_all w v p (s_value x) H) as (o & R1 & R2 & R3 & R4).
    assert (K : p <> [[]] -> Runs (CQuery s p) w w o).
    { intro Np. apply ev_step. cbn [Doc.step]. unfold query. eapply ev_bind; [apply ev_pure, (load_ready w s x Hx Rx)|]. eapply ev_known; [apply schema_at_ok, Hx|].
      destruct p as [|k [|k' p]]; try exact R1. rewrite Ax. cbn [dget]. destruct (str_eqb_spec k []) as [->|]; [destruct (Np eq_refl)|exact R1]. }
    destruct (list_eq_dec (list_eq_dec N.eq_dec) p [[]]) as [->|Np].
    - exists (Ok (s_value x)). split; [|split; [discriminate|split; [|discriminate]]].
      + apply ev_step. cbn [Doc.step]. unfold query. eapply ev_bind; [apply ev_pure, (load_ready w s x Hx Rx)|]. eapply ev_known; [apply schema_at_ok, Hx|]. rewrite Ax. cbn. apply ev_ret.
      + intro b. split; [intros [= ->]; auto|]. intros [[_ ->]|[C _]]; [reflexivity|congruence].
    - exists o. split; [auto|]. split; [exact R4|]. split; [|exact R3]. intro b. rewrite R2. tauto.
  Qed.

  Lemma walk_reaches h a p b : digits_ok dig -> walk h a p b -> reaches dig h a p b.
  Proof.
    intro X. induction 1 as [a|a d k c p b V G _ IH|a l i c p b V G _ IH]; [constructor|eapply r_member; eauto|]. eapply r_elem; eauto. split; [apply nth_error_Some; congruence|]. left. apply py_int_nat, X.
  Qed.
  (** C44: what the tokens lead to is found, but for the pointer with one empty token *)
  Theorem C44_partial w s r v p b : digits_ok dig -> plain_document w s r v -> p <> [[]] -> walk (w_heap w) r p b -> Runs (CQuery s p) w w (Ok b).
  Proof.
    intros X P Np W. destruct (C44_exact w s r v p P) as (o & R & _ & R2 & _). assert (o = Ok b) as ->; [|exact R]. apply R2. right. split; [exact Np|]. apply walk_reaches; assumption.
  Qed.
  (** querying by the text of a node's path gives the node *)
  Theorem C44_path w s r v p b : digits_ok dig -> plain_document w s r v -> linked (w_heap w) -> is_root (w_heap w) r = true -> walk (w_heap w) r p b ->
    exists q, node_path (w_heap w) b = Ok q /\ (q <> [[]] -> ev (fun rec => t <~ lift (pointer_parse (pointer_str (pointer_from_list q))) ;; rec addr (CQuery s t)) w w (Ok b)).
  Proof.
    intros X P L Rt W. destruct (walk_path (w_heap w) r p b L) as [H _]; [|exact W|].
    { unfold is_root in Rt. destruct (hget (w_heap w) r) as [n|]; [|discriminate]. exists n. split; [reflexivity|]. destruct (n_parent n); [discriminate|reflexivity]. }
    exists p. split; [exact H|]. intro Np. destruct p as [|k p].
    - (* the root: text "/" *)
      inversion W; subst. eapply ev_known; [reflexivity|]. destruct (C44_exact w s b v [[]] P) as (o & R & _ & R2 & _). assert (o = Ok b) as -> by (apply R2; auto). exact R.
    - eapply ev_known; [unfold lift; rewrite C01_tokens_survive by discriminate; reflexivity|]. eapply C44_partial; eauto.
  Qed.
End Query.

(** ** Cases *)
Definition ex_dig (c : N) : option Z := if ((48 <=? c) && (c <=? 57))%N then Some (Z.of_N c - 48)%Z else None.
Lemma ex_dig_ok : digits_ok ex_dig.
Proof. intros c H. unfold ex_dig. replace ((48 <=? c) && (c <=? 57))%N with true by lia. reflexivity. Qed.
Definition ex_world (v : pv) : world := let '(r, h) := new [] v in World h [Schema r true [] [] None] [].
Definition C44_value : pv := VDict [(u "a", VList [VInt 1; VDict [(u "b", VStr (u "x"))]]); ([], VBool true)].
Lemma ex_document v : plain_document (ex_world v) 0 0 v.
Proof. eexists. do 4 (split; [reflexivity|]). exact (C37_shape [] v). Qed.
Example C44_some : plain_document (ex_world C44_value) 0 0 C44_value /\ linked (w_heap (ex_world C44_value)) /\ is_root (w_heap (ex_world C44_value)) 0 = true /\
  walk (w_heap (ex_world C44_value)) 0 [u "a"; u "1"; u "b"] 4.
Proof.
  split; [apply ex_document|]. split; [apply (linked_grow [] None [] C44_value); [discriminate|apply linked_nil]|]. split; [reflexivity|].
  eapply w_member; [eexists; split; reflexivity|reflexivity|]. eapply (w_elem _ _ _ 1); [eexists; split; reflexivity|reflexivity|].
  eapply w_member; [eexists; split; reflexivity|reflexivity|]. apply w_here.
Qed.
(** the member with the empty name cannot be queried: the root comes back *)
Theorem C44_refuted auth strx fetch : exists w s r v p b, plain_document w s r v /\ walk (w_heap w) r p b /\ b <> r /\ Runs auth ex_dig strx fetch (CQuery s p) w w (Ok r).
Proof.
  exists (ex_world C44_value), 0, 0, C44_value, [[]], 5. split; [apply ex_document|].
  split; [eapply w_member; [eexists; split; reflexivity|reflexivity|apply w_here]|]. split; [discriminate|].
  apply (Runs_once _ _ _ _ _ _ _ _ 1); [reflexivity|discriminate].
Qed.
(** tokens that are no array index (RFC 6901, section 4) still find elements *)
Theorem C44_index_refuted auth strx fetch : let w := ex_world C44_value in
  forall k, In k [u "-1"; u "01"; u "+1"; u " 1"; u "0_1"] ->
  Runs auth ex_dig strx fetch (CQuery 0 [u "a"; k]) w w (Ok 3) /\ forall b, ~ walk (w_heap w) 0 [u "a"; k] b.
Proof.
  intros w k Hk. split.
  - cbn in Hk. repeat (destruct Hk as [<-|Hk]; [apply (Runs_once _ _ _ _ _ _ _ _ 2); [vm_compute; reflexivity|discriminate]|]). destruct Hk.
  - intros b W. inversion W as [|? d ? c ? ? V G W'|? l i c ? ? V G W']; subst; [|destruct V as (n & [= <-] & [=])].
    destruct V as (n & [= <-] & [= <-]). vm_compute in G. injection G as <-.
    inversion W' as [|? d ? c ? ? V' G'|? l i c ? ? V' G' W'']; subst; destruct V' as (n & [= <-] & [=]).
    assert (i < length l) by (apply nth_error_Some; rewrite G'; discriminate). subst l. cbn in H. clear - Hk H.
    destruct i as [|[|i]]; [| |lia]; cbn in Hk; repeat (destruct Hk as [Hk|Hk]; [discriminate Hk|]); destruct Hk.
Qed.
