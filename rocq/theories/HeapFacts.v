(** Facts about the heap of wrapped values. *)
From Verif Require Import PyBase PyBaseFacts PyVal OrderFacts Numbers Uri Heap.
From Coq Require Import QArith.
Local Open Scope nat_scope.
Local Notation length := List.length (only parsing).

(** ** Reading and writing *)
Lemma hput_length h a n : length (hput h a n) = length h.
Proof. revert a; induction h as [|x h IH]; intros [|a]; cbn; auto. Qed.
Lemma hget_hput h a n b : hget (hput h a n) b = if Nat.eqb a b then match hget h a with Some _ => Some n | None => None end else hget h b.
Proof.
  unfold hget. revert a b; induction h as [|x h IH]; intros [|a] [|b]; cbn; try reflexivity.
  - destruct (Nat.eqb a b); reflexivity.
  - apply IH.
Qed.
Lemma hset_length h a p : length (hset h a p) = length h.
Proof. unfold hset. destruct (hget h a); [apply hput_length|reflexivity]. Qed.
Lemma hget_hset h a p b : hget (hset h a p) b =
  if Nat.eqb a b then match hget h a with Some n => Some (Node p (n_parent n) (n_key n)) | None => None end else hget h b.
Proof.
  unfold hset. destruct (hget h a) as [n|] eqn:E; [rewrite hget_hput, E; reflexivity|].
  destruct (Nat.eqb_spec a b) as [->|]; [exact E|reflexivity].
Qed.
Lemma hget_app1 h g a n : hget h a = Some n -> hget (h ++ g) a = Some n.
Proof. unfold hget. intro H. rewrite nth_error_app1; [exact H|]. apply nth_error_Some. congruence. Qed.
Lemma hget_app2 h g i : hget (h ++ g) (length h + i) = nth_error g i.
Proof. unfold hget. rewrite nth_error_app2 by lia. f_equal. lia. Qed.
Lemma hget_lt h a n : hget h a = Some n -> a < length h.
Proof. intro H. apply nth_error_Some. unfold hget in H. congruence. Qed.

(** ** The nodes made by wrapping a value *)
Definition wrap_items (base : addr) : addr -> list (pystr * pv) -> list (pystr * addr) * heap :=
  fix go (b : addr) (d : list (pystr * pv)) : list (pystr * addr) * heap :=
    match d with
    | [] => ([], [])
    | (k, x) :: d' =>
        let ns := wrap b (Some base) k x in
        let '(its, rest) := go (b + length ns) d' in
        ((k, b) :: its, ns ++ rest)
    end.
Definition wrap_elems (base : addr) : addr -> nat -> list pv -> list addr * heap :=
  fix go (b : addr) (i : nat) (l : list pv) : list addr * heap :=
    match l with
    | [] => ([], [])
    | x :: l' =>
        let ns := wrap b (Some base) (nat_str i) x in
        let '(els, rest) := go (b + length ns) (S i) l' in
        (b :: els, ns ++ rest)
    end.
Definition after (b : addr) (ns : heap) : addr := b + length ns.
Lemma wrap_items_cons base b k x d : wrap_items base b ((k, x) :: d) =
  ((k, b) :: fst (wrap_items base (after b (wrap b (Some base) k x)) d), wrap b (Some base) k x ++ snd (wrap_items base (after b (wrap b (Some base) k x)) d)).
Proof.
  transitivity (let '(its, rest) := wrap_items base (after b (wrap b (Some base) k x)) d in ((k, b) :: its, wrap b (Some base) k x ++ rest)); [reflexivity|].
  destruct (wrap_items base (after b (wrap b (Some base) k x)) d). reflexivity.
Qed.
Lemma wrap_elems_cons base b i x l : wrap_elems base b i (x :: l) =
  (b :: fst (wrap_elems base (after b (wrap b (Some base) (nat_str i) x)) (S i) l), wrap b (Some base) (nat_str i) x ++ snd (wrap_elems base (after b (wrap b (Some base) (nat_str i) x)) (S i) l)).
Proof.
  transitivity (let '(els, rest) := wrap_elems base (after b (wrap b (Some base) (nat_str i) x)) (S i) l in (b :: els, wrap b (Some base) (nat_str i) x ++ rest)); [reflexivity|].
  destruct (wrap_elems base (after b (wrap b (Some base) (nat_str i) x)) (S i) l). reflexivity.
Qed.
Lemma wrap_dict base p k d : wrap base p k (VDict d) = Node (PObj (fst (wrap_items base (S base) d))) p k :: snd (wrap_items base (S base) d).
Proof.
  transitivity (let '(its, rest) := wrap_items base (S base) d in Node (PObj its) p k :: rest); [reflexivity|]. destruct (wrap_items base (S base) d). reflexivity.
Qed.
Lemma wrap_list base p k l : wrap base p k (VList l) = Node (PArr (fst (wrap_elems base (S base) 0 l))) p k :: snd (wrap_elems base (S base) 0 l).
Proof.
  transitivity (let '(els, rest) := wrap_elems base (S base) 0 l in Node (PArr els) p k :: rest); [reflexivity|]. destruct (wrap_elems base (S base) 0 l). reflexivity.
Qed.
Lemma wrap_pos base p k v : 0 < length (wrap base p k v).
Proof. destruct v; try (cbn; lia); [rewrite wrap_list|rewrite wrap_dict]; cbn; lia. Qed.

(** [ns] sits in [h] from [base] on *)
Definition placed (h : heap) (base : addr) (ns : heap) : Prop := forall i n, nth_error ns i = Some n -> hget h (base + i) = Some n.
Lemma placed_app h base g1 g2 : placed h base (g1 ++ g2) <-> placed h base g1 /\ placed h (base + length g1) g2.
Proof.
  split.
  - intro H. split; intros i n Hn.
    + apply H. rewrite nth_error_app1; [exact Hn|]. apply nth_error_Some. congruence.
    + rewrite <- Nat.add_assoc. apply H. rewrite nth_error_app2 by lia. rewrite <- Hn. f_equal. lia.
  - intros [H1 H2] i n Hn. destruct (Nat.lt_ge_cases i (length g1)) as [L|L].
    + rewrite nth_error_app1 in Hn by exact L. auto.
    + rewrite nth_error_app2 in Hn by exact L. apply H2 in Hn. rewrite <- Hn. f_equal. lia.
Qed.
Lemma placed_cons h base n g : placed h base (n :: g) <-> hget h base = Some n /\ placed h (S base) g.
Proof.
  split.
  - intro H. split; [specialize (H 0 n eq_refl); rewrite Nat.add_0_r in H; exact H|]. intros i m Hm. replace (S base + i) with (base + S i) by lia. apply H. exact Hm.
  - intros [H1 H2] [|i] m Hm; cbn in Hm; [injection Hm as <-; rewrite Nat.add_0_r; exact H1|]. replace (base + S i) with (S base + i) by lia. auto.
Qed.
Lemma placed_end h g : placed (h ++ g) (length h) g.
Proof. intros i n Hn. rewrite hget_app2. exact Hn. Qed.
Lemma placed_mono h h' base g : (forall a n, base <= a -> hget h a = Some n -> hget h' a = Some n) -> placed h base g -> placed h' base g.
Proof. intros H Hp i n Hn. apply H; [lia|]. auto. Qed.

(** ** A node and everything below it represents a plain value: same kinds,
    same members in the same order, the same numbers *)
Definition val (h : heap) (a : addr) (p : payload) : Prop := exists n, hget h a = Some n /\ n_val n = p.
Inductive holds (h : heap) : addr -> pv -> Prop :=
| h_null a : val h a PNull -> holds h a VNone
| h_bool a b : val h a (PBool b) -> holds h a (VBool b)
| h_str a s : val h a (PStr s) -> holds h a (VStr s)
| h_int a z d : val h a (PNum d) -> d = Dec z 0 -> holds h a (VInt z)
| h_float a f d : val h a (PNum d) -> d = frepr f -> holds h a (VFloat f)
| h_dec a e d : val h a (PNum d) -> d = e -> holds h a (VDec e)
| h_list a l els : val h a (PArr els) -> Forall2 (holds h) els l -> holds h a (VList l)
| h_dict a d its : val h a (PObj its) -> Forall2 (fun ka kx => fst ka = fst kx /\ holds h (snd ka) (snd kx)) its d -> holds h a (VDict d).

Lemma wrap_holds v : forall h base p key, placed h base (wrap base p key v) -> holds h base v.
Proof.
  induction v as [v Hl Hd|l IH|d IH] using pv_ind_deep; intros h base p key H.
  - destruct v; try (exfalso; eapply Hl; reflexivity); try (exfalso; eapply Hd; reflexivity); cbn in H; apply placed_cons in H as [H _].
    + apply h_null. eexists; split; [exact H|reflexivity].
    + apply h_bool. eexists; split; [exact H|reflexivity].
    + eapply h_int; [eexists; split; [exact H|reflexivity]|reflexivity].
    + eapply h_float; [eexists; split; [exact H|reflexivity]|]. reflexivity.
    + eapply h_dec; [eexists; split; [exact H|reflexivity]|]. reflexivity.
    + apply h_str. eexists; split; [exact H|reflexivity].
  - rewrite wrap_list in H. apply placed_cons in H as [H1 H2]. eapply h_list; [eexists; split; [exact H1|reflexivity]|]. cbn [n_val].
    clear H1. generalize dependent (S base). generalize 0. intros i b Hb. revert i b Hb. induction IH as [|x l Hx _ IHl]; intros i b Hb; [constructor|].
    rewrite wrap_elems_cons in *. cbn [fst snd] in *.
    apply placed_app in Hb as [Hb1 Hb2]. constructor; [eapply Hx, Hb1|].
    apply IHl. exact Hb2.
  - rewrite wrap_dict in H. apply placed_cons in H as [H1 H2]. eapply h_dict; [eexists; split; [exact H1|reflexivity]|]. cbn [n_val].
    clear H1. generalize dependent (S base). intros b Hb. revert b Hb. induction IH as [|[k x] d Hx _ IHd]; intros b Hb; [constructor|].
    rewrite wrap_items_cons in *. cbn [fst snd] in *.
    apply placed_app in Hb as [Hb1 Hb2]. constructor; [split; [reflexivity|eapply Hx, Hb1]|].
    apply IHd. exact Hb2.
Qed.
Lemma holds_mono h h' : (forall a p, val h a p -> val h' a p) -> forall v a, holds h a v -> holds h' a v.
Proof.
  intro M. induction v as [v Hl Hd|l IH|d IH] using pv_ind_deep; intros a H.
  - inversion H; subst; try (exfalso; eapply Hl; reflexivity); try (exfalso; eapply Hd; reflexivity); econstructor; eauto.
  - inversion H as [| | | | | |? ? els Hv Hf|]; subst. apply (h_list _ _ _ els); [auto|]. clear H Hv. revert els Hf. induction IH as [|x l Hx _ IHl]; intros els Hf; inversion Hf; subst; constructor; auto.
  - inversion H as [| | | | | | |? ? its Hv Hf]; subst. apply (h_dict _ _ _ its); [auto|]. clear H Hv. revert its Hf. induction IH as [|x l Hx _ IHl]; intros its Hf; inversion Hf as [|? ? ? ? [E1 E2] Hf']; subst; constructor; auto.
Qed.

(** ** Children and their links *)
Inductive child_of : payload -> pystr -> addr -> Prop :=
| co_member items k c : In (k, c) items -> child_of (PObj items) k c
| co_elem l i c : nth_error l i = Some c -> child_of (PArr l) (nat_str i) c.
Definition linked_in (h : heap) (lo hi : addr) : Prop := forall a, lo <= a -> a < hi -> exists n, hget h a = Some n /\
  (forall p, n_parent n = Some p -> p < a) /\
  (forall k c, child_of (n_val n) k c -> exists m, hget h c = Some m /\ n_parent m = Some a /\ n_key m = k).
Definition linked (h : heap) : Prop := linked_in h 0 (length h).

Lemma linked_join h lo mid hi : linked_in h lo mid -> linked_in h mid hi -> linked_in h lo hi.
Proof. intros H1 H2 a L1 L2. destruct (Nat.lt_ge_cases a mid); [apply H1|apply H2]; assumption. Qed.

Lemma wrap_head base p key v : exists x rest, wrap base p key v = Node x p key :: rest.
Proof. destruct v; try (cbn; eauto; fail); [rewrite wrap_list|rewrite wrap_dict]; eauto. Qed.
Lemma placed_head h base p key v : placed h base (wrap base p key v) -> exists n, hget h base = Some n /\ n_parent n = p /\ n_key n = key.
Proof.
  destruct (wrap_head base p key v) as (x & rest & ->). intro H. apply placed_cons in H as [H _]. eauto.
Qed.

Lemma wrap_linked v : forall h base p key, (forall q, p = Some q -> q < base) -> placed h base (wrap base p key v) ->
  linked_in h base (base + length (wrap base p key v)).
Proof.
  induction v as [v Hl Hd|l IH|d IH] using pv_ind_deep; intros h base p key Hp H.
  - assert (K : exists x, wrap base p key v = [Node x p key] /\ forall k c, ~ child_of x k c).
    { destruct v; try (exfalso; eapply Hl; reflexivity); try (exfalso; eapply Hd; reflexivity); cbn; eexists; (split; [reflexivity|]); intros k c Hc; inversion Hc. }
    destruct K as (x & E & Hx). rewrite E in *. apply placed_cons in H as [H _]. intros a L1 L2. cbn in L2. assert (a = base) as -> by lia.
    eexists. split; [exact H|]. split; [exact Hp|]. intros k c Hc. destruct (Hx k c Hc).
  - rewrite wrap_list in *. apply placed_cons in H as [H1 H2]. cbn [length].
    assert (K : forall i b, base < b -> placed h b (snd (wrap_elems base b i l)) ->
      linked_in h b (b + length (snd (wrap_elems base b i l))) /\
      forall j c, nth_error (fst (wrap_elems base b i l)) j = Some c -> exists m, hget h c = Some m /\ n_parent m = Some base /\ n_key m = nat_str (i + j)).
    { clear H1 H2 Hp. induction IH as [|x l Hx _ IHl]; intros i b Lb Hb.
      - split; [intros a L1 L2; cbn in L2; lia|]. intros j c Hc. destruct j; discriminate.
      - rewrite wrap_elems_cons in *. cbn [fst snd] in *.
        apply placed_app in Hb as [Hb1 Hb2]. destruct (IHl (S i) (after b (wrap b (Some base) (nat_str i) x))) as [I1 I2]; [unfold after; lia|exact Hb2|]. split.
        + rewrite app_length, Nat.add_assoc. eapply linked_join; [|exact I1]. eapply Hx; [|exact Hb1]. intros q [= <-]. lia.
        + intros [|j] c Hc; cbn in Hc.
          * injection Hc as <-. rewrite Nat.add_0_r. eapply placed_head, Hb1.
          * rewrite <- Nat.add_succ_comm. apply I2, Hc. }
    destruct (K 0 (S base) (Nat.lt_succ_diag_r base) H2) as [K1 K2].
    rewrite Nat.add_succ_r. eapply linked_join with (mid := S base); [|exact K1].
    intros a L1 L2. assert (a = base) as -> by lia. eexists. split; [exact H1|]. split; [exact Hp|]. cbn [n_val]. intros k c Hc. inversion Hc; subst. apply (K2 _ _ H0).
  - rewrite wrap_dict in *. apply placed_cons in H as [H1 H2]. cbn [length].
    assert (K : forall b, base < b -> placed h b (snd (wrap_items base b d)) ->
      linked_in h b (b + length (snd (wrap_items base b d))) /\
      forall k c, In (k, c) (fst (wrap_items base b d)) -> exists m, hget h c = Some m /\ n_parent m = Some base /\ n_key m = k).
    { clear H1 H2 Hp. induction IH as [|[k0 x] d Hx _ IHd]; intros b Lb Hb.
      - split; [intros a L1 L2; cbn in L2; lia|]. intros k c [].
      - rewrite wrap_items_cons in *. cbn [fst snd] in *.
        apply placed_app in Hb as [Hb1 Hb2]. destruct (IHd (after b (wrap b (Some base) k0 x))) as [I1 I2]; [unfold after; lia|exact Hb2|]. split.
        + rewrite app_length, Nat.add_assoc. eapply linked_join; [|exact I1]. eapply Hx; [|exact Hb1]. intros q [= <-]. lia.
        + intros k c [[= <- <-]|Hc]; [eapply placed_head, Hb1|]. apply I2, Hc. }
    destruct (K (S base) (Nat.lt_succ_diag_r base) H2) as [K1 K2].
    rewrite Nat.add_succ_r. eapply linked_join with (mid := S base); [|exact K1].
    intros a L1 L2. assert (a = base) as -> by lia. eexists. split; [exact H1|]. split; [exact Hp|]. cbn [n_val]. intros k c Hc. inversion Hc; subst. auto.
Qed.
Lemma linked_old h g : linked h -> linked_in (h ++ g) 0 (length h).
Proof.
  intros H a L1 L2. destruct (H a L1 L2) as (n & Hn & Hp & Hc). exists n. split; [apply hget_app1, Hn|]. split; [exact Hp|].
  intros k c Hk. destruct (Hc k c Hk) as (m & Hm & Hpm). exists m. split; [apply hget_app1, Hm|exact Hpm].
Qed.
Lemma linked_grow h p key v : (forall q, p = Some q -> q < length h) -> linked h -> linked (h ++ wrap (length h) p key v).
Proof.
  intros Hp H. unfold linked. rewrite app_length. eapply linked_join; [apply linked_old, H|].
  apply wrap_linked; [exact Hp|apply placed_end].
Qed.
Lemma linked_hset h a x : linked h ->
  (forall k c, child_of x k c -> exists m, hget h c = Some m /\ n_parent m = Some a /\ n_key m = k) -> linked (hset h a x).
Proof.
  intros H Hx b L1 L2. rewrite hset_length in L2. destruct (H b L1 L2) as (n & Hn & Hp & Hc).
  assert (K : forall c m, hget h c = Some m -> exists m', hget (hset h a x) c = Some m' /\ n_parent m' = n_parent m /\ n_key m' = n_key m).
  { intros c m Hm. rewrite hget_hset. destruct (Nat.eqb_spec a c) as [->|]; [rewrite Hm|]; eauto. }
  rewrite hget_hset. destruct (Nat.eqb_spec a b) as [->|Hab].
  - rewrite Hn. eexists. split; [reflexivity|]. split; [exact Hp|]. cbn [n_val]. intros k c Hk. destruct (Hx k c Hk) as (m & Hm & E1 & E2).
    destruct (K c m Hm) as (m' & Hm' & E3 & E4). exists m'. split; [exact Hm'|]. split; [rewrite E3; exact E1|rewrite E4; exact E2].
  - exists n. split; [exact Hn|]. split; [exact Hp|]. intros k c Hk. destruct (Hc k c Hk) as (m & Hm & E1 & E2).
    destruct (K c m Hm) as (m' & Hm' & E3 & E4). exists m'. split; [exact Hm'|]. split; [rewrite E3; exact E1|rewrite E4; exact E2].
Qed.

(** ** Paths *)
Lemma keys_up_more h : forall f a r, keys_up f h a = r -> r <> OutOfFuel -> forall g, f <= g -> keys_up g h a = r.
Proof.
  induction f as [|f IH]; intros a r H Hr g Hg; [cbn in H; congruence|]. destruct g as [|g]; [lia|]. cbn in *.
  destruct (hget h a) as [n|]; [|exact H]. destruct (n_parent n) as [p|]; [|exact H].
  destruct (keys_up f h p) as [ks|e|] eqn:E; cbn in H; try congruence; erewrite (IH p _ E) by (try lia; discriminate); exact H.
Qed.
Lemma root_up_more h : forall f a r, root_up f h a = r -> r <> OutOfFuel -> forall g, f <= g -> root_up g h a = r.
Proof.
  induction f as [|f IH]; intros a r H Hr g Hg; [cbn in H; congruence|]. destruct g as [|g]; [lia|]. cbn in *.
  destruct (hget h a) as [n|]; [|exact H]. destruct (n_parent n) as [p|]; [|exact H]. eapply IH; eauto. lia.
Qed.

(** [b] is reached from [a] by following [p]: members by name, elements by index *)
Inductive walk (h : heap) : addr -> list pystr -> addr -> Prop :=
| w_here a : walk h a [] a
| w_member a items k c p b : val h a (PObj items) -> dget k items = Some c -> walk h c p b -> walk h a (k :: p) b
| w_elem a l i c p b : val h a (PArr l) -> nth_error l i = Some c -> walk h c p b -> walk h a (nat_str i :: p) b.

Lemma walk_snoc h a p k b c : walk h a p b -> walk h b [k] c -> walk h a (p ++ [k]) c.
Proof. induction 1; intro K; cbn; [exact K|eapply w_member|eapply w_elem]; eauto. Qed.
Lemma walk_app h a p q b c : walk h a p b -> walk h b q c -> walk h a (p ++ q) c.
Proof. induction 1; intro K; cbn; [exact K|eapply w_member|eapply w_elem]; eauto. Qed.
Lemma walk_unsnoc h a p k c : walk h a (p ++ [k]) c -> exists b, walk h a p b /\ walk h b [k] c.
Proof.
  revert a. induction p as [|x p IH]; intros a H; cbn in H.
  - exists a. split; [constructor|exact H].
  - inversion H as [|? items ? b' ? ? Hv Hk Hw|? l i b' ? ? Hv Hk Hw]; subst; destruct (IH _ Hw) as (b & H1 & H2); exists b; (split; [|exact H2]); [eapply w_member|eapply w_elem]; eauto.
Qed.
Lemma walk_child h b k c : linked h -> walk h b [k] c -> exists m, hget h c = Some m /\ n_parent m = Some b /\ n_key m = k /\ b < c.
Proof.
  intros L H. assert (K : exists x, val h b x /\ child_of x k c).
  { inversion H as [|? items ? b' ? ? Hv Hk Hw|? l i b' ? ? Hv Hk Hw]; subst; inversion Hw; subst.
    - eexists; split; [exact Hv|]. constructor. apply dget_In, Hk.
    - eexists; split; [exact Hv|]. constructor. exact Hk. }
  destruct K as (x & (n & Hn & <-) & Hc). destruct (L b (Nat.le_0_l _) (hget_lt _ _ _ Hn)) as (n' & Hn' & _ & HL).
  assert (n' = n) as -> by congruence. destruct (HL k c Hc) as (m & Hm & E1 & E2). exists m. do 3 (split; [assumption|]).
  destruct (L c (Nat.le_0_l _) (hget_lt _ _ _ Hm)) as (m' & Hm' & Hp & _). assert (m' = m) as -> by congruence. apply Hp, E1.
Qed.
Lemma walk_up h r p b : linked h -> (exists n, hget h r = Some n /\ n_parent n = None) -> walk h r p b ->
  exists n, hget h b = Some n /\ keys_up (S b) h b = Ok p /\ root_up (S b) h b = Ok r.
Proof.
  intros L (n & Hn & Hr). revert b. induction p as [|k p IH] using rev_ind; intros b H.
  - inversion H; subst. exists n. split; [exact Hn|]. cbn. rewrite Hn, Hr. auto.
  - apply walk_unsnoc in H as (c & H1 & H2). destruct (IH c H1) as (m & Hm & K1 & K2).
    destruct (walk_child h c k b L H2) as (x & Hx & E1 & E2 & Lt). exists x. split; [exact Hx|]. cbn [keys_up root_up]. rewrite Hx, E1, E2.
    rewrite (keys_up_more _ _ _ _ K1 ltac:(discriminate) b ltac:(lia)), (root_up_more _ _ _ _ K2 ltac:(discriminate) b ltac:(lia)). auto.
Qed.
Lemma walk_path h r p b : linked h -> (exists n, hget h r = Some n /\ n_parent n = None) -> walk h r p b ->
  node_path h b = Ok p /\ node_root h b = Ok r.
Proof.
  intros L Hr H. destruct (walk_up h r p b L Hr H) as (n & Hn & K1 & K2). apply hget_lt in Hn. split.
  - apply (keys_up_more _ _ _ _ K1); [discriminate|lia].
  - apply (root_up_more _ _ _ _ K2); [discriminate|lia].
Qed.
