(** C105: arrays behave like lists. *)
From Verif Require Import PyBase PyBaseFacts PyVal Validators OrderFacts Numbers PropsNumber Uri Heap HeapFacts PropsWrap Compare PropsCompare Arrays.
From Coq Require Import QArith.
Local Open Scope Z_scope.
Local Notation length := List.length (only parsing).

(** ** Specification: Python's lists *)
Notation size l := (Z.of_nat (List.length l)).
(** [i] is the index of the element between [p] and [q], counted from the front
    or, below zero, from the back *)
Definition index_between {A} (i : Z) (p q : list A) : Prop := i = size p \/ i = - (size q + 1).
Definition outside {A} (i : Z) (l : list A) : Prop := i < - size l \/ size l <= i.
(** a bound of a slice: from the back when negative, then moved into the list *)
Definition bound (n step z : Z) : Z :=
  let z' := if z <? 0 then n + z else z in
  if 0 <? step then Z.max 0 (Z.min z' n) else Z.max (-1) (Z.min z' (n - 1)).
Definition bound_or (n step : Z) (x : option Z) (missing : Z) : Z := match x with Some z => bound n step z | None => missing end.
(** the elements at [i], [i + step], ... before [stop] *)
Inductive every {A} (l : list A) (step stop : Z) : Z -> list A -> Prop :=
| e_stop i : (if 0 <? step then stop <= i else i <= stop) -> every l step stop i []
| e_next p x q m : l = p ++ x :: q -> (if 0 <? step then size p < stop else stop < size p) ->
    every l step stop (size p + step) m -> every l step stop (size p) (x :: m).
Definition picked {A} (l : list A) (start stop step : option Z) (m : list A) : Prop :=
  let k := match step with Some k => k | None => 1 end in
  k <> 0 /\ every l k (bound_or (size l) k stop (if 0 <? k then size l else -1)) (bound_or (size l) k start (if 0 <? k then 0 else size l - 1)) m.
(** where a slice begins and ends, and which positions it has *)
Definition step_of (step : option Z) : Z := match step with Some k => k | None => 1 end.
Definition begins {A} (l : list A) (start step : option Z) : Z := bound_or (size l) (step_of step) start (if 0 <? step_of step then 0 else size l - 1).
Definition ends {A} (l : list A) (stop step : option Z) : Z := bound_or (size l) (step_of step) stop (if 0 <? step_of step then size l else -1).
Definition in_slice {A} (l : list A) (start stop step : option Z) (p : Z) : Prop :=
  exists t, 0 <= t /\ p = begins l start step + t * step_of step /\ (if 0 <? step_of step then p < ends l stop step else ends l stop step < p).
(** the elements of [l], the first of them at [p], whose position is not in [S] *)
Inductive kept {A} (S : Z -> Prop) : Z -> list A -> list A -> Prop :=
| k_nil p : kept S p [] []
| k_in p x l m : S p -> kept S (p + 1) l m -> kept S p (x :: l) m
| k_out p x l m : ~ S p -> kept S (p + 1) l m -> kept S p (x :: l) (x :: m).
(** [vals] put in place of the span from [begins] to [ends]: behind the beginning
    when the end lies before it *)
Definition replaced {A} (l : list A) (start stop step : option Z) (vals m : list A) : Prop :=
  exists p old q, l = p ++ old ++ q /\ m = p ++ vals ++ q /\ size p = begins l start step /\ size p + size old = Z.max (begins l start step) (ends l stop step).
(** [vals] put at the positions of the slice, in its order, and nothing else changed *)
Definition filled {A} (l : list A) (start stop step : option Z) (vals m : list A) : Prop :=
  (exists old, picked l start stop step old /\ length vals = length old) /\ length m = length l /\
  (forall t x, nth_error vals t = Some x -> nth_error m (Z.to_nat (begins l start step + Z.of_nat t * step_of step)) = Some x) /\
  (forall p, ~ in_slice l start stop step (Z.of_nat p) -> nth_error m p = nth_error l p).

Section Plain.
  Variable h : heap.
  (** an element of the array is the wrapped value, or the value itself *)
  Inductive shows : slot -> pv -> Prop :=
  | sh_node a v : holds h a v -> shows (SNode a) v
  | sh_raw v : shows (SRaw v) v.
  (** the call on a plain list: the answer and the list afterwards *)
  Inductive plain_call : list pv -> call -> answer pv -> list pv -> Prop :=
  | p_get p x q i : index_between i p q -> plain_call (p ++ x :: q) (Get i) (AOne x) (p ++ x :: q)
  | p_get_out l i : outside i l -> plain_call l (Get i) (AFail EIndex) l
  | p_take l i j k m : picked l i j k m -> plain_call l (Take i j k) (AMany m) l
  | p_take_zero l i j : plain_call l (Take i j (Some 0)) (AFail EValue) l
  | p_len l : plain_call l Len (ASize (length l)) l
  | p_iterate l : plain_call l Iterate (AMany l) l
  | p_put p x q i v : index_between i p q -> plain_call (p ++ x :: q) (Put i v) ADone (p ++ v :: q)
  | p_put_out l i v : outside i l -> plain_call l (Put i v) (AFail EIndex) l
  | p_put_node p x q i a v : holds h a v -> index_between i p q -> plain_call (p ++ x :: q) (PutNode i a) ADone (p ++ v :: q)
  | p_put_node_out l i a : outside i l -> plain_call l (PutNode i a) (AFail EIndex) l
  | p_del p x q i : index_between i p q -> plain_call (p ++ x :: q) (Del i) ADone (p ++ q)
  | p_del_out l i : outside i l -> plain_call l (Del i) (AFail EIndex) l
  | p_del_slice l i j k m : step_of k <> 0 -> kept (in_slice l i j k) 0 l m -> plain_call l (DelSlice i j k) ADone m
  | p_del_slice_zero l i j : plain_call l (DelSlice i j (Some 0)) (AFail EValue) l
  | p_put_slice l i j k s vals m : Forall2 shows s vals -> step_of k = 1 -> replaced l i j k vals m -> plain_call l (PutSlice i j k (Some s)) ADone m
  | p_put_stepped l i j k s vals m : Forall2 shows s vals -> step_of k <> 0 -> step_of k <> 1 -> filled l i j k vals m -> plain_call l (PutSlice i j k (Some s)) ADone m
  | p_put_uneven l i j k s old : step_of k <> 1 -> picked l i j k old -> length s <> length old -> plain_call l (PutSlice i j k (Some s)) (AFail EValue) l
  | p_put_nothing l i j k : step_of k <> 0 -> plain_call l (PutSlice i j k None) (AFail EType) l
  | p_put_slice_zero l i j given : plain_call l (PutSlice i j (Some 0) given) (AFail EValue) l.
  Inductive plain_calls : list pv -> list call -> list (answer pv) -> list pv -> Prop :=
  | ps_nil l : plain_calls l [] [] l
  | ps_cons l c x l1 cs xs l2 : plain_call l c x l1 -> plain_calls l1 cs xs l2 -> plain_calls l (c :: cs) (x :: xs) l2.
  Inductive tells : answer slot -> answer pv -> Prop :=
  | t_one s v : shows s v -> tells (AOne s) (AOne v)
  | t_many s l : Forall2 shows s l -> tells (AMany s) (AMany l)
  | t_size n : tells (ASize n) (ASize n)
  | t_done : tells ADone ADone
  | t_fail e : tells (AFail e) (AFail e).
End Plain.

(** ** Lemmas *)
Lemma position_in {A} (l : list A) i p : position (size l) i = Some p -> exists l1 x l2, l = l1 ++ x :: l2 /\ p = length l1 /\ index_between i l1 l2.
Proof.
  unfold position. destruct ((0 <=? _) && _)%bool eqn:E; [|discriminate]. intro H; injection H as <-. apply andb_true_iff in E as [E1 E2].
  set (j := if i <? 0 then i + size l else i) in *. assert (L : (Z.to_nat j < length l)%nat) by lia.
  destruct (nth_error l (Z.to_nat j)) as [x|] eqn:N; [|apply nth_error_None in N; lia]. apply nth_error_split in N as (l1 & l2 & E & L1).
  exists l1, x, l2. split; [exact E|]. split; [auto|]. unfold index_between. assert (Ln : size l = size l1 + 1 + size l2) by (rewrite E, app_length; cbn [List.length]; lia). subst j. destruct (i <? 0) eqn:S; lia.
Qed.
Lemma position_out {A} (l : list A) i : position (size l) i = None -> outside i l.
Proof. unfold position, outside. destruct ((0 <=? _) && _)%bool eqn:E; [discriminate|]. intros _. destruct (i <? 0) eqn:S; lia. Qed.
Lemma adjusted_bound n k x m : 0 <= n -> k <> 0 -> adjusted n k x m = bound_or n k x m.
Proof. intros Hn Hk. destruct x as [z|]; [|reflexivity]. cbn. unfold bound. destruct (z <? 0) eqn:E1, (k <? 0) eqn:E2, (0 <? k) eqn:E3; try lia; try destruct (z + n <? 0) eqn:E4; try destruct (n <=? z) eqn:E5; lia. Qed.
Lemma count_next i j k : k <> 0 -> (if 0 <? k then i < j else j < i) -> slice_count i j k = slice_count (i + k) j k + 1 /\ 0 < slice_count i j k.
Proof.
  intros Hk Hb. unfold slice_count. destruct (0 <? k) eqn:E3, (k <? 0) eqn:E2; try lia.
  - rewrite (proj2 (Z.ltb_lt i j)) by lia. split; [|assert (0 <= (j - i - 1) / k) by (apply Z.div_pos; lia); lia].
    destruct (i + k <? j) eqn:E; [|rewrite Z.div_small by lia; lia]. replace (j - i - 1) with ((j - (i + k) - 1) + 1 * k) by lia. rewrite Z.div_add by lia. lia.
  - rewrite (proj2 (Z.ltb_lt j i)) by lia. split; [|assert (0 <= (i - j - 1) / - k) by (apply Z.div_pos; lia); lia].
    destruct (j <? i + k) eqn:E; [|rewrite Z.div_small by lia; lia]. replace (i - j - 1) with ((i + k - j - 1) + 1 * (- k)) by lia. rewrite Z.div_add by lia. lia.
Qed.
Lemma count_zero i j k : k <> 0 -> (if 0 <? k then j <= i else i <= j) -> slice_count i j k = 0.
Proof. intros Hk Hb. unfold slice_count. destruct (0 <? k) eqn:E3, (k <? 0) eqn:E2; try lia; [destruct (i <? j) eqn:E|destruct (j <? i) eqn:E]; lia. Qed.
Lemma loop_every {A} (l : list A) k j : k <> 0 -> (if 0 <? k then j <= size l else -1 <= j) -> forall c i, (if 0 <? k then 0 <= i else i < size l) ->
  Z.to_nat (slice_count i j k) = c -> every l k j i (slice_loop l i k c).
Proof.
  intros Hk Hj. induction c as [|c IH]; intros i Hi E.
  - apply e_stop. assert (D : (if 0 <? k then j <= i else i <= j) \/ (if 0 <? k then i < j else j < i)) by (destruct (0 <? k); lia). destruct D as [D|D]; [exact D|].
    destruct (count_next i j k Hk D). lia.
  - assert (D : (if 0 <? k then j <= i else i <= j) \/ (if 0 <? k then i < j else j < i)) by (destruct (0 <? k); lia). destruct D as [D|D]; [rewrite (count_zero i j k Hk D) in E; discriminate|].
    destruct (count_next i j k Hk D) as [N P]. cbn [slice_loop]. assert (L : (Z.to_nat i < length l)%nat /\ 0 <= i) by (destruct (0 <? k); lia).
    destruct (nth_error l (Z.to_nat i)) as [x|] eqn:X; [|apply nth_error_None in X; lia]. apply nth_error_split in X as (p & q & El & Lp).
    assert (Ei : i = size p) by lia. rewrite Ei at 1. eapply e_next; [exact El|rewrite <- Ei; exact D|]. rewrite <- Ei. apply IH; [destruct (0 <? k) eqn:?; lia|lia].
Qed.
Lemma list_slice_picked {A} (l : list A) a b k m : list_slice l a b k = Ok m -> picked l a b k m.
Proof.
  unfold list_slice, picked. set (kk := match k with Some k => k | None => 1 end). destruct (Z.eqb_spec kk 0) as [|K]; [discriminate|]. intro E; injection E as <-. split; [exact K|].
  assert (N : 0 <= size l) by lia. rewrite !adjusted_bound by assumption.
  assert (C : forall x, (if 0 <? kk then 0 <= bound (size l) kk x <= size l else -1 <= bound (size l) kk x <= size l - 1)) by (intro x; unfold bound; destruct (0 <? kk); lia).
  assert (P : 0 < kk \/ kk < 0) by lia. assert (D : (kk <? 0) = negb (0 <? kk)) by (destruct (kk <? 0) eqn:E1, (0 <? kk) eqn:E2; cbn; lia).
  rewrite D. assert (E1 : (if negb (0 <? kk) then size l - 1 else 0) = (if 0 <? kk then 0 else size l - 1)) by (destruct (0 <? kk); reflexivity).
  assert (E2 : (if negb (0 <? kk) then -1 else size l) = (if 0 <? kk then size l else -1)) by (destruct (0 <? kk); reflexivity). rewrite E1, E2. clear D E1 E2.
  apply loop_every; [exact K| | |reflexivity].
  - destruct b as [x|]; cbn [bound_or]; [specialize (C x)|]; destruct (0 <? kk); lia.
  - destruct a as [x|]; cbn [bound_or]; [specialize (C x)|]; destruct (0 <? kk); lia.
Qed.
Lemma Forall2_length {A B} (R : A -> B -> Prop) l m : Forall2 R l m -> length l = length m.
Proof. induction 1; cbn; congruence. Qed.
Lemma nth_related {A B} (R : A -> B -> Prop) l m : Forall2 R l m -> forall n, match nth_error l n, nth_error m n with Some x, Some y => R x y | None, None => True | _, _ => False end.
Proof. induction 1; intros [|n]; cbn; auto. apply IHForall2. Qed.
Lemma loop_related {A B} (R : A -> B -> Prop) l m : Forall2 R l m -> forall k c i, Forall2 R (slice_loop l i k c) (slice_loop m i k c).
Proof.
  intros F k. induction c as [|c IH]; intro i; cbn; [constructor|]. pose proof (nth_related R l m F (Z.to_nat i)) as N.
  destruct (nth_error l (Z.to_nat i)), (nth_error m (Z.to_nat i)); try contradiction; constructor; auto.
Qed.
Lemma slice_related {A B} (R : A -> B -> Prop) l m a b k x : Forall2 R l m -> list_slice l a b k = Ok x -> exists y, list_slice m a b k = Ok y /\ Forall2 R x y.
Proof.
  intros F. unfold list_slice. rewrite <- (Forall2_length R l m F). destruct (_ =? 0); [discriminate|]. intro E; injection E as <-. eexists. split; [reflexivity|]. apply loop_related, F.
Qed.
Lemma first_related {A B} (R : A -> B -> Prop) n l m : Forall2 R l m -> Forall2 R (firstn n l) (firstn n m).
Proof. intro F. revert n. induction F; intros [|n]; cbn; constructor; auto. Qed.
Lemma skip_related {A B} (R : A -> B -> Prop) n l m : Forall2 R l m -> Forall2 R (skipn n l) (skipn n m).
Proof. intro F. revert n. induction F; intros [|n]; cbn; auto. Qed.
Lemma slice_ends {A} (l : list A) a b k : (exists m, list_slice l a b k = Ok m) \/ (k = Some 0 /\ list_slice l a b k = Raise EValue).
Proof. unfold list_slice. destruct k as [z|]; [destruct (Z.eqb_spec z 0) as [->|]; [right; auto|]|]; left; eexists; reflexivity. Qed.
Lemma shows_split (R : slot -> pv -> Prop) s1 x s2 l : Forall2 R (s1 ++ x :: s2) l -> exists l1 y l2, l = l1 ++ y :: l2 /\ Forall2 R s1 l1 /\ R x y /\ Forall2 R s2 l2.
Proof. intro F. apply Forall2_app_inv_l in F as (l1 & l' & F1 & F2 & ->). inversion F2 as [|? y ? l2 Hx F3]; subst. exists l1, y, l2. auto. Qed.
Lemma index_related {A B} (R : A -> B -> Prop) i s1 s2 l1 l2 : Forall2 R s1 l1 -> Forall2 R s2 l2 -> index_between i s1 s2 -> index_between i l1 l2.
Proof. intros F G. unfold index_between. rewrite <- (Forall2_length R s1 l1 F), <- (Forall2_length R s2 l2 G). auto. Qed.
Lemma outside_related {A B} (R : A -> B -> Prop) i s l : Forall2 R s l -> outside i s -> outside i l.
Proof. intro F. unfold outside. rewrite <- (Forall2_length R s l F). auto. Qed.
Lemma cut {A} (s1 : list A) x s2 : firstn (length s1) (s1 ++ x :: s2) = s1 /\ skipn (S (length s1)) (s1 ++ x :: s2) = s2.
Proof. split; [rewrite firstn_app, Nat.sub_diag, firstn_O, app_nil_r; apply firstn_all|]. induction s1; cbn; auto. Qed.

(** *** Slices that are deleted and assigned *)
Lemma skip_skip {A} n m (l : list A) : skipn m (skipn n l) = skipn (n + m) l.
Proof. revert l. induction n as [|n IH]; intro l; [reflexivity|]. destruct l; cbn [skipn Nat.add]; [apply skipn_nil|apply IH]. Qed.
Lemma kept_app {A} (S : Z -> Prop) p (l1 l2 m1 m2 : list A) : kept S p l1 m1 -> kept S (p + size l1) l2 m2 -> kept S p (l1 ++ l2) (m1 ++ m2).
Proof.
  induction 1 as [p|p x l m H K IH|p x l m H K IH]; cbn [app List.length]; intro L.
  - replace (p + Z.of_nat 0) with p in L by lia. exact L.
  - apply k_in; [exact H|]. apply IH. replace (p + 1 + size l) with (p + Z.of_nat (Datatypes.S (length l))) by lia. exact L.
  - apply k_out; [exact H|]. apply IH. replace (p + 1 + size l) with (p + Z.of_nat (Datatypes.S (length l))) by lia. exact L.
Qed.
Lemma kept_all {A} (S : Z -> Prop) (l : list A) : forall p, (forall q, p <= q < p + size l -> ~ S q) -> kept S p l l.
Proof. induction l as [|x l IH]; intros p H; [apply k_nil|]. cbn [List.length] in H. apply k_out; [apply H; lia|]. apply IH. intros q Hq. apply H. lia. Qed.
Lemma kept_none {A} (S : Z -> Prop) (l : list A) : forall p, (forall q, p <= q < p + size l -> S q) -> kept S p l [].
Proof. induction l as [|x l IH]; intros p H; [apply k_nil|]. cbn [List.length] in H. apply k_in; [apply H; lia|]. apply IH. intros q Hq. apply H. lia. Qed.
Lemma drop_kept {A} (S : Z -> Prop) k c : (1 <= k)%nat -> forall (l : list A) p, (forall q, p <= q -> (S q <-> exists t, 0 <= t < Z.of_nat c /\ q = p + t * Z.of_nat k)) -> kept S p l (drop_loop l k c).
Proof.
  intro Hk. induction c as [|c IH]; intros l p H.
  - apply kept_all. intros q Hq Sq. apply H in Sq as (t & Ht & _); lia.
  - destruct l as [|x l]; cbn [drop_loop]; [apply k_nil|]. apply k_in; [apply H; [lia|exists 0; lia]|].
    rewrite <- (firstn_skipn (k - 1) l) at 1. apply kept_app.
    + apply kept_all. intros q Hq Sq. rewrite firstn_length in Hq. apply H in Sq as (t & Ht & ->); [|lia]. assert (t = 0 \/ 1 <= t) as [->|Ht1] by lia; nia.
    + destruct (le_lt_dec (k - 1) (length l)) as [L|L].
      * apply IH. rewrite firstn_length. intros q Hq. rewrite (H q) by lia. split.
        -- intros (t & Ht & ->). exists (t - 1). assert (t = 0 \/ 1 <= t) as [->|Ht1] by lia; nia.
        -- intros (t & Ht & ->). exists (t + 1). nia.
      * rewrite skipn_all2 by lia. replace (drop_loop [] k c) with (@nil A) by (destruct c; reflexivity). apply k_nil.
Qed.
Lemma count_iff i j k t : k <> 0 -> 0 <= t -> ((if 0 <? k then i + t * k < j else j < i + t * k) <-> t < slice_count i j k).
Proof.
  intros Hk Ht. unfold slice_count. destruct (0 <? k) eqn:E3, (k <? 0) eqn:E2; try lia.
  - destruct (i <? j) eqn:E; [|nia]. pose proof (Z.mul_div_le (j - i - 1) k ltac:(lia)). pose proof (Z.mul_succ_div_gt (j - i - 1) k ltac:(lia)). nia.
  - destruct (j <? i) eqn:E; [|nia]. pose proof (Z.mul_div_le (i - j - 1) (- k) ltac:(lia)). pose proof (Z.mul_succ_div_gt (i - j - 1) (- k) ltac:(lia)). nia.
Qed.
Lemma begin_bounds {A} (l : list A) i k : if 0 <? step_of k then 0 <= begins l i k <= size l else -1 <= begins l i k < size l.
Proof. unfold begins, bound_or, bound. destruct (0 <? step_of k); destruct i; lia. Qed.
Lemma end_bounds {A} (l : list A) j k : if 0 <? step_of k then 0 <= ends l j k <= size l else -1 <= ends l j k < size l.
Proof. unfold ends, bound_or, bound. destruct (0 <? step_of k); destruct j; lia. Qed.
Lemma adjusted_begins {A} (l : list A) i k : step_of k <> 0 -> adjusted (size l) (step_of k) i (if step_of k <? 0 then size l - 1 else 0) = begins l i k.
Proof. intro H. rewrite adjusted_bound by lia. unfold begins. f_equal. destruct (step_of k <? 0) eqn:E1, (0 <? step_of k) eqn:E2; lia. Qed.
Lemma adjusted_ends {A} (l : list A) j k : step_of k <> 0 -> adjusted (size l) (step_of k) j (if step_of k <? 0 then -1 else size l) = ends l j k.
Proof. intro H. rewrite adjusted_bound by lia. unfold ends. f_equal. destruct (step_of k <? 0) eqn:E1, (0 <? step_of k) eqn:E2; lia. Qed.
Lemma in_count {A} (l : list A) i j k p : step_of k <> 0 -> (in_slice l i j k p <-> exists t, 0 <= t < slice_count (begins l i k) (ends l j k) (step_of k) /\ p = begins l i k + t * step_of k).
Proof.
  intro Hk. split.
  - intros (t & Ht & -> & B). exists t. apply count_iff in B; [|assumption|assumption]. split; [lia|reflexivity].
  - intros (t & [Ht B] & ->). exists t. split; [exact Ht|]. split; [reflexivity|]. apply count_iff; assumption.
Qed.
Lemma list_del_kept {A} (l : list A) i j k m : list_del_slice l i j k = Ok m -> step_of k <> 0 /\ kept (in_slice l i j k) 0 l m.
Proof.
  unfold list_del_slice. fold (step_of k). destruct (Z.eqb_spec (step_of k) 0) as [|K]; [discriminate|]. rewrite (adjusted_begins l i k K), (adjusted_ends l j k K). intro E. split; [exact K|].
  pose proof (begin_bounds l i k) as B. pose proof (end_bounds l j k) as B'. set (b := begins l i k) in *. set (e := ends l j k) in *.
  destruct (Z.eqb_spec (step_of k) 1) as [K1|K1].
  - injection E as <-. rewrite K1 in B, B'. cbn in B, B'. pose proof (in_count l i j k) as C. fold b e in C. rewrite K1 in C.
    assert (C' : forall q, in_slice l i j k q <-> b <= q < e). { intro q. rewrite C by lia. unfold slice_count. cbn [Z.ltb Z.compare]. destruct (b <? e) eqn:D; [rewrite Z.div_1_r|]; split; [intros (t & Ht & ->); lia|intro Hq; exists (q - b); lia|intros (t & Ht & ->); lia|lia]. }
    rewrite <- (firstn_skipn (Z.to_nat b) l) at 2. apply kept_app; [apply kept_all; rewrite firstn_length; intros q Hq; rewrite C'; lia|].
    assert (S : skipn (Z.to_nat (Z.max b e)) l = skipn (Z.to_nat (Z.max b e - b)) (skipn (Z.to_nat b) l)) by (rewrite skip_skip; f_equal; lia). rewrite S.
    change (skipn (Z.to_nat (Z.max b e - b)) (skipn (Z.to_nat b) l)) with ([] ++ skipn (Z.to_nat (Z.max b e - b)) (skipn (Z.to_nat b) l)).
    rewrite <- (firstn_skipn (Z.to_nat (Z.max b e - b)) (skipn (Z.to_nat b) l)) at 1. apply kept_app; [apply kept_none|apply kept_all]; repeat rewrite ?firstn_length, ?skipn_length; intros q Hq; rewrite C'; lia.
  - pose proof (in_count l i j k) as C. fold b e in C. destruct (slice_count b e (step_of k) <=? 0) eqn:D.
    + injection E as <-. apply kept_all. intros q _ Sq. apply C in Sq as (t & Ht & _); lia.
    + injection E as <-. set (c := slice_count b e (step_of k)) in *. set (f := if step_of k <? 0 then b + step_of k * (c - 1) else b).
      assert (Last : if 0 <? step_of k then b + (c - 1) * step_of k < e else e < b + (c - 1) * step_of k) by (apply count_iff; [assumption|lia|fold c; lia]).
      assert (F : 0 <= f <= size l). { subst f. destruct (step_of k <? 0) eqn:E1, (0 <? step_of k) eqn:E2; try lia; nia. }
      assert (C' : forall q, in_slice l i j k q <-> exists t, 0 <= t < c /\ q = f + t * Z.abs (step_of k)).
      { intro q. rewrite C by assumption. subst f. destruct (step_of k <? 0) eqn:E1.
        - split; intros (t & Ht & ->); exists (c - 1 - t); nia.
        - split; intros (t & Ht & ->); exists t; nia. }
      rewrite <- (firstn_skipn (Z.to_nat f) l) at 2. apply kept_app.
      * apply kept_all. rewrite firstn_length. intros q Hq Sq. apply C' in Sq as (t & Ht & ->). nia.
      * apply drop_kept; [lia|]. rewrite firstn_length. replace (0 + Z.of_nat (Nat.min (Z.to_nat f) (length l))) with f by lia. intros q Hq. rewrite C'. replace (Z.of_nat (Z.to_nat c)) with c by lia. replace (Z.of_nat (Z.to_nat (Z.abs (step_of k)))) with (Z.abs (step_of k)) by lia. reflexivity.
Qed.
Definition put_at {A} (l : list A) (cur : Z) (x : A) : list A := firstn (Z.to_nat cur) l ++ x :: skipn (S (Z.to_nat cur)) l.
Lemma put_at_nth {A} (l : list A) cur x : 0 <= cur < size l -> length (put_at l cur x) = length l /\ nth_error (put_at l cur x) (Z.to_nat cur) = Some x /\
  forall p, Z.of_nat p <> cur -> nth_error (put_at l cur x) p = nth_error l p.
Proof.
  intro L. destruct (nth_error l (Z.to_nat cur)) as [y|] eqn:N; [|apply nth_error_None in N; lia]. apply nth_error_split in N as (p & q & -> & Lp). unfold put_at. rewrite <- Lp. destruct (cut p y q) as [-> ->].
  split; [rewrite !app_length; reflexivity|]. split; [rewrite nth_error_app2, Nat.sub_diag by lia; reflexivity|]. intros r Hr. destruct (lt_dec r (length p)); [rewrite !nth_error_app1 by lia; reflexivity|].
  rewrite !nth_error_app2 by lia. destruct (r - length p)%nat eqn:E; [lia|reflexivity].
Qed.
Lemma fill_nth {A} k vals : k <> 0 -> forall (l : list A) cur, (forall t, 0 <= t < size vals -> 0 <= cur + t * k < size l) ->
  length (fill_loop l cur k vals) = length l /\ (forall t x, nth_error vals t = Some x -> nth_error (fill_loop l cur k vals) (Z.to_nat (cur + Z.of_nat t * k)) = Some x) /\
  (forall p, (forall t, 0 <= t < size vals -> Z.of_nat p <> cur + t * k) -> nth_error (fill_loop l cur k vals) p = nth_error l p).
Proof.
  intro Hk. induction vals as [|v vals IH]; intros l cur H; cbn [fill_loop].
  - split; [reflexivity|]. split; [intros [|t] x [=]|reflexivity].
  - cbn [List.length] in H. destruct (put_at_nth l cur v) as (P1 & P2 & P3); [specialize (H 0); lia|]. change (firstn (Z.to_nat cur) l ++ v :: skipn (S (Z.to_nat cur)) l) with (put_at l cur v).
    destruct (IH (put_at l cur v) (cur + k)) as (I1 & I2 & I3); [rewrite P1; intros t Ht; specialize (H (t + 1)); lia|]. split; [congruence|]. split.
    + intros [|t] x E; cbn [nth_error] in E.
      * injection E as <-. replace (cur + Z.of_nat 0 * k) with cur by lia. rewrite I3; [exact P2|]. specialize (H 0). intros t Ht. nia.
      * rewrite <- (I2 t x E). f_equal. f_equal. lia.
    + intros p Hp. rewrite I3; [apply P3; specialize (Hp 0); cbn [List.length] in Hp; lia|]. intros t Ht. specialize (Hp (t + 1)). cbn [List.length] in Hp. lia.
Qed.
Lemma loop_length {A} (l : list A) k : forall c i, (forall t, 0 <= t < Z.of_nat c -> 0 <= i + t * k < size l) -> length (slice_loop l i k c) = c.
Proof.
  induction c as [|c IH]; intros i H; [reflexivity|]. cbn [slice_loop]. destruct (nth_error l (Z.to_nat i)) eqn:N; [|apply nth_error_None in N; specialize (H 0); lia].
  cbn [List.length]. rewrite IH; [reflexivity|]. intros t Ht. specialize (H (t + 1)). lia.
Qed.
Lemma positions_inside {A} (l : list A) i j k : step_of k <> 0 -> forall t, 0 <= t < slice_count (begins l i k) (ends l j k) (step_of k) -> 0 <= begins l i k + t * step_of k < size l.
Proof.
  intros K t Ht. pose proof (begin_bounds l i k) as B. pose proof (end_bounds l j k) as B'. pose proof (proj2 (count_iff (begins l i k) (ends l j k) (step_of k) t K (proj1 Ht)) (proj2 Ht)) as L.
  destruct (0 <? step_of k) eqn:E; nia.
Qed.
Lemma slice_size {A} (l : list A) i j k : step_of k <> 0 -> exists old, list_slice l i j k = Ok old /\ size old = slice_count (begins l i k) (ends l j k) (step_of k).
Proof.
  intro K. unfold list_slice. fold (step_of k). destruct (Z.eqb_spec (step_of k) 0) as [|_]; [contradiction|]. rewrite (adjusted_begins l i k K), (adjusted_ends l j k K). eexists. split; [reflexivity|].
  assert (N : 0 <= slice_count (begins l i k) (ends l j k) (step_of k)).
  { unfold slice_count. destruct (step_of k <? 0) eqn:E; [destruct (ends l j k <? begins l i k) eqn:E2; [|lia]|destruct (begins l i k <? ends l j k) eqn:E2; [|lia]]; apply Z.add_nonneg_nonneg; try lia; apply Z.div_pos; lia. }
  rewrite loop_length; [lia|]. intros t Ht. apply (positions_inside l i j k K). lia.
Qed.
Lemma list_put_filled {A} (l : list A) i j k vals m : step_of k <> 1 -> list_put_slice l i j k (Some vals) = Ok m -> step_of k <> 0 /\ filled l i j k vals m.
Proof.
  unfold list_put_slice. fold (step_of k). intros K1. destruct (Z.eqb_spec (step_of k) 0) as [|K]; [discriminate|]. rewrite (adjusted_begins l i k K), (adjusted_ends l j k K). destruct (Z.eqb_spec (step_of k) 1) as [|_]; [contradiction|].
  destruct (Z.eqb_spec (size vals) (slice_count (begins l i k) (ends l j k) (step_of k))) as [L|]; [|discriminate]. intro E. injection E as <-. split; [exact K|].
  destruct (slice_size l i j k K) as (old & So & Lo). pose proof (positions_inside l i j k K) as In. rewrite <- L in In. destruct (fill_nth (step_of k) vals K l (begins l i k) In) as (F1 & F2 & F3).
  split; [exists old; split; [apply list_slice_picked, So|lia]|]. split; [exact F1|]. split; [exact F2|]. intros p Np. apply F3. intros t Ht Ep. apply Np. apply in_count; [exact K|]. exists t. rewrite <- L. auto.
Qed.
Lemma list_put_replaced {A} (l : list A) i j k vals m : step_of k = 1 -> list_put_slice l i j k (Some vals) = Ok m -> replaced l i j k vals m.
Proof.
  unfold list_put_slice. fold (step_of k). intros K1. assert (K : step_of k <> 0) by lia. destruct (Z.eqb_spec (step_of k) 0) as [|_]; [contradiction|]. rewrite (adjusted_begins l i k K), (adjusted_ends l j k K). destruct (Z.eqb_spec (step_of k) 1) as [_|]; [|contradiction].
  intro E. injection E as <-. pose proof (begin_bounds l i k) as B. pose proof (end_bounds l j k) as B'. rewrite K1 in B, B'. cbn in B, B'. set (b := begins l i k) in *. set (e := ends l j k) in *.
  exists (firstn (Z.to_nat b) l), (firstn (Z.to_nat (Z.max b e - b)) (skipn (Z.to_nat b) l)), (skipn (Z.to_nat (Z.max b e)) l). fold b e.
  assert (S : skipn (Z.to_nat (Z.max b e)) l = skipn (Z.to_nat (Z.max b e - b)) (skipn (Z.to_nat b) l)) by (rewrite skip_skip; f_equal; lia).
  split; [rewrite S, !firstn_skipn; reflexivity|]. split; [reflexivity|]. repeat rewrite ?firstn_length, ?skipn_length. lia.
Qed.
Lemma drop_related {A B} (R : A -> B -> Prop) k c : forall l m, Forall2 R l m -> Forall2 R (drop_loop l k c) (drop_loop m k c).
Proof.
  induction c as [|c IH]; intros l m F; [exact F|]. destruct F as [|x y l m _ F]; cbn [drop_loop]; [constructor|]. apply Forall2_app; [apply first_related, F|apply IH, skip_related, F].
Qed.
Lemma del_related {A B} (R : A -> B -> Prop) l m i j k x : Forall2 R l m -> list_del_slice l i j k = Ok x -> exists y, list_del_slice m i j k = Ok y /\ Forall2 R x y.
Proof.
  intros F. unfold list_del_slice. rewrite <- (Forall2_length R l m F). destruct (_ =? 0); [discriminate|]. destruct (_ =? 1).
  - intro E; injection E as <-. eexists. split; [reflexivity|]. apply Forall2_app; [apply first_related, F|apply skip_related, F].
  - destruct (_ <=? 0); intro E; injection E as <-; eexists; (split; [reflexivity|]); [exact F|]. apply Forall2_app; [apply first_related, F|apply drop_related, skip_related, F].
Qed.
Lemma fill_related {A B} (R : A -> B -> Prop) k s vs : Forall2 R s vs -> forall l m i, Forall2 R l m -> Forall2 R (fill_loop l i k s) (fill_loop m i k vs).
Proof.
  induction 1 as [|x y s vs Hx Fs IH]; intros l m i F; [exact F|]. cbn [fill_loop]. apply IH. apply Forall2_app; [apply first_related, F|]. constructor; [exact Hx|exact (skip_related R (S _) l m F)].
Qed.
Lemma put_related {A B} (R : A -> B -> Prop) l m i j k s vs x : Forall2 R l m -> Forall2 R s vs -> list_put_slice l i j k (Some s) = Ok x -> exists y, list_put_slice m i j k (Some vs) = Ok y /\ Forall2 R x y.
Proof.
  intros F G. unfold list_put_slice. rewrite <- (Forall2_length R l m F), <- (Forall2_length R s vs G). destruct (_ =? 0); [discriminate|]. destruct (_ =? 1).
  - intro E; injection E as <-. eexists. split; [reflexivity|]. apply Forall2_app; [apply first_related, F|]. apply Forall2_app; [exact G|apply skip_related, F].
  - destruct (_ =? _); [|discriminate]. intro E; injection E as <-. eexists. split; [reflexivity|]. apply fill_related; assumption.
Qed.

Definition known (h : heap) (c : call) : Prop := match c with
  | PutNode _ a => exists v, holds h a v
  | PutSlice _ _ _ (Some s) => exists vals, Forall2 (shows h) s vals
  | _ => True
  end.
Lemma call_like_list h s l c x s' : Forall2 (shows h) s l -> known h c -> arr_call s c = (x, s') ->
  exists y l', plain_call h l c y l' /\ tells h x y /\ Forall2 (shows h) s' l'.
Proof.
  intros F K E. destruct c as [i|i j k| | |i v|i a|i|i j k|i j k given]; cbn in E.
  - unfold list_get in E. destruct (position (size s) i) as [p|] eqn:P.
    + apply position_in in P as (s1 & y & s2 & -> & -> & I). rewrite nth_error_app2, Nat.sub_diag in E by lia. cbn in E. injection E as <- <-.
      destruct (shows_split _ _ _ _ _ F) as (l1 & z & l2 & -> & F1 & Hz & F2). exists (AOne z), (l1 ++ z :: l2). split; [apply p_get; eapply index_related; eauto|]. split; [constructor; exact Hz|exact F].
    + injection E as <- <-. apply position_out in P. exists (AFail EIndex), l. split; [apply p_get_out; eapply outside_related; eauto|]. split; [constructor|exact F].
  - destruct (slice_ends s i j k) as [(m & S)|(-> & S)]; rewrite S in E; injection E as <- <-.
    + destruct (slice_related _ _ _ _ _ _ _ F S) as (m' & S' & F'). exists (AMany m'), l. split; [apply p_take, list_slice_picked, S'|]. split; [constructor; exact F'|exact F].
    + exists (AFail EValue), l. split; [apply p_take_zero|]. split; [constructor|exact F].
  - injection E as <- <-. exists (ASize (length l)), l. split; [constructor|]. split; [rewrite (Forall2_length _ _ _ F); constructor|exact F].
  - injection E as <- <-. exists (AMany l), l. split; [constructor|]. split; [constructor; exact F|exact F].
  - unfold list_put in E. destruct (position (size s) i) as [p|] eqn:P.
    + apply position_in in P as (s1 & y & s2 & -> & -> & I). destruct (cut s1 y s2) as [C1 C2]. rewrite C1, C2 in E. injection E as <- <-.
      destruct (shows_split _ _ _ _ _ F) as (l1 & z & l2 & -> & F1 & Hz & F2). exists ADone, (l1 ++ v :: l2). split; [apply p_put; eapply index_related; eauto|]. split; [constructor|]. apply Forall2_app; [exact F1|]. constructor; [constructor|exact F2].
    + injection E as <- <-. apply position_out in P. exists (AFail EIndex), l. split; [apply p_put_out; eapply outside_related; eauto|]. split; [constructor|exact F].
  - destruct K as (v & Hv). unfold list_put in E. destruct (position (size s) i) as [p|] eqn:P.
    + apply position_in in P as (s1 & y & s2 & -> & -> & I). destruct (cut s1 y s2) as [C1 C2]. rewrite C1, C2 in E. injection E as <- <-.
      destruct (shows_split _ _ _ _ _ F) as (l1 & z & l2 & -> & F1 & Hz & F2). exists ADone, (l1 ++ v :: l2). split; [apply p_put_node; [exact Hv|eapply index_related; eauto]|]. split; [constructor|]. apply Forall2_app; [exact F1|]. constructor; [constructor; exact Hv|exact F2].
    + injection E as <- <-. apply position_out in P. exists (AFail EIndex), l. split; [apply p_put_node_out; eapply outside_related; eauto|]. split; [constructor|exact F].
  - unfold list_del in E. destruct (position (size s) i) as [p|] eqn:P.
    + apply position_in in P as (s1 & y & s2 & -> & -> & I). destruct (cut s1 y s2) as [C1 C2]. rewrite C1, C2 in E. injection E as <- <-.
      destruct (shows_split _ _ _ _ _ F) as (l1 & z & l2 & -> & F1 & Hz & F2). exists ADone, (l1 ++ l2). split; [apply p_del; eapply index_related; eauto|]. split; [constructor|]. apply Forall2_app; assumption.
    + injection E as <- <-. apply position_out in P. exists (AFail EIndex), l. split; [apply p_del_out; eapply outside_related; eauto|]. split; [constructor|exact F].
  - destruct (list_del_slice s i j k) as [s1|e|] eqn:D; injection E as <- <-.
    + destruct (del_related _ _ _ _ _ _ _ F D) as (m & D' & F'). destruct (list_del_kept _ _ _ _ _ D') as [K0 Kp]. exists ADone, m. split; [apply p_del_slice; assumption|]. split; [constructor|exact F'].
    + unfold list_del_slice in D. fold (step_of k) in D. destruct (Z.eqb_spec (step_of k) 0) as [K0|]; [|destruct (_ =? 1); [discriminate|]; destruct (_ <=? 0); discriminate]. injection D as <-. destruct k as [z|]; [cbn in K0; subst z|discriminate K0].
      exists (AFail EValue), l. split; [apply p_del_slice_zero|]. split; [constructor|exact F].
    + unfold list_del_slice in D. destruct (_ =? 0); [discriminate|]. destruct (_ =? 1); [discriminate|]. destruct (_ <=? 0); discriminate.
  - destruct (Z.eq_dec (step_of k) 0) as [K0|K0].
    { destruct k as [z|]; [cbn in K0; subst z|discriminate K0]. cbn in E. injection E as <- <-. exists (AFail EValue), l. split; [apply p_put_slice_zero|]. split; [constructor|exact F]. }
    destruct given as [g|]; cbn in K.
    2: { unfold list_put_slice in E. fold (step_of k) in E. destruct (Z.eqb_spec (step_of k) 0) as [|_]; [contradiction|]. injection E as <- <-. exists (AFail EType), l. split; [apply p_put_nothing, K0|]. split; [constructor|exact F]. }
    destruct K as [vals Fv]. destruct (list_put_slice s i j k (Some g)) as [s1|e|] eqn:D; injection E as <- <-.
    + destruct (put_related _ _ _ _ _ _ _ _ _ F Fv D) as (m & D' & F'). exists ADone, m. split; [|split; [constructor|exact F']]. destruct (Z.eq_dec (step_of k) 1) as [K1|K1].
      * eapply p_put_slice; [exact Fv|exact K1|apply list_put_replaced; assumption].
      * eapply p_put_stepped; [exact Fv|exact K0|exact K1|apply list_put_filled; assumption].
    + unfold list_put_slice in D. fold (step_of k) in D. destruct (Z.eqb_spec (step_of k) 0) as [|_]; [contradiction|]. destruct (Z.eqb_spec (step_of k) 1) as [|K1]; [discriminate|].
      rewrite (Forall2_length _ _ _ F), (adjusted_begins l i k K0), (adjusted_ends l j k K0) in D. destruct (Z.eqb_spec (size g) (slice_count (begins l i k) (ends l j k) (step_of k))) as [|L]; [discriminate|]. injection D as <-.
      destruct (slice_size l i j k K0) as (old & So & Lo). exists (AFail EValue), l. split; [eapply p_put_uneven; [exact K1|apply list_slice_picked, So|lia]|]. split; [constructor|exact F].
    + unfold list_put_slice in D. destruct (_ =? 0); [discriminate|]. destruct (_ =? 1); [discriminate|]. destruct (_ =? _); discriminate.
Qed.
Lemma calls_like_list h cs : forall s l xs s', Forall2 (shows h) s l -> Forall (known h) cs -> arr_calls s cs = (xs, s') ->
  exists ys l', plain_calls h l cs ys l' /\ Forall2 (tells h) xs ys /\ Forall2 (shows h) s' l'.
Proof.
  induction cs as [|c cs IH]; intros s l xs s' F K E; cbn in E.
  - injection E as <- <-. exists [], l. split; [constructor|]. split; [constructor|exact F].
  - destruct (arr_call s c) as [x s1] eqn:E1. destruct (arr_calls s1 cs) as [xs' s2] eqn:E2. injection E as <- <-. inversion K as [|? ? K1 K2]; subst.
    destruct (call_like_list h s l c x s1 F K1 E1) as (y & l1 & P & T & F1). destruct (IH _ _ _ _ F1 K2 E2) as (ys & l2 & P2 & T2 & F2).
    exists (y :: ys), l2. split; [econstructor; eassumption|]. split; [constructor; assumption|exact F2].
Qed.

(** ** C105 *)
(** Any history of calls on the array of [l] answers like a list, each element
    being the wrapped value or, where it was assigned, the value itself *)
Theorem C105_list_exact h els l cs : Forall2 (holds h) els l -> Forall (known h) cs ->
  let '(xs, s) := arr_calls (fresh els) cs in exists ys l', plain_calls h l cs ys l' /\ Forall2 (tells h) xs ys /\ Forall2 (shows h) s l'.
Proof.
  intros F K. destruct (arr_calls (fresh els) cs) as [xs s] eqn:E. eapply calls_like_list; [|exact K|exact E].
  unfold fresh. clear - F. induction F; cbn; constructor; auto. constructor. assumption.
Qed.
(** and without assigned plain values everything read is a node *)
Definition is_node (s : slot) : Prop := exists a, s = SNode a.
Definition no_plain (c : call) : Prop := match c with Put _ _ => False | PutSlice _ _ _ (Some s) => Forall is_node s | _ => True end.
Definition nodes_only (x : answer slot) : Prop := match x with AOne s => is_node s | AMany l => Forall is_node l | _ => True end.
Lemma loop_in {A} (P : A -> Prop) l k : Forall P l -> forall c i, Forall P (slice_loop l i k c).
Proof. intro F. induction c as [|c IH]; intro i; cbn; [constructor|]. destruct (nth_error l _) eqn:E; constructor; auto. eapply Forall_forall; [exact F|]. eapply nth_error_In, E. Qed.
Lemma Forall_firstn {A} (P : A -> Prop) n l : Forall P l -> Forall P (firstn n l).
Proof. intro F. revert n. induction F; intros [|n]; cbn; constructor; auto. Qed.
Lemma Forall_skipn {A} (P : A -> Prop) n l : Forall P l -> Forall P (skipn n l).
Proof. intro F. revert n. induction F; intros [|n]; cbn; auto. Qed.
Lemma Forall_left {A B} (P : A -> Prop) l (m : list B) : Forall2 (fun x _ => P x) l m -> Forall P l.
Proof. induction 1; constructor; assumption. Qed.
Lemma Forall_self {A} (P : A -> Prop) l : Forall P l -> Forall2 (fun x _ => P x) l l.
Proof. induction 1; constructor; assumption. Qed.
Theorem C105_wrapped_partial els cs : Forall no_plain cs -> let '(xs, s) := arr_calls (fresh els) cs in Forall nodes_only xs /\ Forall is_node s.
Proof.
  intro K. assert (F : Forall is_node (fresh els)) by (apply Forall_forall; intros x Hx; apply in_map_iff in Hx as (a & <- & _); eexists; reflexivity).
  revert F. generalize (fresh els) as s. induction K as [|c cs Kc K IH]; intros s F; cbn; [split; [constructor|exact F]|].
  assert (S : nodes_only (fst (arr_call s c)) /\ Forall is_node (snd (arr_call s c))).
  { destruct c as [i|i j k| | |i v|i a|i|i j k|i j k [g|]]; cbn in *; try contradiction; auto.
    - unfold list_get. destruct (position _ _) as [p|]; cbn; [|auto]. destruct (nth_error s p) eqn:E; cbn; auto. split; [|exact F]. eapply Forall_forall; [exact F|]. eapply nth_error_In, E.
    - unfold list_slice. destruct (_ =? 0); cbn; auto. split; [apply loop_in, F|exact F].
    - unfold list_put. destruct (position _ _) as [p|]; cbn; [|auto]. split; [auto|]. apply Forall_app. split; [apply Forall_firstn, F|]. constructor; [eexists; reflexivity|exact (Forall_skipn _ (S p) _ F)].
    - unfold list_del. destruct (position _ _) as [p|]; cbn; [|auto]. split; [auto|]. apply Forall_app. split; [apply Forall_firstn, F|exact (Forall_skipn _ (S p) _ F)].
    - destruct (list_del_slice s i j k) as [s1|e|] eqn:D; cbn; auto. split; [auto|]. destruct (del_related _ _ _ _ _ _ _ (Forall_self _ _ F) D) as (y & _ & G). exact (Forall_left _ _ _ G).
    - destruct (list_put_slice s i j k (Some g)) as [s1|e|] eqn:D; cbn; auto. split; [auto|]. destruct (put_related _ _ _ _ _ _ _ _ _ (Forall_self _ _ F) (Forall_self _ _ Kc) D) as (y & _ & G). exact (Forall_left _ _ _ G).
    - destruct (list_put_slice s i j k None) as [s1|e|] eqn:D; cbn; auto. exfalso. unfold list_put_slice in D. destruct (_ =? 0); discriminate. }
  destruct (arr_call s c) as [x s1]. cbn in S. specialize (IH s1 (proj2 S)). destruct (arr_calls s1 cs) as [xs s2]. destruct IH. split; [constructor; tauto|assumption].
Qed.

(** A slice is a wrapped array of what Python's slice picks, and leaves every node as it is *)
Lemma val_app h g a p : val h a p -> val (h ++ g) a p.
Proof. intros (n & Hn & E). exists n. split; [|exact E]. unfold hget in *. rewrite nth_error_app1; [exact Hn|]. apply nth_error_Some. congruence. Qed.
Lemma map_slots_hold h owner m l : Forall2 (shows h) m l -> forall b i H, (forall a v, holds h a v -> holds H a v) -> placed H b (snd (map_slots owner b i m)) ->
  Forall2 (holds H) (fst (map_slots owner b i m)) l.
Proof.
  induction 1 as [|x v m l Hx F IH]; intros b i H M P; cbn in *; [constructor|]. inversion Hx as [a ? Ha|]; subst.
  - specialize (IH b (S i) H M). destruct (map_slots owner b (S i) m) as [els rest]. cbn in *. constructor; auto.
  - specialize (IH (b + length (wrap b (Some owner) (nat_str i) v))%nat (S i) H M). destruct (map_slots owner _ (S i) m) as [els rest]. cbn in *.
    apply placed_app in P as [P1 P2]. constructor; [eapply wrap_holds, P1|auto].
Qed.
Theorem C105_slice_exact h s l i j k : Forall2 (shows h) s l ->
  (k = Some 0 /\ arr_slice h s i j k = Raise EValue) \/
  (exists r h' m, arr_slice h s i j k = Ok (r, h') /\ picked l i j k m /\ holds h' r (VList m) /\ (forall a n, hget h a = Some n -> hget h' a = Some n)).
Proof.
  intro F. unfold arr_slice. destruct (slice_ends s i j k) as [(m & Q)|(-> & Q)]; rewrite Q; cbn [bind]; [|auto]. right.
  destruct (slice_related _ _ _ _ _ _ _ F Q) as (m' & Q' & F'). destruct (map_slots (length h) (S (length h)) 0 m) as [els rest] eqn:E.
  exists (length h), (h ++ Node (PArr els) None [] :: rest), m'. split; [reflexivity|]. split; [apply list_slice_picked, Q'|].
  pose proof (placed_end h (Node (PArr els) None [] :: rest)) as P. apply placed_cons in P as [P1 P2]. split.
  - eapply h_list; [eexists; split; [exact P1|reflexivity]|]. cbn [n_val].
    replace els with (fst (map_slots (length h) (S (length h)) 0 m)) by (rewrite E; reflexivity). eapply map_slots_hold; [exact F'| |rewrite E; exact P2].
    intros a v. apply holds_mono. intros; apply val_app; assumption.
  - intros a n Hn. unfold hget in *. rewrite nth_error_app1; [exact Hn|]. apply nth_error_Some. congruence.
Qed.

(** [value in array]: True when an equal element comes before any that cannot be
    compared, an error when one of those comes first, False when there is neither *)
Theorem C105_contains_exact h els l w n : Forall2 (holds h) els l ->
  (arr_contains h n (fresh els) (SRaw w) = Ok true <-> exists p x q, l = p ++ x :: q /\ Forall (fun y => ~ same_json y w /\ ~ clash y w) p /\ same_json x w) /\
  (arr_contains h n (fresh els) (SRaw w) = Raise EType <-> exists p x q, l = p ++ x :: q /\ Forall (fun y => ~ same_json y w /\ ~ clash y w) p /\ clash x w) /\
  (arr_contains h n (fresh els) (SRaw w) = Ok false <-> Forall (fun y => ~ same_json y w /\ ~ clash y w) l).
Proof.
  induction 1 as [|a v els l Ha F (I1 & I2 & I3)]; cbn [fresh map arr_contains].
  - assert (N : forall P : list pv -> pv -> list pv -> Prop, ~ exists p x q, @nil pv = p ++ x :: q /\ P p x q) by (intros P (p & x & q & E & _); destruct p; discriminate).
    split; [|split]; split; intro H; try discriminate; auto.
    + exfalso. destruct H as (p & x & q & E & _). destruct p; discriminate.
    + exfalso. destruct H as (p & x & q & E & _). destruct p; discriminate.
  - fold (fresh els). cbn [slot_equal].
    assert (C : forall P : pv -> Prop, (exists p x q, v :: l = p ++ x :: q /\ Forall (fun y => ~ same_json y w /\ ~ clash y w) p /\ P x) <->
      P v \/ ((~ same_json v w /\ ~ clash v w) /\ exists p x q, l = p ++ x :: q /\ Forall (fun y => ~ same_json y w /\ ~ clash y w) p /\ P x)).
    { intro P. split.
      - intros (p & x & q & E & N & H). destruct p as [|y p]; injection E as -> ->; [left; exact H|]. inversion N; subst. right. split; [assumption|]. exists p, x, q. auto.
      - intros [H|(N & p & x & q & -> & M & H)]; [exists [], v, l; auto|]. exists (v :: p), x, q. split; [reflexivity|]. split; [constructor; assumption|exact H]. }
    rewrite !C. clear C. assert (T : Forall (fun y => ~ same_json y w /\ ~ clash y w) (v :: l) <-> (~ same_json v w /\ ~ clash v w) /\ Forall (fun y => ~ same_json y w /\ ~ clash y w) l).
    { split; [intro H; inversion H; auto|intros [? ?]; constructor; assumption]. }
    rewrite T. clear T. destruct (compare_verdict h v a w Ha) as [(-> & S & C)|[(-> & S & C)|(-> & S & C)]]; cbn [bind].
    + intuition discriminate.
    + rewrite I1, I2, I3. tauto.
    + intuition discriminate.
Qed.
(** it answers as for the plain list when all elements can be compared *)
Theorem C105_contains_partial h els l w n : Forall2 (holds h) els l -> Forall (fun y => ~ clash y w) l ->
  (arr_contains h n (fresh els) (SRaw w) = Ok true <-> Exists (fun y => same_json y w) l) /\
  (arr_contains h n (fresh els) (SRaw w) = Ok false <-> ~ Exists (fun y => same_json y w) l).
Proof.
  intros F N. destruct (C105_contains_exact h els l w n F) as (T & _ & E). rewrite T, E. split; split; intro H.
  - destruct H as (p & x & q & -> & _ & H). apply Exists_app. right. constructor. exact H.
  - apply T. destruct (arr_contains h n (fresh els) (SRaw w)) as [[|]|e|] eqn:R; [reflexivity| | |].
    + exfalso. apply Exists_exists in H as (x & Hx & S). pose proof (proj1 E eq_refl) as A. rewrite Forall_forall in A. exact (proj1 (A x Hx) S).
    + exfalso. clear T E. revert R H. induction F as [|a v els l Ha F IH]; cbn; [discriminate|]. intros R H. fold (fresh els) in R. inversion N as [|? ? Nv Nl]; subst.
      destruct (compare_verdict h v a w Ha) as [(Q & S & C)|[(Q & S & C)|(Q & C & S)]]; rewrite Q in R; cbn [bind] in R; [discriminate| |contradiction].
      apply (IH Nl R). inversion H; subst; [contradiction|assumption].
    + exfalso. clear T E. revert R H. induction F as [|a v els l Ha F IH]; cbn; [discriminate|]. intros R H. fold (fresh els) in R. inversion N as [|? ? Nv Nl]; subst.
      destruct (compare_verdict h v a w Ha) as [(Q & S & C)|[(Q & S & C)|(Q & C & S)]]; rewrite Q in R; cbn [bind] in R; [discriminate| |contradiction].
      apply (IH Nl R). inversion H; subst; [contradiction|assumption].
  - intro X. apply Exists_exists in X as (x & Hx & S). rewrite Forall_forall in H. exact (proj1 (H x Hx) S).
  - apply Forall_forall. intros y Hy. rewrite Forall_forall in N. split; [|apply N, Hy]. intro S. apply H, Exists_exists. eauto.
Qed.
(** Assigned values are compared as plain ones: numbers by exact value, a bool as 0
    or 1, members in any order *)
Inductive worth_exactly : pv -> Q -> Prop :=
| x_int z : worth_exactly (VInt z) (inject_Z z)
| x_false : worth_exactly (VBool false) 0
| x_true : worth_exactly (VBool true) 1
| x_dec d : worth_exactly (VDec d) (dec_q d)
| x_float f : worth_exactly (VFloat f) (float_q f).
Inductive plain_same : pv -> pv -> Prop :=
| ps_null : plain_same VNone VNone
| ps_str s : plain_same (VStr s) (VStr s)
| ps_num x y p q : worth_exactly x p -> worth_exactly y q -> (p == q)%Q -> plain_same x y
| ps_list l m : Forall2 plain_same l m -> plain_same (VList l) (VList m)
| ps_dict d e : length d = length e -> Forall (fun kx => exists y, dget (fst kx) e = Some y /\ plain_same (snd kx) y) d -> plain_same (VDict d) (VDict e).
Lemma worth_num_q x p : worth_exactly x p <-> num_q x = Some p.
Proof.
  split.
  - intro H; inversion H; subst; reflexivity.
  - destruct x as [|[|]| | | | | |]; cbn; intro E; try discriminate; injection E as <-; constructor.
Qed.
Lemma num_same a b : opt_q_eqb (num_q a) (num_q b) = true <-> exists p q, worth_exactly a p /\ worth_exactly b q /\ (p == q)%Q.
Proof.
  split.
  - destruct (num_q a) as [p|] eqn:A, (num_q b) as [q|] eqn:B; cbn; try discriminate. intro E. exists p, q. rewrite !worth_num_q. split; [exact A|]. split; [exact B|]. apply Qeq_bool_iff, E.
  - intros (p & q & A & B & E). apply worth_num_q in A. apply worth_num_q in B. rewrite A, B. apply Qeq_bool_iff, E.
Qed.
Lemma py_eq_same a : forall b, py_eq a b = true <-> plain_same a b.
Proof.
  induction a as [a Hl Hd|l IH|d IH] using pv_ind_deep; intro b.
  - assert (N : forall c, (exists p q, worth_exactly a p /\ worth_exactly c q /\ (p == q)%Q) -> plain_same a c) by (intros c (p & q & A & B & E); econstructor; eassumption).
    assert (M : forall c, plain_same a c -> (a = VNone /\ c = VNone) \/ (exists s, a = VStr s /\ c = VStr s) \/ exists p q, worth_exactly a p /\ worth_exactly c q /\ (p == q)%Q).
    { intros c H. inversion H; subst; eauto 10; exfalso; [eapply Hl|eapply Hd]; reflexivity. }
    split.
    + destruct a; try (exfalso; eapply Hl; reflexivity); try (exfalso; eapply Hd; reflexivity); cbn [py_eq]; try (intro H; apply N, num_same, H).
      * destruct b; try discriminate. constructor.
      * destruct b; try discriminate. intro H. apply str_eqb_eq in H as ->. constructor.
    + intro H. apply M in H as [(-> & ->)|[(s & -> & ->)|H]]; [reflexivity|apply str_eqb_eq; reflexivity|].
      pose proof (proj2 (num_same a b) H) as Q. destruct H as (p & q & A & B & _). destruct A; cbn [py_eq]; exact Q.
  - assert (G : forall m, (fix go (l m : list pv) : bool := match l, m with [], [] => true | x :: l', y :: m' => py_eq x y && go l' m' | _, _ => false end) l m = true <-> Forall2 plain_same l m).
    { induction IH as [|x l Hx _ IHl]; intros [|y m]; split; intro H; try discriminate; try constructor; try reflexivity; try (inversion H; fail).
      - apply andb_true_iff in H as [H _]. apply Hx, H.
      - apply andb_true_iff in H as [_ H]. apply IHl, H.
      - inversion H; subst. apply andb_true_iff. split; [apply Hx; assumption|apply IHl; assumption]. }
    destruct b; cbn [py_eq]; try (split; [discriminate|intro H; inversion H as [| |? ? ? ? A| |]; subst; inversion A]).
    rewrite G. split; [constructor; assumption|]. intro H; inversion H as [| |? ? ? ? A| |]; subst; [inversion A|assumption].
  - destruct b as [| | | | | | |e]; cbn [py_eq]; try (split; [discriminate|intro H; inversion H as [| |? ? ? ? A| |]; subst; inversion A]).
    rewrite andb_true_iff, Nat.eqb_eq.
    assert (G : (fix go (d : list (pystr * pv)) : bool := match d with [] => true | (k, x) :: d' => match dget k e with Some y => py_eq x y && go d' | None => false end end) d = true <->
      Forall (fun kx => exists y, dget (fst kx) e = Some y /\ plain_same (snd kx) y) d).
    { induction IH as [|[k x] d Hx _ IHd]; [split; constructor|]. cbn [fst snd] in *. destruct (dget k e) as [y|] eqn:E.
      - rewrite andb_true_iff, IHd, (Hx y). split; [intros [A B]; constructor; [exists y; auto|exact B]|]. intro H; inversion H as [|? ? (z & Z & A) B]; subst. cbn in *. split; [congruence|exact B].
      - split; [discriminate|]. intro H; inversion H as [|? ? (z & Z & A) B]; subst. cbn in *. congruence. }
    rewrite G. split; [intros [A B]; constructor; assumption|]. intro H; inversion H as [| |? ? ? ? A| |]; subst; [inversion A|auto].
Qed.
Theorem C105_contains_assigned h l w n : exists b, arr_contains h n (map SRaw l) (SRaw w) = Ok b /\ (b = true <-> Exists (fun v => plain_same v w) l).
Proof.
  induction l as [|v l (b & E & IH)]; cbn [map arr_contains slot_equal bind].
  - exists false. split; [reflexivity|]. split; [discriminate|intro H; inversion H].
  - destruct (py_eq v w) eqn:Q; [exists true; split; [reflexivity|]; split; [intros _; constructor; apply py_eq_same, Q|reflexivity]|].
    exists b. split; [exact E|]. rewrite IH. split; intro H; [constructor 2; exact H|]. inversion H as [? ? A|]; subst; [|assumption]. apply py_eq_same in A. congruence.
Qed.
(** [node in array], for an array that may hold assigned values: each element
    that is a node is compared as in C102, an assigned value as the node compares
    with a plain value; [deep] is a stack deep enough for the elements. *)
Definition found (w : pv) (x : slot) (v : pv) : Prop := match x with SNode _ => equal v w | SRaw _ => same_json w v end.
Definition fails (w : pv) (x : slot) (v : pv) : Prop := match x with SNode _ => mismatch v w | SRaw _ => clash w v end.
Definition slot_holds (h : heap) (x : slot) (v : pv) : Prop := match x with SNode a => holds h a v | SRaw r => v = r end.
Inductive first_found (w : pv) : list slot -> list pv -> Prop :=
| ff_here x v s l : found w x v -> first_found w (x :: s) (v :: l)
| ff_next x v s l : ~ found w x v -> ~ fails w x v -> first_found w s l -> first_found w (x :: s) (v :: l).
Inductive first_fails (w : pv) : list slot -> list pv -> Prop :=
| fb_here x v s l : fails w x v -> first_fails w (x :: s) (v :: l)
| fb_next x v s l : ~ found w x v -> ~ fails w x v -> first_fails w s l -> first_fails w (x :: s) (v :: l).
Theorem C105_contains_node h s l b w n : Forall2 (slot_holds h) s l -> holds h b w ->
  Forall (fun v => distinct v /\ (height v <= n)%nat) l ->
  (arr_contains h n s (SNode b) = Ok true <-> first_found w s l) /\
  (arr_contains h n s (SNode b) = Raise EType <-> first_fails w s l) /\
  (arr_contains h n s (SNode b) = Ok false <-> Forall2 (fun x v => ~ found w x v /\ ~ fails w x v) s l).
Proof.
  intros F Hb. induction F as [|x v s l Hx F IH]; intro D.
  - cbn. split; [|split]; split; intro H; try discriminate; try (inversion H; fail); auto.
  - inversion D as [|? ? [Dv Hn] Dl]; subst. destruct (IH Dl) as (I1 & I2 & I3). clear IH.
    assert (C : slot_equal h n x (SNode b) = Ok true /\ found w x v /\ ~ fails w x v \/ slot_equal h n x (SNode b) = Ok false /\ ~ found w x v /\ ~ fails w x v \/ slot_equal h n x (SNode b) = Raise EType /\ fails w x v /\ ~ found w x v).
    { destruct x as [a|r]; cbn [slot_equal found fails slot_holds] in *.
      - pose proof (equal_verdict h v n a b w Hn Dv Hx Hb) as V. unfold identical_or_equal. destruct (Nat.eqb_spec a b) as [<-|]; [|exact V].
        destruct (equal_verdict h v n a a v Hn Dv Hx Hx) as [(E & Q & M)|[(E & Q & M)|(E & M & Q)]]; [|exfalso; apply Q, equal_refl, Dv|exfalso; apply Q, equal_refl, Dv].
        destruct V as [(E' & V)|[(E' & V)|(E' & V)]]; [left; split; [reflexivity|exact V]|congruence|congruence].
      - subst r. destruct (compare_verdict h w b v Hb) as [V|[V|V]]; auto. }
    cbn [arr_contains]. destruct C as [(-> & A & B)|[(-> & A & B)|(-> & A & B)]]; cbn [bind]; (split; [|split]); split; intro H; try discriminate; try reflexivity;
      try (constructor; assumption); try (inversion H; subst; tauto).
    + apply ff_next; [exact A|exact B|]. apply I1, H.
    + apply fb_next; [exact A|exact B|]. apply I2, H.
    + constructor; [auto|]. apply I3, H.
Qed.
(** the very object is found without a comparison, whatever it contains *)
Theorem C105_contains_itself h s a n : arr_contains h n (SNode a :: s) (SNode a) = Ok true.
Proof. cbn. unfold identical_or_equal. rewrite Nat.eqb_refl. reflexivity. Qed.
Example C105_contains_node_ex : let '(r, h) := new [] (VList [VInt 1; VInt 2]) in
  Forall2 (slot_holds h) [SRaw (VInt 7); SNode 1%nat; SNode 2%nat] [VInt 7; VInt 1; VInt 2] /\ holds h 2%nat (VInt 2) /\
  arr_contains h 1 [SRaw (VInt 7); SNode 1%nat; SNode 2%nat] (SNode 2%nat) = Ok true /\ arr_contains h 1 [SRaw (VInt 2)] (SNode 2%nat) = Ok true.
Proof. vm_compute. split; [|split; [|auto]]; [repeat constructor; eapply h_int; try reflexivity; eexists; split; reflexivity|eapply h_int; try reflexivity; eexists; split; reflexivity]. Qed.
(** the elements of a wrapped array *)
Definition elements (h : heap) (r : addr) : list addr := match hget h r with Some (Node (PArr els) _ _) => els | _ => [] end.
(** An assigned value is read back unwrapped; looking for a string after a number
    fails; the first element of the slice [array[1:]] says it is at [1]. *)
Theorem C105_refuted :
  (let '(r, h) := new [] (VList [VInt 1]) in fst (arr_calls (fresh (elements h r)) [Put 0 (VInt 2); Get 0]) = [ADone; AOne (SRaw (VInt 2))]) /\
  (let '(r, h) := new [] (VList [VInt 1; VStr (u "a")]) in forall n, arr_contains h n (fresh (elements h r)) (SRaw (VStr (u "a"))) = Raise EType) /\
  (let '(r, h) := new [] (VList [VInt 1; VInt 2]) in exists r' h' x, arr_slice h (fresh (elements h r)) (Some 1) None None = Ok (r', h') /\
     elements h' r' = [x] /\ node_path h' x = Ok [u "1"] /\ node_root h' x = Ok r /\ r <> r').
Proof.
  split; [vm_compute; reflexivity|]. split; [vm_compute; reflexivity|].
  exists 3%nat, [Node (PArr [1; 2]%nat) None []; Node (PNum (Dec 1 0)) (Some 0%nat) (u "0"); Node (PNum (Dec 2 0)) (Some 0%nat) (u "1"); Node (PArr [2]%nat) None []], 2%nat.
  vm_compute. repeat split; try reflexivity. discriminate.
Qed.
Example C105_slices : let '(r, h) := new [] (VList [VInt 0; VInt 1; VInt 2; VInt 3; VInt 4]) in
  Forall (known h) [DelSlice (Some (-1)) None (Some (-2)); PutSlice (Some 1) (Some 1) None (Some [SRaw (VInt 7); SNode 1%nat]); PutSlice None None (Some 3) (Some [SRaw VNone; SRaw VNone]); PutSlice None None (Some 3) (Some []); PutSlice None None None None; DelSlice (Some 1) (Some 3) None] /\
  snd (arr_calls (fresh (elements h r)) [DelSlice (Some (-1)) None (Some (-2))]) = [SNode 2; SNode 4]%nat /\
  arr_calls (fresh (elements h r)) [DelSlice (Some (-1)) None (Some (-2)); PutSlice (Some 1) (Some 1) None (Some [SRaw (VInt 7); SNode 1%nat]); PutSlice None None (Some 3) (Some [SRaw VNone; SRaw VNone]); PutSlice None None (Some 3) (Some []); PutSlice None None None None; DelSlice (Some 1) (Some 3) None] =
    ([ADone; ADone; ADone; AFail EValue; AFail EType; ADone], [SRaw VNone; SRaw VNone]).
Proof.
  destruct (new [] _) as [r h] eqn:E. vm_compute in E. injection E as <- <-. split; [|vm_compute; auto].
  repeat (apply Forall_cons; [cbn [known]; try exact I|]); [..|apply Forall_nil].
  - exists [VInt 7; VInt 0]. constructor; [constructor|]. constructor; [|constructor]. constructor. eapply h_int; [eexists; split; reflexivity|reflexivity].
  - exists [VNone; VNone]. repeat constructor.
  - exists []. constructor.
Qed.
Example C105_some : let '(r, h) := new [] (VList [VInt 1; VInt 2; VInt 3; VInt 4; VInt 5]) in
  Forall2 (holds h) (elements h r) [VInt 1; VInt 2; VInt 3; VInt 4; VInt 5] /\
  fst (arr_calls (fresh (elements h r)) [Get (-1); Del 1; Take (Some 5) None (Some (-2)); Len; Get 7]) =
    [AOne (SNode 5%nat); ADone; AMany [SNode 5; SNode 3]%nat; ASize 4%nat; AFail EIndex].
Proof. vm_compute. split; [|reflexivity]. repeat constructor; eapply h_int; try reflexivity; eexists; split; reflexivity. Qed.
