(** C108: pointers are immutable sequences of tokens, and equal when their tokens
    are. *)
From Verif Require Import PyBase PyBaseFacts PyVal OrderFacts Regex Pointer PropsPointer Arrays PropsArrays PointerObj.
Local Open Scope nat_scope.
Local Notation length := List.length (only parsing).

(** ** Specification *)
(** what the sequence [l] of tokens answers *)
Inductive says (l : list pystr) : ask -> answer -> Prop :=
| y_get p w q i : l = p ++ w :: q -> index_between i p q -> says l (Get i) (AWord w)
| y_get_out i : outside i l -> says l (Get i) (AFail EIndex)
| y_get_other : says l GetOther (AFail EType)
| y_len : says l Len (AInt (length l))
| y_iterate : says l Iterate (AWords l)
| y_reversed : says l Reversed (AWords (rev l))
| y_has w b : (b = true <-> In w l) -> says l (Has w) (ABool b)
| y_index p w q : l = p ++ w :: q -> ~ In w p -> says l (IndexOf w) (AInt (length p))
| y_index_none w : ~ In w l -> says l (IndexOf w) (AFail EValue)
| y_count w : says l (Count w) (AInt (count_occ (list_eq_dec N.eq_dec) l w))
| y_str s : s <> [] -> pointer_parse s = Ok l -> says l Str (AWord s)
| y_str_root : l = [] -> says l Str (AWord (u "/")).
(** the caller's list [h] holds [l] after what is in [log] *)
Definition content (h : nat) (l : list pystr) (log : list (pcall * answer)) : Prop :=
  exists before after, (log = before ++ (NewList l, AList h) :: after \/ log = before ++ (ChangeList h l, ADone) :: after) /\ forall l', ~ In (ChangeList h l', ADone) after.
(** the pointer [p] was made of a list that was changed afterwards *)
Definition spoiled (log : list (pcall * answer)) (p : nat) : Prop :=
  exists h l pre mid post, log = pre ++ (FromList h, APointer p) :: mid ++ (ChangeList h l, ADone) :: post.

(** [e] comes later in [log] than [d] *)
Definition later (log : list (pcall * answer)) (d e : pcall * answer) : Prop := exists pre mid post, log = pre ++ d :: mid ++ e :: post.

(** ** What the memory stands for *)
(** a pointer made of text or by slicing has its own tokens; one made of a list
    shares them with the caller *)
Inductive origin := Fixed (l : list pystr) | Shared (h : nat).
Record view := View { v_lists : list (list pystr); v_pointers : list origin }.
Definition tokens (v : view) (o : origin) : option (list pystr) := match o with Fixed l => Some l | Shared h => nth_error (v_lists v) h end.
Definition fresh_pointer (v : view) (o : origin) : view := View (v_lists v) (v_pointers v ++ [o]).
(** a list or pointer that does not exist *)
Definition unknown (v : view) (c : pcall) : Prop :=
  match c with
  | ChangeList h _ | FromList h => length (v_lists v) <= h
  | Slice p _ _ _ | Ask p _ => length (v_pointers v) <= p
  | Equal p q => length (v_pointers v) <= p \/ length (v_pointers v) <= q
  | NewList _ | Parse _ => False
  end.
Inductive vstep (v : view) : pcall -> answer -> view -> Prop :=
| vs_new l : vstep v (NewList l) (AList (length (v_lists v))) (View (v_lists v ++ [l]) (v_pointers v))
| vs_change h l : h < length (v_lists v) -> vstep v (ChangeList h l) ADone (View (list_update h l (v_lists v)) (v_pointers v))
| vs_parse s l : pointer_parse s = Ok l -> vstep v (Parse s) (APointer (length (v_pointers v))) (fresh_pointer v (Fixed l))
| vs_from h : h < length (v_lists v) -> vstep v (FromList h) (APointer (length (v_pointers v))) (fresh_pointer v (Shared h))
| vs_slice p o l i j k m : nth_error (v_pointers v) p = Some o -> tokens v o = Some l -> picked l i j k m -> vstep v (Slice p i j k) (APointer (length (v_pointers v))) (fresh_pointer v (Fixed m))
| vs_slice_zero p o l i j : nth_error (v_pointers v) p = Some o -> tokens v o = Some l -> vstep v (Slice p i j (Some 0%Z)) (AFail EValue) v
| vs_parse_fail s : ~ pointer_text s -> vstep v (Parse s) (AFail EValue) v
| vs_ask p o l q x : nth_error (v_pointers v) p = Some o -> tokens v o = Some l -> says l q x -> vstep v (Ask p q) x v
| vs_equal p q b : p < length (v_pointers v) -> q < length (v_pointers v) -> (b = true <-> p = q) -> vstep v (Equal p q) (ABool b) v
| vs_unknown c : unknown v c -> vstep v c (AFail EUnmodelled) v.
Inductive vsteps : view -> list (pcall * answer) -> view -> Prop :=
| vss_nil v : vsteps v [] v
| vss_cons v c x v1 log v2 : vstep v c x v1 -> vsteps v1 log v2 -> vsteps v ((c, x) :: log) v2.

(** ** Lemmas *)
Lemma get_says l i : says l (Get i) (settle AWord (list_get l i)).
Proof.
  unfold list_get. destruct (position (Z.of_nat (length l)) i) as [p|] eqn:E.
  - apply position_in in E as (l1 & x & l2 & -> & -> & B). rewrite nth_error_app2, Nat.sub_diag by lia. cbn. econstructor; [reflexivity|exact B].
  - apply position_out in E. cbn. constructor. exact E.
Qed.
Lemma list_get_nat {A} (l : list A) i : list_get l (Z.of_nat i) = match nth_error l i with Some x => Ok x | None => Raise EIndex end.
Proof.
  unfold list_get, position. destruct (Z.ltb_spec (Z.of_nat i) 0); [lia|]. destruct (nth_error l i) as [x|] eqn:E.
  - assert (i < length l) by (apply nth_error_Some; congruence). replace ((0 <=? Z.of_nat i)%Z && (Z.of_nat i <? Z.of_nat (length l))%Z) with true by (symmetry; lia). rewrite Nat2Z.id, E. reflexivity.
  - apply nth_error_None in E. replace ((0 <=? Z.of_nat i)%Z && (Z.of_nat i <? Z.of_nat (length l))%Z) with false by (symmetry; lia). reflexivity.
Qed.
Lemma index_says w : forall l2 l1 fuel, length l2 < fuel -> ~ In w l1 -> says (l1 ++ l2) (IndexOf w) (index_loop fuel (l1 ++ l2) w (length l1)).
Proof.
  induction l2 as [|x l2 IH]; intros l1 fuel F N; (destruct fuel as [|fuel]; [cbn in F; lia|]); cbn [index_loop]; rewrite list_get_nat.
  - rewrite app_nil_r. rewrite (proj2 (nth_error_None l1 (length l1)) (Nat.le_refl _)). constructor. exact N.
  - rewrite nth_error_app2, Nat.sub_diag by lia. cbn [nth_error]. destruct (str_eqb x w) eqn:E.
    + apply str_eqb_eq in E. subst x. econstructor; [reflexivity|exact N].
    + replace (l1 ++ x :: l2) with ((l1 ++ [x]) ++ l2) by (rewrite <- app_assoc; reflexivity). replace (S (length l1)) with (length (l1 ++ [x])) by (rewrite app_length; cbn; lia).
      apply IH; [cbn in F; lia|]. intro H. apply in_app_iff in H as [H|[H|[]]]; [exact (N H)|]. subst x. rewrite str_eqb_refl in E. discriminate.
Qed.
Lemma reversed_says l : reversed l = AWords (rev l).
Proof.
  unfold reversed. enough (H : forall l2 l1, fold_right (fun i acc => xs <- acc ;; x <- list_get (l1 ++ l2) (Z.of_nat i) ;; Ok (xs ++ [x])) (Ok []) (seq (length l1) (length l2)) = Ok (rev l2)) by (pose proof (H l []) as E; cbn [app length] in E; rewrite E; reflexivity).
  induction l2 as [|x l2 IH]; intro l1; [reflexivity|]. cbn [length seq fold_right].
  specialize (IH (l1 ++ [x])). rewrite <- app_assoc, app_length in IH. cbn [app] in IH. cbn [length] in IH. rewrite Nat.add_1_r in IH. rewrite IH.
  cbn [bind]. rewrite list_get_nat, nth_error_app2, Nat.sub_diag by lia. reflexivity.
Qed.
Lemma ask_says l q : says l q (pointer_ask l q).
Proof.
  destruct q; cbn [pointer_ask].
  - apply get_says.
  - constructor.
  - constructor.
  - constructor.
  - rewrite reversed_says. constructor.
  - constructor. split; intro H; [apply existsb_exists in H as (v & I & E); apply str_eqb_eq in E; subst; exact I|]. apply existsb_exists. exists w. split; [exact H|apply str_eqb_refl].
  - exact (index_says w l [] (S (length l)) (Nat.lt_succ_diag_r _) (fun H => H)).
  - replace (length (filter (fun v => str_eqb v w) l)) with (count_occ (list_eq_dec N.eq_dec) l w); [constructor|].
    induction l as [|x l IH]; [reflexivity|]. cbn [count_occ filter]. destruct (list_eq_dec N.eq_dec x w) as [->|N]; [rewrite str_eqb_refl; cbn [length]; rewrite IH; reflexivity|].
    destruct (str_eqb x w) eqn:E; [apply str_eqb_eq in E; contradiction|exact IH].
  - destruct l as [|x l]; [apply y_str_root; reflexivity|]. apply y_str; [discriminate|]. apply C01_tokens_survive. discriminate.
Qed.
Lemma update_length {A} n (x : A) l : length (list_update n x l) = length l.
Proof. revert n. induction l as [|y l IH]; intros [|n]; cbn; auto. Qed.
Lemma update_same {A} n (x : A) l : n < length l -> nth_error (list_update n x l) n = Some x.
Proof. revert n. induction l as [|y l IH]; intros [|n] H; cbn in *; try lia; [reflexivity|]. apply IH. lia. Qed.
Lemma update_other {A} n k (x : A) l : n <> k -> nth_error (list_update n x l) k = nth_error l k.
Proof. revert n k. induction l as [|y l IH]; intros [|n] [|k] H; cbn; auto; contradiction. Qed.

Lemma NoDup_snoc {A} (x : A) l : NoDup l -> ~ In x l -> NoDup (l ++ [x]).
Proof. induction 1 as [|y l Ny _ IH]; cbn; intro N; constructor; auto; [constructor|]. intro I. apply in_app_iff in I as [I|[->|[]]]; [exact (Ny I)|]. apply N. auto. Qed.

(** ** The memory and what it stands for *)
Record seen (m : pmem) (v : view) : Prop := Seen {
  s_mine : length (m_mine m) = length (v_lists v);
  s_pointers : length (m_pointers m) = length (v_pointers v);
  s_distinct : NoDup (m_mine m);
  s_lists : forall h i, nth_error (m_mine m) h = Some i -> i < length (m_lists m) /\ nth_error (m_lists m) i = nth_error (v_lists v) h;
  s_fixed : forall p a l, nth_error (m_pointers m) p = Some a -> nth_error (v_pointers v) p = Some (Fixed l) -> nth_error (m_lists m) a = Some l /\ ~ In a (m_mine m);
  s_shared : forall p a h, nth_error (m_pointers m) p = Some a -> nth_error (v_pointers v) p = Some (Shared h) -> nth_error (m_mine m) h = Some a }.
Lemma nth_snoc {A} (l : list A) x n y : nth_error (l ++ [x]) n = Some y -> nth_error l n = Some y \/ n = length l /\ y = x.
Proof.
  intro H. destruct (Nat.lt_ge_cases n (length l)) as [L|L]; [rewrite nth_error_app1 in H by exact L; auto|]. rewrite nth_error_app2 in H by exact L. destruct (n - length l) as [|k] eqn:E; [|destruct k; discriminate]. injection H as <-. right. split; [lia|reflexivity].
Qed.
Lemma nth_same {A B} (l : list A) (l' : list B) p x : length l = length l' -> nth_error l p = Some x -> exists y, nth_error l' p = Some y.
Proof. intros L H. destruct (nth_error l' p) eqn:E; [eauto|]. apply nth_error_None in E. assert (p < length l) by (apply nth_error_Some; congruence). lia. Qed.
Lemma seen_tokens m v p a : seen m v -> nth_error (m_pointers m) p = Some a -> exists o l, nth_error (v_pointers v) p = Some o /\ tokens v o = Some l /\ nth_error (m_lists m) a = Some l.
Proof.
  intros S H. destruct (nth_same _ _ _ _ (s_pointers _ _ S) H) as [o Ho]. exists o. destruct o as [l|h]; [exists l; split; [exact Ho|]; split; [reflexivity|exact (proj1 (s_fixed _ _ S _ _ _ H Ho))]|].
  pose proof (s_shared _ _ S _ _ _ H Ho) as Hh. destruct (s_lists _ _ S _ _ Hh) as [L E]. destruct (nth_error (m_lists m) a) as [l|] eqn:El; [|apply nth_error_None in El; lia]. exists l. auto.
Qed.
Lemma seen_fixed m v l : seen m v -> seen (snd (with_pointer m l)) (fresh_pointer v (Fixed l)).
Proof.
  intro S. split; cbn [snd with_pointer fresh_pointer m_lists m_mine m_pointers v_lists v_pointers]; rewrite ?app_length; cbn [length].
  - apply s_mine, S.
  - f_equal. apply s_pointers, S.
  - apply (s_distinct _ _ S).
  - intros h i H. destruct (s_lists _ _ S h i H) as [L E]. split; [lia|]. rewrite nth_error_app1 by exact L. exact E.
  - intros p a l' Hp Ho. apply nth_snoc in Hp as [Hp|[-> ->]].
    + rewrite nth_error_app1 in Ho by (rewrite <- (s_pointers _ _ S); apply nth_error_Some; congruence). destruct (s_fixed _ _ S _ _ _ Hp Ho) as [E N]. split; [|exact N]. rewrite nth_error_app1 by (apply nth_error_Some; congruence). exact E.
    + rewrite (s_pointers _ _ S), nth_error_app2, Nat.sub_diag in Ho by lia. injection Ho as <-. rewrite nth_error_app2, Nat.sub_diag by lia. split; [reflexivity|]. intro I. apply In_nth_error in I as [h H]. destruct (s_lists _ _ S _ _ H) as [L _]. lia.
  - intros p a h Hp Ho. apply nth_snoc in Hp as [Hp|[-> ->]].
    + rewrite nth_error_app1 in Ho by (rewrite <- (s_pointers _ _ S); apply nth_error_Some; congruence). exact (s_shared _ _ S _ _ _ Hp Ho).
    + rewrite (s_pointers _ _ S), nth_error_app2, Nat.sub_diag in Ho by lia. discriminate.
Qed.
Ltac unk := cbn [unknown]; match goal with S : seen _ _ |- _ => rewrite <- ?(s_mine _ _ S), <- ?(s_pointers _ _ S) end; rewrite <- !nth_error_None; auto.
Lemma seen_step m v c x m' : seen m v -> pointer_call m c = (x, m') -> exists v', vstep v c x v' /\ seen m' v'.
Proof.
  intros S E. destruct c as [l|h l|s|h|p i j k|p q|p q]; cbn [pointer_call] in E.
  - injection E as <- <-. rewrite (s_mine _ _ S). eexists. split; [constructor|]. split; cbn [m_lists m_mine m_pointers v_lists v_pointers]; rewrite ?app_length; cbn [length].
    + f_equal. apply s_mine, S.
    + apply s_pointers, S.
    + apply NoDup_snoc; [apply (s_distinct _ _ S)|]. intro I. apply In_nth_error in I as [h H]. destruct (s_lists _ _ S _ _ H) as [L _]. lia.
    + intros h i H. apply nth_snoc in H as [H|[-> ->]].
      * destruct (s_lists _ _ S h i H) as [L E]. split; [lia|]. rewrite !nth_error_app1; [exact E| |exact L]. rewrite <- (s_mine _ _ S). apply nth_error_Some. congruence.
      * split; [lia|]. rewrite (s_mine _ _ S), !nth_error_app2, !Nat.sub_diag by lia. reflexivity.
    + intros p a l' Hp Ho. destruct (s_fixed _ _ S _ _ _ Hp Ho) as [E N]. assert (a < length (m_lists m)) by (apply nth_error_Some; congruence). split; [rewrite nth_error_app1 by assumption; exact E|]. intro I. apply in_app_iff in I as [I|[I|[]]]; [exact (N I)|lia].
    + intros p a h Hp Ho. pose proof (s_shared _ _ S _ _ _ Hp Ho) as H. rewrite nth_error_app1 by (apply nth_error_Some; congruence). exact H.
  - destruct (nth_error (m_mine m) h) as [i|] eqn:H; injection E as <- <-; [|eexists; split; [apply vs_unknown; unk|exact S]].
    assert (Lh : h < length (v_lists v)) by (rewrite <- (s_mine _ _ S); apply nth_error_Some; congruence). destruct (s_lists _ _ S _ _ H) as [Li _].
    eexists. split; [apply vs_change; exact Lh|]. split; cbn [m_lists m_mine m_pointers v_lists v_pointers]; rewrite ?update_length; try apply S.
    + intros h' i' H'. destruct (s_lists _ _ S _ _ H') as [L' E']. split; [exact L'|]. destruct (Nat.eq_dec h h') as [<-|Nh].
      * rewrite H in H'. injection H' as <-. rewrite !update_same; auto.
      * rewrite !update_other; [exact E'|exact Nh|]. intros <-. apply Nh. refine (proj1 (NoDup_nth_error _) (s_distinct _ _ S) h h' _ _); [apply nth_error_Some|]; congruence.
    + intros p a l' Hp Ho. destruct (s_fixed _ _ S _ _ _ Hp Ho) as [E' N']. split; [|exact N']. rewrite update_other; [exact E'|]. intros ->. apply N'. eapply nth_error_In, H.
  - destruct (pointer_parse s) as [l|e|] eqn:Es.
    + pose proof (seen_fixed m v l S) as S'. unfold with_pointer in *. injection E as <- <-. rewrite (s_pointers _ _ S). eexists. split; [apply vs_parse, Es|exact S'].
    + injection E as <- <-. exists v. split; [|exact S]. assert (~ pointer_text s) as N by (intro P; apply C02_accepts in P as [l P]; congruence). rewrite (C02_rejects _ N) in Es. injection Es as <-. apply vs_parse_fail, N.
    + exfalso. unfold pointer_parse in Es. destruct (re_fullmatch pointer_regex s); discriminate.
  - destruct (nth_error (m_mine m) h) as [i|] eqn:H; injection E as <- <-; [|eexists; split; [apply vs_unknown; unk|exact S]].
    assert (Lh : h < length (v_lists v)) by (rewrite <- (s_mine _ _ S); apply nth_error_Some; congruence).
    rewrite (s_pointers _ _ S). eexists. split; [apply vs_from; exact Lh|]. split; cbn [fresh_pointer m_lists m_mine m_pointers v_lists v_pointers]; rewrite ?app_length; cbn [length]; try apply S.
    + f_equal. apply s_pointers, S.
    + intros p a l' Hp Ho. apply nth_snoc in Hp as [Hp|[-> ->]].
      * rewrite nth_error_app1 in Ho by (rewrite <- (s_pointers _ _ S); apply nth_error_Some; congruence). exact (s_fixed _ _ S _ _ _ Hp Ho).
      * rewrite (s_pointers _ _ S), nth_error_app2, Nat.sub_diag in Ho by lia. discriminate.
    + intros p a h' Hp Ho. apply nth_snoc in Hp as [Hp|[-> ->]].
      * rewrite nth_error_app1 in Ho by (rewrite <- (s_pointers _ _ S); apply nth_error_Some; congruence). exact (s_shared _ _ S _ _ _ Hp Ho).
      * rewrite (s_pointers _ _ S), nth_error_app2, Nat.sub_diag in Ho by lia. injection Ho as <-. exact H.
  - destruct (nth_error (m_pointers m) p) as [a|] eqn:Hp; [|injection E as <- <-; exists v; split; [apply vs_unknown; unk|exact S]].
    destruct (seen_tokens _ _ _ _ S Hp) as (o & l & Ho & Hl & Ha). rewrite Ha in E.
    destruct (slice_ends l i j k) as [[x0 Es]|[-> Es]]; rewrite Es in E.
    + pose proof (seen_fixed m v x0 S) as S'. unfold with_pointer in *. injection E as <- <-. rewrite (s_pointers _ _ S). eexists. split; [eapply vs_slice; [exact Ho|exact Hl|apply list_slice_picked, Es]|exact S'].
    + injection E as <- <-. exists v. split; [eapply vs_slice_zero; eassumption|exact S].
  - injection E as <- <-. exists v. split; [|exact S]. destruct (nth_error (m_pointers m) p) as [a|] eqn:Hp; [|apply vs_unknown; unk].
    destruct (seen_tokens _ _ _ _ S Hp) as (o & l & Ho & Hl & Ha). rewrite Ha. eapply vs_ask; [exact Ho|exact Hl|apply ask_says].
  - injection E as <- <-. exists v. split; [|exact S]. destruct (nth_error (m_pointers m) p) as [a|] eqn:Hp; [|apply vs_unknown; unk]. destruct (nth_error (m_pointers m) q) as [b|] eqn:Hq; [|apply vs_unknown; unk].
    apply vs_equal; [rewrite <- (s_pointers _ _ S); apply nth_error_Some; congruence..|]. apply Nat.eqb_eq.
Qed.
Lemma seen_steps cs : forall m v log m', seen m v -> pointer_calls m cs = (log, m') -> exists v', vsteps v log v' /\ seen m' v'.
Proof.
  induction cs as [|c cs IH]; intros m v log m' S E; cbn [pointer_calls] in E.
  - injection E as <- <-. exists v. split; [constructor|exact S].
  - destruct (pointer_call m c) as [x m1] eqn:E1. destruct (pointer_calls m1 cs) as [log1 m2] eqn:E2. injection E as <- <-.
    destruct (seen_step _ _ _ _ _ S E1) as (v1 & St & S1). destruct (IH _ _ _ _ S1 E2) as (v2 & Sts & S2). exists v2. split; [econstructor; eassumption|exact S2].
Qed.
Lemma seen_nothing : seen nothing (View [] []).
Proof. split; cbn; auto; [constructor|..]; intros [|?]; discriminate. Qed.
Lemma calls_log cs : forall m log m', pointer_calls m cs = (log, m') -> map fst log = cs.
Proof.
  induction cs as [|c cs IH]; intros m log m' E; cbn [pointer_calls] in E; [injection E as <- <-; reflexivity|].
  destruct (pointer_call m c) as [x m1]. destruct (pointer_calls m1 cs) as [log1 m2] eqn:E2. injection E as <- <-. cbn. f_equal. exact (IH _ _ _ E2).
Qed.
(** C108, what holds instead, for every history: a pointer made of text or of a
    slice answers as the sequence of its tokens; one made of a list answers as that
    list is now; two pointers are equal if they are the same object. *)
Theorem C108_exact cs log m : pointer_calls nothing cs = (log, m) -> map fst log = cs /\ exists v, vsteps (View [] []) log v.
Proof. intro E. split; [exact (calls_log _ _ _ _ E)|]. destruct (seen_steps _ _ _ _ _ seen_nothing E) as (v & H & _). eauto. Qed.

(** ** Histories *)
Lemma vsteps_app v l1 : forall l2 v', vsteps v (l1 ++ l2) v' -> exists v1, vsteps v l1 v1 /\ vsteps v1 l2 v'.
Proof.
  revert v. induction l1 as [|[c x] l1 IH]; intros v l2 v' H; [exists v; split; [constructor|exact H]|]. cbn in H. inversion H; subst. match goal with X : vsteps _ (l1 ++ l2) _ |- _ => destruct (IH _ _ _ X) as (v2 & A & B) end. exists v2. split; [econstructor; eassumption|exact B].
Qed.
Lemma vsteps_one v e v' : vsteps v [e] v' -> vstep v (fst e) (snd e) v'.
Proof. intro H. inversion H as [|? ? ? ? ? ? St Sts]; subst. inversion Sts; subst. exact St. Qed.
Lemma pointer_stays v log v' p o : vsteps v log v' -> nth_error (v_pointers v) p = Some o -> nth_error (v_pointers v') p = Some o.
Proof.
  induction 1 as [|v c x v1 log v2 St _ IH]; intro H; [exact H|]. apply IH. destruct St; cbn [fresh_pointer v_pointers]; auto; (rewrite nth_error_app1; [exact H|apply nth_error_Some; congruence]).
Qed.
Lemma list_stays v log v' h l : vsteps v log v' -> (forall l', ~ In (ChangeList h l', ADone) log) -> nth_error (v_lists v) h = Some l -> nth_error (v_lists v') h = Some l.
Proof.
  induction 1 as [|v c x v1 log v2 St _ IH]; intros N H; [exact H|]. apply IH; [intros l' I; exact (N l' (or_intror I))|]. destruct St as [l0|h0 l0 L0| | | | | | | |]; cbn [fresh_pointer v_lists]; auto.
  - rewrite nth_error_app1; [exact H|apply nth_error_Some; congruence].
  - rewrite update_other; [exact H|]. intros ->. exact (N l0 (or_introl eq_refl)).
Qed.
Lemma list_content log : forall v h l, vsteps (View [] []) log v -> nth_error (v_lists v) h = Some l -> content h l log.
Proof.
  induction log as [|[c x] log IH] using rev_ind; intros v h l H E.
  - inversion H; subst. destruct h; discriminate.
  - apply vsteps_app in H as (v1 & H & St). apply vsteps_one in St. cbn [fst snd] in St.
    assert (K : nth_error (v_lists v1) h = Some l -> (forall l', (c, x) <> (ChangeList h l', ADone)) -> content h l (log ++ [(c, x)])).
    { intros E1 N. destruct (IH _ _ _ H E1) as (b & a & [-> | ->] & Na); exists b, (a ++ [(c, x)]); (split; [rewrite <- app_assoc; cbn; auto|]; intros l' I; apply in_app_iff in I as [I|[I|[]]]; [exact (Na _ I)|exact (N _ I)]). }
    destruct St as [l0|h0 l0 L0|s l0 P|h0 L0|p o l0 i j k m0 Ho Hl P|p o l0 i j Ho Hl|s P|p o l0 q x Ho Hl Sy|p q b Lp Lq B|c U]; cbn [fresh_pointer v_lists] in E; try (apply K; [exact E|discriminate]).
    + apply nth_snoc in E as [E|[-> ->]]; [apply K; [exact E|discriminate]|]. exists log, []. split; [auto|intros l' []].
    + destruct (Nat.eq_dec h0 h) as [->|Nh]; [|rewrite update_other in E by exact Nh; apply K; [exact E|congruence]]. rewrite update_same in E by exact L0. injection E as ->. exists log, []. split; [auto|intros l' []].
Qed.
Lemma fresh_view v c p v1 : vstep v c (APointer p) v1 -> p = length (v_pointers v) /\ exists o, v1 = fresh_pointer v o /\
  match c with
  | Parse s => exists l, o = Fixed l /\ pointer_parse s = Ok l
  | FromList h => o = Shared h /\ h < length (v_lists v)
  | Slice p0 i j k => exists m o0 l, o = Fixed m /\ nth_error (v_pointers v) p0 = Some o0 /\ tokens v o0 = Some l /\ picked l i j k m
  | _ => False
  end.
Proof.
  intro H. inversion H as [|h l|s l P|h L|p0 o l i j k m Ho Hl P| | |p0 o l q x Ho Hl Sy| |]; subst; (split; [reflexivity|]) || (exfalso; inversion Sy; fail); eexists; (split; [reflexivity|]); eauto 10.
Qed.
Section History.
  Variables (log : list (pcall * answer)) (v : view).
  Hypothesis Run : vsteps (View [] []) log v.
  Definition its_tokens (p : nat) : list pystr := match nth_error (v_pointers v) p with Some o => match tokens v o with Some l => l | None => [] end | None => [] end.
  Lemma tokens_stay pre c p post v1 v2 : log = pre ++ (c, APointer p) :: post -> ~ spoiled log p -> vsteps (View [] []) pre v1 -> vstep v1 c (APointer p) v2 -> vsteps v2 post v ->
    forall mid post' v3, post = mid ++ post' -> vsteps v2 mid v3 -> vsteps v3 post' v -> exists o, nth_error (v_pointers v3) p = Some o /\ tokens v3 o = Some (its_tokens p).
  Proof.
    intros -> Ns _ St Hpost mid post' v3 -> Hmid Hpost'. destruct (fresh_view _ _ _ _ St) as (-> & o & -> & Hc).
    assert (H2 : nth_error (v_pointers (fresh_pointer v1 o)) (length (v_pointers v1)) = Some o) by (cbn; rewrite nth_error_app2, Nat.sub_diag by lia; reflexivity).
    pose proof (pointer_stays _ _ _ _ _ Hmid H2) as H3. pose proof (pointer_stays _ _ _ _ _ Hpost' H3) as Hv. exists o. split; [exact H3|]. unfold its_tokens. rewrite Hv.
    destruct o as [l|h]; [reflexivity|]. destruct c as [| | |h0|p0 i j k| |]; try contradiction.
    - destruct Hc as (? & Hc & _). discriminate.
    - destruct Hc as [[= ->] L]. cbn [tokens].
      assert (N : forall l', ~ In (ChangeList h0 l', ADone) (mid ++ post')).
      { intros l' I. apply in_split in I as (a & b & E). apply Ns. exists h0, l', pre, a, b. rewrite E. reflexivity. }
      destruct (nth_error (v_lists v1) h0) as [l|] eqn:El; [|apply nth_error_None in El; lia].
      assert (E3 : nth_error (v_lists v3) h0 = Some l) by (eapply list_stays; [exact Hmid| |exact El]; intros l' I; apply (N l'), in_app_iff; auto).
      rewrite E3. rewrite (list_stays _ _ _ h0 l Hpost'); [reflexivity| |exact E3]. intros l' I; apply (N l'), in_app_iff; auto.
    - destruct Hc as (? & ? & ? & Hc & _). discriminate.
  Qed.
End History.

Lemma says_known l q x : says l q x -> x <> AFail EUnmodelled.
Proof. intros [] E; discriminate. Qed.
Lemma ask_inv v p q x v' : vstep v (Ask p q) x v' -> (length (v_pointers v) <= p /\ x = AFail EUnmodelled) \/ exists o l, nth_error (v_pointers v) p = Some o /\ tokens v o = Some l /\ says l q x.
Proof. intro H. inversion H; subst; [right; eauto|left; auto]. Qed.
Lemma equal_inv v p q b v' : vstep v (Equal p q) (ABool b) v' -> (b = true <-> p = q).
Proof. intro H. inversion H; subst. assumption. Qed.

(** C108, for pointers that are not made of a list that is changed later: there is
    for each a sequence of tokens, fixed for the whole history, that gives all
    answers.  It is that of the text, list or slice the pointer was made of. *)
Theorem C108_partial cs log m : pointer_calls nothing cs = (log, m) -> exists T : nat -> list pystr, forall p, ~ spoiled log p ->
  (forall c q x, later log (c, APointer p) (Ask p q, x) -> says (T p) q x) /\
  (forall s, In (Parse s, APointer p) log -> pointer_parse s = Ok (T p)) /\
  (forall h pre post, log = pre ++ (FromList h, APointer p) :: post -> content h (T p) pre) /\
  (forall c i j k p', later log (c, APointer p) (Slice p i j k, APointer p') -> picked (T p) i j k (T p')).
Proof.
  intro E. destruct (proj2 (C108_exact _ _ _ E)) as [v R]. clear E. exists (its_tokens v). intros p Ns.
  split; [|split; [|split]].
  - intros c q x (pre & mid & post & ->). pose proof R as R0. apply vsteps_app in R0 as (v1 & R1 & R2). change ((c, APointer p) :: mid ++ (Ask p q, x) :: post) with ([(c, APointer p)] ++ mid ++ (Ask p q, x) :: post) in R2.
    apply vsteps_app in R2 as (v2 & S2 & R2). apply vsteps_one in S2. cbn [fst snd] in S2. pose proof R2 as R3. apply vsteps_app in R3 as (v3 & Rm & Rp).
    destruct (tokens_stay _ _ R pre c p _ v1 v2 eq_refl Ns R1 S2 R2 mid _ v3 eq_refl Rm Rp) as (o & Ho & Ht).
    change ((Ask p q, x) :: post) with ([(Ask p q, x)] ++ post) in Rp. apply vsteps_app in Rp as (v4 & S4 & _). apply vsteps_one in S4. cbn [fst snd] in S4.
    apply ask_inv in S4 as [[L _]|(o' & l & Ho' & Ht' & Sy)]; [apply nth_error_None in L; congruence|]. rewrite Ho in Ho'. injection Ho' as <-. rewrite Ht in Ht'. injection Ht' as <-. exact Sy.
  - intros s I. apply in_split in I as (pre & post & ->). pose proof R as R0. apply vsteps_app in R0 as (v1 & R1 & R2). change ((Parse s, APointer p) :: post) with ([(Parse s, APointer p)] ++ post) in R2.
    apply vsteps_app in R2 as (v2 & S2 & R2). apply vsteps_one in S2. cbn [fst snd] in S2. destruct (tokens_stay _ _ R pre _ p _ v1 v2 eq_refl Ns R1 S2 R2 [] post v2 eq_refl (vss_nil _) R2) as (o & Ho & Ht).
    destruct (fresh_view _ _ _ _ S2) as (-> & o' & -> & l & -> & P). cbn [fresh_pointer v_pointers] in Ho. rewrite nth_error_app2, Nat.sub_diag in Ho by lia. injection Ho as <-. cbn [tokens] in Ht. rewrite P. f_equal. congruence.
  - intros h pre post ->. pose proof R as R0. apply vsteps_app in R0 as (v1 & R1 & R2). change ((FromList h, APointer p) :: post) with ([(FromList h, APointer p)] ++ post) in R2.
    apply vsteps_app in R2 as (v2 & S2 & R2). apply vsteps_one in S2. cbn [fst snd] in S2. destruct (tokens_stay _ _ R pre _ p _ v1 v2 eq_refl Ns R1 S2 R2 [] post v2 eq_refl (vss_nil _) R2) as (o & Ho & Ht).
    destruct (fresh_view _ _ _ _ S2) as (-> & o' & -> & -> & L). cbn [fresh_pointer v_pointers] in Ho. rewrite nth_error_app2, Nat.sub_diag in Ho by lia. injection Ho as <-. cbn [tokens fresh_pointer v_lists] in Ht.
    exact (list_content _ _ _ _ R1 Ht).
  - intros c i j k p' (pre & mid & post & ->). pose proof R as R0. apply vsteps_app in R0 as (v1 & R1 & R2). change ((c, APointer p) :: mid ++ (Slice p i j k, APointer p') :: post) with ([(c, APointer p)] ++ mid ++ (Slice p i j k, APointer p') :: post) in R2.
    apply vsteps_app in R2 as (v2 & S2 & R2). apply vsteps_one in S2. cbn [fst snd] in S2. pose proof R2 as R3. apply vsteps_app in R3 as (v3 & Rm & Rp).
    destruct (tokens_stay _ _ R pre c p _ v1 v2 eq_refl Ns R1 S2 R2 mid _ v3 eq_refl Rm Rp) as (o & Ho & Ht).
    change ((Slice p i j k, APointer p') :: post) with ([(Slice p i j k, APointer p')] ++ post) in Rp. apply vsteps_app in Rp as (v4 & S4 & R4). apply vsteps_one in S4. cbn [fst snd] in S4.
    destruct (fresh_view _ _ _ _ S4) as (-> & o' & -> & x & o0 & l & -> & Ho0 & Hl & Pk). rewrite Ho in Ho0. injection Ho0 as <-. rewrite Ht in Hl. injection Hl as <-.
    assert (H4 : nth_error (v_pointers (fresh_pointer v3 (Fixed x))) (length (v_pointers v3)) = Some (Fixed x)) by (cbn; rewrite nth_error_app2, Nat.sub_diag by lia; reflexivity).
    unfold its_tokens at 2. rewrite (pointer_stays _ _ _ _ _ R4 H4). exact Pk.
Qed.
(** a pointer made of a list answers as the list is at the time *)
Theorem C108_shared cs log m h p q x pre mid post : pointer_calls nothing cs = (log, m) -> log = pre ++ (FromList h, APointer p) :: mid ++ (Ask p q, x) :: post ->
  exists l, content h l (pre ++ (FromList h, APointer p) :: mid) /\ says l q x.
Proof.
  intros E ->. destruct (proj2 (C108_exact _ _ _ E)) as [v R]. clear E. rewrite app_comm_cons, app_assoc in R. apply vsteps_app in R as (v3 & R & Rp).
  pose proof R as R0. apply vsteps_app in R0 as (v1 & R1 & R2). change ((FromList h, APointer p) :: mid) with ([(FromList h, APointer p)] ++ mid) in R2. apply vsteps_app in R2 as (v2 & S2 & Rm). apply vsteps_one in S2. cbn [fst snd] in S2.
  destruct (fresh_view _ _ _ _ S2) as (-> & o & -> & -> & L).
  assert (H3 : nth_error (v_pointers v3) (length (v_pointers v1)) = Some (Shared h)) by (apply (pointer_stays _ _ _ _ _ Rm); cbn; rewrite nth_error_app2, Nat.sub_diag by lia; reflexivity).
  change ((Ask (length (v_pointers v1)) q, x) :: post) with ([(Ask (length (v_pointers v1)) q, x)] ++ post) in Rp. apply vsteps_app in Rp as (v4 & S4 & _). apply vsteps_one in S4. cbn [fst snd] in S4.
  apply ask_inv in S4 as [[L' _]|(o' & l & Ho' & Ht' & Sy)]; [apply nth_error_None in L'; congruence|]. rewrite H3 in Ho'. injection Ho' as <-. exists l. split; [exact (list_content _ _ _ _ R Ht')|exact Sy].
Qed.
(** only the same object is equal *)
Theorem C108_equal cs log m p q b : pointer_calls nothing cs = (log, m) -> In (Equal p q, ABool b) log -> (b = true <-> p = q).
Proof.
  intros E I. destruct (proj2 (C108_exact _ _ _ E)) as [v R]. apply in_split in I as (pre & post & ->). apply vsteps_app in R as (v1 & _ & R). change ((Equal p q, ABool b) :: post) with ([(Equal p q, ABool b)] ++ post) in R.
  apply vsteps_app in R as (v2 & St & _). apply vsteps_one in St. exact (equal_inv _ _ _ _ _ St).
Qed.
(** a pointer that prints [/a], and after the list it was made of is changed [/b];
    and two pointers with one text that are not equal *)
Theorem C108_refuted :
  (exists log m h, pointer_calls nothing [NewList [u "a"]; FromList 0; Ask 0 Str; ChangeList 0 [u "b"]; Ask 0 Str] = (log, m) /\
    later log (FromList h, APointer 0) (Ask 0 Str, AWord (u "/a")) /\ later log (FromList h, APointer 0) (Ask 0 Str, AWord (u "/b")) /\
    forall l, ~ (says l Str (AWord (u "/a")) /\ says l Str (AWord (u "/b")))) /\
  (exists m, pointer_calls nothing [Parse (u "/a"); Parse (u "/a"); Equal 0 1] = ([(Parse (u "/a"), APointer 0); (Parse (u "/a"), APointer 1); (Equal 0 1, ABool false)], m)).
Proof.
  split; [|eexists; vm_compute; reflexivity]. do 2 eexists. exists 0. split; [vm_compute; reflexivity|].
  split; [eexists [_], [], _; reflexivity|]. split; [eexists [_], [_; _], []; reflexivity|].
  intros l [A B]. assert (K : forall w, w <> u "/" -> says l Str (AWord w) -> pointer_parse w = Ok l) by (intros w N H; inversion H; subst; [assumption|congruence]).
  apply K in A; [|discriminate]. apply K in B; [|discriminate]. vm_compute in A, B. congruence.
Qed.
(** a history with pointers of all three kinds, none of them spoiled *)
Definition C108_history : list pcall :=
  [NewList [u "x"; u "y"; u "x"]; NewList []; FromList 0; Parse (u "/a~1b/c/d"); Slice 1 None None (Some (-1)%Z); ChangeList 1 [u "z"]; Ask 2 Str; Ask 0 (IndexOf (u "y")); Ask 0 (Count (u "x")); Ask 1 (Get (-3)%Z); Ask 0 Reversed; Equal 0 0].
Example C108_some : let log := fst (pointer_calls nothing C108_history) in
  map snd log = [AList 0; AList 1; APointer 0; APointer 1; APointer 2; ADone; AWord (u "/d/c/a~1b"); AInt 1; AInt 2; AWord (u "a/b"); AWords [u "x"; u "y"; u "x"]; ABool true] /\ forall p, ~ spoiled log p.
Proof.
  cbn zeta. split; [vm_compute; reflexivity|]. intros p (h & l & pre & mid & post & E).
  assert (A : In (FromList h, APointer p) (fst (pointer_calls nothing C108_history))) by (rewrite E; apply in_app_iff; right; left; reflexivity).
  assert (B : In (ChangeList h l, ADone) (fst (pointer_calls nothing C108_history))) by (rewrite E; apply in_app_iff; right; right; apply in_app_iff; right; left; reflexivity).
  vm_compute in A, B. repeat (destruct A as [A|A]; [try discriminate A; injection A as <- <-|]); try destruct A. repeat (destruct B as [B|B]; [discriminate B|]); destruct B.
Qed.
Print Assumptions C108_exact. Print Assumptions C108_partial. Print Assumptions C108_shared. Print Assumptions C108_equal. Print Assumptions C108_refuted.
