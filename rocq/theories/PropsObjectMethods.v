(** C110: objects have the methods of a dict. *)
From Verif Require Import PyBase PyBaseFacts PyVal Numbers Uri Heap HeapFacts PropsPlaces ObjectMethods.
From Verif Require Arrays.
Local Open Scope nat_scope.
Local Notation length := List.length (only parsing).

(** ** Specification: Python's [dict] *)
(** names and the nodes under them, in the order of insertion *)
Notation members := (list (pystr * addr)).
Section Spec.
  Variable r : addr.                           (* the object *)
  (** nothing else is touched *)
  Definition kept (h h' : heap) : Prop := forall b n, b <> r -> hget h b = Some n -> hget h' b = Some n.
  (** [a] is the node for [x]: [x] itself, or a new one that holds the value *)
  Definition node_for (h h' : heap) (x : slot) (a : addr) : Prop :=
    match x with SNode b => a = b | SRaw v => hget h a = None /\ holds h' a v end.
  (** assignments, one after the other *)
  Inductive set_all : heap -> members -> list (pystr * slot) -> heap -> members -> Prop :=
  | sa_nil h d : set_all h d [] h d
  | sa_cons h d k x a h1 l h2 d2 : node_for h h1 x a -> kept h h1 -> set_all h1 (dset k a d) l h2 d2 -> set_all h d ((k, x) :: l) h2 d2.
  (** What the call on a dict of these members answers and leaves.  *)
  Inductive as_dict (h : heap) (d : members) : mcall -> manswer -> heap -> members -> Prop :=
  | ad_item k a : dget k d = Some a -> as_dict h d (MItem k) (RSlot (SNode a)) h d
  | ad_no_item k : dget k d = None -> as_dict h d (MItem k) (RFail (EKey k)) h d
  | ad_has k b : (b = true <-> In k (dkeys d)) -> as_dict h d (MHas k) (RBool b) h d
  | ad_keys : as_dict h d MKeys (RKeys (dkeys d)) h d
  | ad_len : as_dict h d MLen (RSize (length d)) h d
  | ad_set k x a h' : node_for h h' x a -> as_dict h d (MSet k x) RDone h' (dset k a d)
  | ad_del k a h' : dget k d = Some a -> as_dict h d (MDel k) RDone h' (ddel k d)
  | ad_no_del k : dget k d = None -> as_dict h d (MDel k) (RFail (EKey k)) h d
  | ad_get k x a : dget k d = Some a -> as_dict h d (MGet k x) (RSlot (SNode a)) h d
  | ad_no_get k x : dget k d = None -> as_dict h d (MGet k x) (RSlot x) h d
  | ad_pop k x a h' : dget k d = Some a -> as_dict h d (MPop k x) (RSlot (SNode a)) h' (ddel k d)
  | ad_no_pop k x : dget k d = None -> as_dict h d (MPop k (Some x)) (RSlot x) h d
  | ad_bad_pop k : dget k d = None -> as_dict h d (MPop k None) (RFail (EKey k)) h d
  | ad_popitem k a d' h' : d = d' ++ [(k, a)] -> as_dict h d MPopitem (RPair k a) h' d'            (* the last one *)
  | ad_bad_popitem m : d = [] -> as_dict h d MPopitem (RFail (EKey m)) h d
  | ad_clear h' : as_dict h d MClear RDone h' []
  | ad_update l h' d' : set_all h d l h' d' -> as_dict h d (MUpdate l) RDone h' d'
  | ad_default k x a : dget k d = Some a -> as_dict h d (MSetdefault k x) (RSlot (SNode a)) h d
  | ad_new_default k x a h' : dget k d = None -> node_for h h' x a -> as_dict h d (MSetdefault k x) (RSlot (SNode a)) h' (d ++ [(k, a)]).   (* what is stored *)
  (** Where it is not so: deleting what is not there, taking an item when there are
      several, a default that is put in as a plain value *)
  Definition odd (d : members) (c : mcall) : Prop :=
    match c with
    | MDel k => dget k d = None
    | MPopitem => 2 <= length d
    | MSetdefault k (SRaw _) => dget k d = None
    | _ => False
    end.
  (** and what happens there: no error, the first item, the plain value *)
  Inductive oddly (h : heap) (d : members) : mcall -> manswer -> heap -> members -> Prop :=
  | od_del k : oddly h d (MDel k) RDone h d
  | od_popitem k a d' h' : d = (k, a) :: d' -> oddly h d MPopitem (RPair k a) h' d'
  | od_default k v a h' : node_for h h' (SRaw v) a -> oddly h d (MSetdefault k (SRaw v)) (RSlot (SRaw v)) h' (d ++ [(k, a)]).
  (** a history of calls, each of which goes as [step] says *)
  Inductive goes (step : heap -> members -> mcall -> manswer -> heap -> members -> Prop) : heap -> members -> list mcall -> list manswer -> heap -> members -> Prop :=
  | go_nil h d : goes step h d [] [] h d
  | go_cons h d c x h1 d1 l xs h2 d2 : step h d c x h1 d1 -> kept h h1 -> goes step h1 d1 l xs h2 d2 -> goes step h d (c :: l) (x :: xs) h2 d2.
End Spec.

(** ** Proofs *)
Lemma kept_refl r h : kept r h h. Proof. intros b n _ H. exact H. Qed.
Lemma kept_trans r h1 h2 h3 : kept r h1 h2 -> kept r h2 h3 -> kept r h1 h3. Proof. intros A B b n Hb H. apply B; [exact Hb|]. apply A; assumption. Qed.
Lemma set_item_ok h r d k x : obj_items h r = Ok d -> exists h' a, set_item h r k x = Ok h' /\ obj_items h' r = Ok (dset k a d) /\ node_for h h' x a /\ kept r h h'.
Proof.
  intro H. destruct x as [a|v]; cbn [set_item].
  - pose proof (items_node r h d k a H) as I. pose proof (fun b n Hb Hn => C41_frame h (ESetNode r k a) b n Hn Hb) as F. cbn [edited] in *. unfold obj_set_node in *. rewrite H in *. cbn [bind] in *.
    eexists _, a. split; [reflexivity|]. split; [exact I|]. split; [reflexivity|]. intros b n Hb Hn. apply F; [congruence|exact Hn].
  - pose proof (items_set r h d k v H) as I. destruct (C41_value h r d k v H) as (c & G & Hc). pose proof (fun b n Hb Hn => C41_frame h (ESet r k v) b n Hn Hb) as F.
    unfold obj_get in G. rewrite I in G. cbn [bind] in G. rewrite dget_dset, str_eqb_refl in G. injection G as <-. cbn [edited] in *. unfold obj_set in *. rewrite H in *. cbn [bind] in *.
    eexists _, (length h). split; [reflexivity|]. split; [exact I|]. split; [split; [apply nth_error_None; lia|exact Hc]|]. intros b n Hb Hn. apply F; [congruence|exact Hn].
Qed.
Lemma del_item_ok h r d k : obj_items h r = Ok d -> exists h', obj_del h r k = Ok h' /\ obj_items h' r = Ok (ddel k d) /\ kept r h h' /\ (dget k d = None -> h' = h /\ ddel k d = d).
Proof.
  intro H. pose proof (items_del r h d k H) as I. pose proof (fun b n Hb Hn => C41_frame h (EDel r k) b n Hn Hb) as F. cbn [edited] in *. unfold obj_del in *. rewrite H in *. cbn [bind] in *.
  eexists. split; [reflexivity|]. split; [exact I|]. split; [intros b n Hb Hn; apply F; [congruence|exact Hn]|]. intro G. assert (M : dmem k d = false) by (apply dmem_false; apply dget_None, G). rewrite M. split; [reflexivity|]. apply ddel_absent, M.
Qed.
Lemma pop_item_ok h r k a d : obj_items h r = Ok ((k, a) :: d) -> exists h', pop_item h r = Ok (h', (k, a)) /\ obj_items h' r = Ok d /\ kept r h h'.
Proof.
  intro H. unfold pop_item, obj_keys, obj_get. rewrite H. cbn [bind dkeys map fst dget]. rewrite str_eqb_refl. cbn [bind].
  destruct (del_item_ok h r _ k H) as (h' & E & I & K & _). rewrite E. cbn [bind]. exists h'. split; [reflexivity|]. cbn [ddel] in I. rewrite str_eqb_refl in I. auto.
Qed.
Lemma clear_ok fuel r d : forall h, length d < fuel -> obj_items h r = Ok d -> exists h', clear_loop fuel h r = (h', RDone) /\ obj_items h' r = Ok [] /\ kept r h h'.
Proof.
  revert d. induction fuel as [|f IH]; intros d h L H; [lia|]. cbn [clear_loop]. destruct d as [|[k a] d].
  - unfold pop_item, obj_keys. rewrite H. cbn. exists h. split; [reflexivity|]. split; [exact H|apply kept_refl].
  - destruct (pop_item_ok h r k a d H) as (h1 & E & I & K). rewrite E. cbn in L. destruct (IH d h1 ltac:(lia) I) as (h2 & E2 & I2 & K2). exists h2. split; [exact E2|]. split; [exact I2|]. eapply kept_trans; eassumption.
Qed.
Lemma update_ok r l : forall h d, obj_items h r = Ok d -> exists h' d', update_loop h r l = (h', RDone) /\ obj_items h' r = Ok d' /\ kept r h h' /\ set_all r h d l h' d' /\ (NoDup (dkeys d) -> NoDup (dkeys d')).
Proof.
  induction l as [|[k x] l IH]; intros h d H; cbn [update_loop].
  - exists h, d. split; [reflexivity|]. split; [exact H|]. split; [apply kept_refl|]. split; [constructor|auto].
  - destruct (set_item_ok h r d k x H) as (h1 & a & E & I & N & K). rewrite E. destruct (IH h1 _ I) as (h2 & d2 & E2 & I2 & K2 & S & Nd). exists h2, d2. split; [exact E2|]. split; [exact I2|].
    split; [eapply kept_trans; eassumption|]. split; [econstructor; eassumption|]. intro H0. apply Nd, NoDup_dset, H0.
Qed.
Lemma dset_new {A} k (a : A) d : dget k d = None -> dset k a d = d ++ [(k, a)].
Proof. induction d as [|[k1 x] d IH]; cbn; [reflexivity|]. destruct (str_eqb k k1); [discriminate|]. intro H. rewrite IH by exact H. reflexivity. Qed.

(** C110, what each call does.  [fuel] is only used up by [clear], one for each member. *)
Lemma call_ok fuel h r d c h' x : obj_items h r = Ok d -> NoDup (dkeys d) -> length d < fuel -> obj_call fuel h r c = (h', x) ->
  exists d', obj_items h' r = Ok d' /\ NoDup (dkeys d') /\ kept r h h' /\ (odd d c -> oddly h d c x h' d') /\ (~ odd d c -> as_dict r h d c x h' d').
Proof.
  intros H N L E. assert (G : forall k, obj_get h r k = match dget k d with Some a => Ok a | None => Raise (EKey k) end) by (intro k; unfold obj_get; rewrite H; reflexivity).
  assert (DD : forall k, NoDup (dkeys (ddel k d))) by (intro k; apply NoDup_ddel, N).
  destruct c as [k|k| | |k y|k|k y|k y| | |l|k y]; cbn [obj_call] in E; try rewrite G in E.
  - exists d. destruct (dget k d) as [a|] eqn:Q; cbn [answer] in E; injection E as <- <-; (split; [exact H|]); (split; [exact N|]); (split; [apply kept_refl|]); (split; [intros []|intros _]); constructor; exact Q.
  - unfold obj_has in E. rewrite H in E. injection E as <- <-. exists d. split; [exact H|]. split; [exact N|]. split; [apply kept_refl|]. split; [intros []|intros _]. constructor. apply dmem_In.
  - unfold obj_keys in E. rewrite H in E. injection E as <- <-. exists d. split; [exact H|]. split; [exact N|]. split; [apply kept_refl|]. split; [intros []|intros _]. constructor.
  - unfold obj_len in E. rewrite H in E. injection E as <- <-. exists d. split; [exact H|]. split; [exact N|]. split; [apply kept_refl|]. split; [intros []|intros _]. constructor.
  - destruct (set_item_ok h r d k y H) as (h1 & a & E1 & I & F & K). rewrite E1 in E. injection E as <- <-. eexists. split; [exact I|]. split; [apply NoDup_dset, N|]. split; [exact K|]. split; [intros []|intros _]. constructor. exact F.
  - destruct (del_item_ok h r d k H) as (h1 & E1 & I & K & M). rewrite E1 in E. injection E as <- <-. eexists. split; [exact I|]. split; [apply DD|]. split; [exact K|]. cbn [odd]. split; intro O.
    + destruct (M O) as [-> ->]. constructor.
    + destruct (dget k d) as [a|] eqn:Q; [|contradiction]. econstructor; exact Q.
  - exists d. destruct (dget k d) as [a|] eqn:Q; injection E as <- <-; (split; [exact H|]); (split; [exact N|]); (split; [apply kept_refl|]); (split; [intros []|intros _]); constructor; exact Q.
  - destruct (dget k d) as [a|] eqn:Q.
    + destruct (del_item_ok h r d k H) as (h1 & E1 & I & K & _). rewrite E1 in E. injection E as <- <-. eexists. split; [exact I|]. split; [apply DD|]. split; [exact K|]. split; [intros []|intros _]. constructor. exact Q.
    + injection E as <- <-. exists d. split; [exact H|]. split; [exact N|]. split; [apply kept_refl|]. split; [intros []|intros _]. destruct y; constructor; exact Q.
  - destruct d as [|[k a] d].
    + unfold pop_item, obj_keys in E. rewrite H in E. cbn in E. injection E as <- <-. exists []. split; [exact H|]. split; [exact N|]. split; [apply kept_refl|]. split; [cbn; lia|intros _]. constructor. reflexivity.
    + destruct (pop_item_ok h r k a d H) as (h1 & E1 & I & K). rewrite E1 in E. injection E as <- <-. exists d. split; [exact I|]. split; [inversion N; assumption|]. split; [exact K|]. cbn [odd length]. split; intro O.
      * econstructor. reflexivity.
      * destruct d; [|cbn in O; lia]. eapply (ad_popitem _ _ _ k a []). reflexivity.
  - destruct (clear_ok fuel r d h L H) as (h1 & E1 & I & K). rewrite E1 in E. injection E as <- <-. exists []. split; [exact I|]. split; [constructor|]. split; [exact K|]. split; [intros []|intros _]. constructor.
  - destruct (update_ok r l h d H) as (h1 & d1 & E1 & I & K & S & Nd). rewrite E1 in E. injection E as <- <-. exists d1. split; [exact I|]. split; [auto|]. split; [exact K|]. split; [intros []|intros _]. constructor. exact S.
  - destruct (dget k d) as [a|] eqn:Q.
    + injection E as <- <-. exists d. split; [exact H|]. split; [exact N|]. split; [apply kept_refl|]. split; [destruct y; cbn; [intros []|congruence]|intros _]. constructor. exact Q.
    + destruct (set_item_ok h r d k y H) as (h1 & a & E1 & I & F & K). rewrite E1 in E. injection E as <- <-. rewrite (dset_new k a d Q) in I. eexists. split; [exact I|]. split.
      { rewrite <- (dset_new k a d Q). apply NoDup_dset, N. }
      split; [exact K|]. destruct y as [b|v]; cbn [odd]; (split; [|intro O]); try (intros []); try congruence.
      * cbn [node_for] in F. subst b. eapply ad_new_default; [exact Q|reflexivity].
      * constructor. exact F.
Qed.
(** the number of members a history can reach *)
Definition room (d : members) (l : list mcall) : nat := length d + list_sum (map (fun c => match c with MSet _ _ | MSetdefault _ _ => 1 | MUpdate m => length m | _ => 0 end) l).
Lemma length_dset {A} k (a : A) d : length (dset k a d) <= S (length d).
Proof. induction d as [|[k1 x] d IH]; cbn; [lia|]. destruct (str_eqb k k1); cbn; lia. Qed.
Lemma length_ddel {A} k (d : list (pystr * A)) : length (ddel k d) <= length d.
Proof. induction d as [|[k1 x] d IH]; cbn; [lia|]. destruct (str_eqb k k1); cbn; lia. Qed.
Lemma length_all r h d l h' d' : set_all r h d l h' d' -> length d' <= length d + length l.
Proof. induction 1 as [|h d k x a h1 l h2 d2 _ _ _ IH]; cbn [length]; [lia|]. pose proof (length_dset k a d). lia. Qed.
Lemma room_step r h d c x h' d' l : as_dict r h d c x h' d' \/ oddly h d c x h' d' -> room d' l <= room d (c :: l).
Proof.
  unfold room. cbn [map list_sum fold_right]. fold (list_sum (map (fun c => match c with MSet _ _ | MSetdefault _ _ => 1 | MUpdate m => length m | _ => 0 end) l)).
  intros [S|S]; destruct S; subst; try rewrite app_length; cbn [length]; try lia; try (pose proof (length_dset k a d); lia); try (pose proof (length_ddel k d); lia).
  pose proof (length_all _ _ _ _ _ _ H). lia.
Qed.

(** C110 for every history of calls on an object: each goes as on a dict, except
    for the odd ones. *)
Theorem C110_exact fuel r l : forall h d h' xs, obj_items h r = Ok d -> NoDup (dkeys d) -> room d l < fuel -> obj_calls fuel h r l = (h', xs) ->
  exists d', obj_items h' r = Ok d' /\ goes r (fun h d c x h1 d1 => ~ odd d c /\ as_dict r h d c x h1 d1 \/ odd d c /\ oddly h d c x h1 d1) h d l xs h' d'.
Proof.
  induction l as [|c l IH]; intros h d h' xs H N R E; cbn [obj_calls] in E.
  - injection E as <- <-. exists d. split; [exact H|constructor].
  - destruct (obj_call fuel h r c) as [h1 x] eqn:E1. destruct (obj_calls fuel h1 r l) as [h2 ys] eqn:E2. injection E as <- <-.
    destruct (call_ok fuel h r d c h1 x H N ltac:(unfold room in R; lia) E1) as (d1 & I1 & N1 & K1 & O & A).
    assert (D : odd d c \/ ~ odd d c).
    { destruct c as [k|k| | |k y|k|k y|k y| | |m|k [b|v]]; cbn [odd]; try tauto; try (destruct (dget k d); [right; discriminate|left; reflexivity]). destruct (Nat.le_gt_cases 2 (length d)); [left|right]; lia. }
    assert (S : ~ odd d c /\ as_dict r h d c x h1 d1 \/ odd d c /\ oddly h d c x h1 d1) by tauto.
    pose proof (room_step r h d c x h1 d1 l ltac:(tauto)) as R1.
    destruct (IH h1 d1 h2 ys I1 N1 ltac:(lia) E2) as (d2 & I2 & G). exists d2. split; [exact I2|]. econstructor; eassumption.
Qed.
(** In particular a history of the other calls is that of a dict. *)
Theorem C110_partial fuel r l h d h' xs : obj_items h r = Ok d -> NoDup (dkeys d) -> room d l < fuel -> obj_calls fuel h r l = (h', xs) ->
  Forall (fun c => match c with MDel _ | MPopitem | MSetdefault _ (SRaw _) => False | _ => True end) l ->
  exists d', obj_items h' r = Ok d' /\ goes r (as_dict r) h d l xs h' d'.
Proof.
  intros H N R E F. destruct (C110_exact fuel r l h d h' xs H N R E) as (d' & I & G). exists d'. split; [exact I|]. clear -F G.
  induction G as [|h d c x h1 d1 l xs h2 d2 S K G IH]; [constructor|]. inversion F as [|? ? Fc Fl]; subst. econstructor; [|exact K|exact (IH Fl)].
  destruct S as [[_ S]|[O _]]; [exact S|]. exfalso. destruct c as [k|k| | |k y|k|k y|k y| | |m|k [b|v]]; cbn [odd] in O; contradiction.
Qed.
(** C110 fails: [popitem] takes the first member, [setdefault] returns the plain
    value, deleting an absent member is no error. *)
Definition pair_ab : heap := snd (new [] (VDict [(u "a", VInt 1); (u "b", VInt 2)])).
Lemma pair_ab_items : obj_items pair_ab 0 = Ok [(u "a", 1); (u "b", 2)]. Proof. vm_compute. reflexivity. Qed.
Theorem C110_refuted : forall c, In c [MPopitem; MSetdefault (u "c") (SRaw (VInt 3)); MDel (u "c")] ->
  forall d', ~ as_dict 0 pair_ab [(u "a", 1); (u "b", 2)] c (snd (obj_call 5 pair_ab 0 c)) (fst (obj_call 5 pair_ab 0 c)) d'.
Proof.
  intros c Hc d' A. destruct Hc as [<-|[<-|[<-|[]]]]; cbn [fst snd] in A.
  - assert (E : snd (obj_call 5 pair_ab 0 MPopitem) = RPair (u "a") 1) by (vm_compute; reflexivity). rewrite E in A. inversion A as [| | | | | | | | | | | | |k a d1 h1 Hd Q1 Q2| | | | |]; subst.
    change [(u "a", 1); (u "b", 2)] with ([(u "a", 1)] ++ [(u "b", 2)]) in Hd. apply app_inj_tail in Hd as [_ Hd]. discriminate.
  - assert (E : snd (obj_call 5 pair_ab 0 (MSetdefault (u "c") (SRaw (VInt 3)))) = RSlot (SRaw (VInt 3))) by (vm_compute; reflexivity). rewrite E in A. inversion A.
  - assert (E : snd (obj_call 5 pair_ab 0 (MDel (u "c"))) = RDone) by (vm_compute; reflexivity). rewrite E in A. inversion A as [| | | | | |k a h1 Hd Q1| | | | | | | | | | | |]; subst. vm_compute in Hd. discriminate.
Qed.
Example C110_some : obj_items pair_ab 0 = Ok [(u "a", 1); (u "b", 2)] /\ NoDup (dkeys [(u "a", 1); (u "b", 2)]) /\
  (let l := [MGet (u "z") (SRaw VNone); MUpdate [(u "b", SRaw (VInt 7)); (u "c", SNode 1)]; MPop (u "a") None; MKeys; MPop (u "a") None; MItem (u "c"); MClear; MLen] in
   room [(u "a", 1); (u "b", 2)] l = 4 /\
   snd (obj_calls 5 pair_ab 0 l) = [RSlot (SRaw VNone); RDone; RSlot (SNode 1); RKeys [u "b"; u "c"]; RFail (EKey (u "a")); RSlot (SNode 1); RDone; RSize 0]).
Proof. split; [vm_compute; reflexivity|]. split; [repeat constructor; cbn; intuition discriminate|]. vm_compute. auto. Qed.
Print Assumptions C110_exact.
Print Assumptions C110_partial.
Print Assumptions C110_refuted.
