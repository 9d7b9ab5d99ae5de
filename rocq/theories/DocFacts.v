(** Runs of the document operations. *)
From Verif Require Import PyBase PyBaseFacts PyVal Regex Numbers Uri Pointer Store Validators Heap HeapFacts Doc DocMono.
Local Open Scope nat_scope.
Local Notation length := List.length (only parsing).

Section Runs.
  Variables (auth : pystr -> option authority) (dig : N -> option Z) (strx : heap -> addr -> pystr) (fetch : uri -> res pv).
  Notation exec := (exec auth dig strx fetch).
  Notation step := (step auth dig strx fetch).

  (** [m] ends, whatever the depth of calls allowed beyond some bound, with this
      world and this outcome *)
  Definition ev {A} (m : (forall A, call A -> M A) -> M A) (w w' : world) (r : res A) : Prop :=
    exists N, forall n, N <= n -> m (exec n) w = (w', r).
  Definition Runs {A} (c : call A) (w w' : world) (r : res A) : Prop := ev (fun rec => rec A c) w w' r.
  Definition Diverges {A} (c : call A) (w : world) : Prop := forall n, snd (exec n A c w) = OutOfFuel.

  Lemma ev_pure {A} (m : (forall A, call A -> M A) -> M A) w w' r : (forall rec, m rec w = (w', r)) -> ev m w w' r.
  Proof. intro H. exists 0. intros n _. apply H. Qed.
  Lemma ev_ret {A} (a : A) w : ev (fun _ => ret a) w w (Ok a).
  Proof. apply ev_pure. reflexivity. Qed.
  Lemma ev_bind {A B} (m : (forall A, call A -> M A) -> M A) (k : A -> (forall A, call A -> M A) -> M B) w w1 a w' r :
    ev m w w1 (Ok a) -> ev (k a) w1 w' r -> ev (fun rec => mbind (m rec) (fun x => k x rec)) w w' r.
  Proof.
    intros [N1 H1] [N2 H2]. exists (max N1 N2). intros n Hn. unfold mbind. rewrite H1 by lia. apply H2. lia.
  Qed.
  Lemma ev_bind_raise {A B} (m : (forall A, call A -> M A) -> M A) (k : A -> (forall A, call A -> M A) -> M B) w w1 e :
    ev m w w1 (Raise e) -> ev (fun rec => mbind (m rec) (fun x => k x rec)) w w1 (Raise e).
  Proof. intros [N1 H1]. exists N1. intros n Hn. unfold mbind. rewrite H1 by lia. reflexivity. Qed.
  Lemma ev_known {A B} (m : M A) (k : A -> (forall A, call A -> M A) -> M B) w w1 a w' r :
    m w = (w1, Ok a) -> ev (k a) w1 w' r -> ev (fun rec => mbind m (fun x => k x rec)) w w' r.
  Proof. intros H K. apply (ev_bind (fun _ => m) k w w1 a); [|exact K]. apply ev_pure. intros _. exact H. Qed.
  Lemma ev_step {A} (c : call A) w w' r : ev (fun rec => step rec A c) w w' r -> Runs c w w' r.
  Proof. intros [N H]. exists (S N). intros n Hn. destruct n as [|n]; [lia|]. cbn [Doc.exec]. apply H. lia. Qed.
  Lemma ev_det {A} (m : (forall A, call A -> M A) -> M A) w w1 r1 w2 r2 : ev m w w1 r1 -> ev m w w2 r2 -> w1 = w2 /\ r1 = r2.
  Proof. intros [N1 H1] [N2 H2]. specialize (H1 (max N1 N2) ltac:(lia)). rewrite (H2 (max N1 N2)) in H1 by lia. injection H1 as <- <-. auto. Qed.
  Lemma Runs_once {A} (c : call A) w w' r n : exec n A c w = (w', r) -> r <> OutOfFuel -> Runs c w w' r.
  Proof.
    intros H Hr. exists n. intros m Hm. rewrite <- H. apply (below_le auth dig strx fetch n m Hm). rewrite H. exact Hr.
  Qed.
  Lemma Runs_not_Diverges {A} (c : call A) w w' r : Runs c w w' r -> r <> OutOfFuel -> ~ Diverges c w.
  Proof. intros [N H] Hr D. specialize (D N). rewrite (H N) in D by lia. exact (Hr D). Qed.

  (** ** Reading *)
  Lemma node_at_ok w a n : hget (w_heap w) a = Some n -> node_at a w = (w, Ok n).
  Proof. intro H. unfold node_at. rewrite H. reflexivity. Qed.
  Lemma schema_at_ok w s x : nth_error (w_schemas w) s = Some x -> schema_at s w = (w, Ok x).
  Proof. intro H. unfold schema_at. rewrite H. reflexivity. Qed.
  Definition kind_of (p : payload) : jtype :=
    match p with PNull => JNull | PBool _ => JBool | PNum _ => JNum | PStr _ => JStr | PArr _ => JArr | PObj _ => JObj | PRef _ => JNull end.
  Definition is_ref (p : payload) : bool := match p with PRef _ => true | _ => false end.
  Lemma runs_type w a p : val (w_heap w) a p -> is_ref p = false -> Runs (CType a) w w (Ok (kind_of p)).
  Proof.
    intros (n & Hn & <-) Hr. apply ev_step. apply ev_pure. intro rec. cbn. unfold node_type, mbind. rewrite (node_at_ok _ _ _ Hn). destruct (n_val n); try discriminate; reflexivity.
  Qed.
  Lemma get_obj rec w a d k : val (w_heap w) a (PObj d) -> node_get rec a k w = (w, dict_get d k).
  Proof. intros (n & Hn & E). unfold node_get, mbind. rewrite (node_at_ok _ _ _ Hn), E. reflexivity. Qed.
  Lemma has_obj rec w a d k : val (w_heap w) a (PObj d) -> node_has rec a k w = (w, Ok (dict_has d k)).
  Proof. intros (n & Hn & E). unfold node_has, mbind. rewrite (node_at_ok _ _ _ Hn), E. reflexivity. Qed.
  Lemma get_arr rec w a l z : val (w_heap w) a (PArr l) -> node_get rec a (KI z) w = (w, index l z).
  Proof. intros (n & Hn & E). unfold node_get, mbind. rewrite (node_at_ok _ _ _ Hn), E. reflexivity. Qed.
  Lemma items_obj rec w a d : val (w_heap w) a (PObj d) -> node_items rec a w = (w, Ok d).
  Proof. intros (n & Hn & E). unfold node_items, mbind. rewrite (node_at_ok _ _ _ Hn), E. reflexivity. Qed.
  Lemma member_obj rec w a d k c t : val (w_heap w) a (PObj d) -> dget k d = Some c -> val (w_heap w) c (PStr t) -> member_str strx rec a k w = (w, Ok t).
  Proof.
    intros Ha G (n & Hn & E). unfold member_str, mbind. rewrite (get_obj rec w a d _ Ha). cbn. rewrite G. unfold node_str. rewrite Hn. destruct n as [x p k']; cbn in E; subst x. reflexivity.
  Qed.
  Lemma runs_get_obj w a d k : val (w_heap w) a (PObj d) -> Runs (CGet a k) w w (dict_get d k).
  Proof. intro H. apply ev_step, ev_pure. intro rec. apply get_obj, H. Qed.
  Lemma runs_get_arr w a l z : val (w_heap w) a (PArr l) -> Runs (CGet a (KI z)) w w (index l z).
  Proof. intro H. apply ev_step, ev_pure. intro rec. apply get_arr, H. Qed.

  (** ** Walking *)
  Lemma follow_obj w a d k p w' r c : val (w_heap w) a (PObj d) -> dget k d = Some c -> ev (fun rec => follow dig rec c p) w w' r -> ev (fun rec => follow dig rec a (k :: p)) w w' r.
  Proof.
    intros Ha G K. cbn [follow]. eapply ev_bind; [apply (runs_type w a _ Ha eq_refl)|]. cbn [kind_of].
    eapply ev_bind; [|exact K]. pose proof (runs_get_obj w a d (KS k) Ha) as R. cbn in R. rewrite G in R. exact R.
  Qed.
  Lemma follow_arr w a l k z p w' r c : val (w_heap w) a (PArr l) -> py_int dig k = Some z -> index l z = Ok c ->
    ev (fun rec => follow dig rec c p) w w' r -> ev (fun rec => follow dig rec a (k :: p)) w w' r.
  Proof.
    intros Ha Hk G K. cbn [follow]. eapply ev_bind; [apply (runs_type w a _ Ha eq_refl)|]. cbn [kind_of]. rewrite Hk.
    eapply ev_bind; [|exact K]. pose proof (runs_get_arr w a l z Ha) as R. rewrite G in R. exact R.
  Qed.
  Lemma follow_nil w a : ev (fun rec => follow dig rec a []) w w (Ok a).
  Proof. apply ev_pure. reflexivity. Qed.
  (** a document that is loaded *)
  Lemma load_ready w s x : nth_error (w_schemas w) s = Some x -> s_ready x = true -> forall rec, load rec s w = (w, Ok tt).
  Proof. intros H R rec. unfold load, mbind. rewrite (schema_at_ok _ _ _ H), R. reflexivity. Qed.
End Runs.
