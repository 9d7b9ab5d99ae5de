(** A thread that is never interrupted does what [Doc.v] says; what holds of
    every interleaving. *)
From Verif Require Import PyBase PyBaseFacts PyVal Regex Numbers Uri Pointer Store Validators Heap HeapFacts PropsPlaces Doc DocMono DocFacts DocLoad LoadThreads.
Local Open Scope nat_scope.
Local Notation length := List.length (only parsing).

(** ** Alone *)
Definition sim {A} (p : prog A) (m : M A) : Prop := forall w, alone p w = m w.
Lemma alone_bind {A B} (p : prog A) (k : A -> prog B) w : alone (pbind p k) w = mbind (alone p) (fun a => alone (k a)) w.
Proof.
  revert w. induction p as [r|f IH] using (fix prog_ind' (A : Type) (P : prog A -> Prop) (H1 : forall r, P (Done r)) (H2 : forall f, (forall w, P (snd (f w))) -> P (Act f)) (p : prog A) : P p :=
    match p with
    | Done r => H1 r
    | Act f => H2 f (fun w => match f w as x return P (snd x) with (w', p') => prog_ind' A P H1 H2 p' end)
    end); intro w.
  - destruct r; reflexivity.
  - cbn [pbind alone]. unfold mbind. cbn [alone]. specialize (IH w). destruct (f w) as [w' p']. cbn [snd] in IH. rewrite IH. reflexivity.
Qed.
Lemma sim_bind {A B} (p : prog A) m (k : A -> prog B) k' : sim p m -> (forall a, sim (k a) (k' a)) -> sim (pbind p k) (mbind m k').
Proof.
  intros Hp Hk w. rewrite alone_bind. unfold mbind. rewrite (Hp w). destruct (m w) as [w' [a| |]]; [apply Hk|reflexivity..].
Qed.
Lemma bind_at {A B} (p : prog A) m (k : A -> prog B) k' w : alone p w = m w -> (forall a, sim (k a) (k' a)) -> alone (pbind p k) w = mbind m k' w.
Proof.
  intros Hp Hk. rewrite alone_bind. unfold mbind. rewrite Hp. destruct (m w) as [w' [a| |]]; [apply Hk|reflexivity..].
Qed.
Lemma sim_done {A} (r : res A) : sim (Done r) (lift r).
Proof. intro w. reflexivity. Qed.
Lemma sim_ret {A} (a : A) : sim (Done (Ok a)) (ret a).
Proof. intro w. reflexivity. Qed.
Lemma sim_raise {A} e : sim (Done (Raise e) : prog A) (raise e).
Proof. intro w. reflexivity. Qed.
Lemma sim_atom {A} (m : M A) : sim (atom m) m.
Proof. intro w. unfold atom. cbn. destruct (m w). reflexivity. Qed.
Lemma sim_if {A} (b : bool) (p p' : prog A) m m' : sim p m -> sim p' m' -> sim (if b then p else p') (if b then m else m').
Proof. destruct b; auto. Qed.

Section Alone.
  Variables (auth : pystr -> option authority) (dig : N -> option Z) (strx : heap -> addr -> pystr) (fetch : uri -> res pv).
  Section Step.
    Variable prec : forall A, call A -> prog A.
    Variable mrec : forall A, call A -> M A.
    Hypothesis Hrec : forall A c, sim (prec A c) (mrec A c).
    Ltac s1 := lazymatch goal with
      | H : sim ?p ?m |- sim ?p ?m => exact H
      | |- sim (Done (Ok _)) (ret _) => apply sim_ret
      | |- sim (Done (Raise _)) (raise _) => apply sim_raise
      | |- sim (Done _) (lift _) => apply sim_done
      | |- sim (prec _ _) _ => apply Hrec
      | |- sim (atom ?m) ?m => apply sim_atom
      | |- sim (pbind (read _ _) _) (mbind (schema_at _) _) => fail
      | |- sim (pbind (t_stored _) _) _ => fail
      | |- sim (pbind _ _) (mbind _ _) => apply sim_bind; [|intro]
      | |- sim (if _ then _ else _) (if _ then _ else _) => apply sim_if
      | |- sim (match ?x with _ => _ end) _ => destruct x
      end.
    Ltac s := repeat s1.
    Lemma sim_type a : sim (t_type prec a) (node_type mrec a).
    Proof. unfold t_type, node_type, peek. s. Qed.
    Lemma sim_items a : sim (t_items prec a) (node_items mrec a).
    Proof. unfold t_items, node_items, peek. s. Qed.
    (** reading an attribute where [Doc.v] reads the record *)
    Lemma sim_read {A B} i (f : schema -> A) (k : A -> prog B) (k' : schema -> M B) :
      (forall w x, nth_error (w_schemas w) i = Some x -> alone (k (f x)) w = k' x w) -> sim (pbind (read i f) k) (mbind (schema_at i) k').
    Proof.
      intros H w. rewrite alone_bind. unfold mbind, read, atom, schema_at. cbn [alone].
      destruct (nth_error (w_schemas w) i) as [x|] eqn:E; [apply H, E|reflexivity].
    Qed.
    Lemma sim_raw a : sim (t_raw prec a) (ref_raw mrec a).
    Proof.
      unfold t_raw, ref_raw, peek. s. apply sim_read. intros w x _.
      refine ((_ : sim _ _) w). s; try apply sim_items.
    Qed.
    Lemma sim_eq a k : sim (t_eq prec a k) (node_eq mrec a k).
    Proof. unfold t_eq, node_eq, peek. s. Qed.
    Lemma sim_any_eq l k : sim (t_any_eq prec l k) (any_eq mrec l k).
    Proof. induction l as [|x l IH]; cbn [t_any_eq any_eq]; s. Qed.
    Lemma sim_has a k : sim (t_has prec a k) (node_has mrec a k).
    Proof. unfold t_has, node_has, peek. s. apply sim_any_eq. Qed.
    Lemma sim_get a k : sim (t_get prec a k) (node_get mrec a k).
    Proof.
      intro w. unfold t_get, node_get, peek. rewrite alone_bind. unfold mbind at 1 2. rewrite sim_atom. unfold node_at. destruct (hget (w_heap w) a) as [n|] eqn:E; [|reflexivity].
      destruct (n_val n) eqn:En; try (match goal with |- alone (Done _) _ = _ => reflexivity end).
      - destruct k; reflexivity.
      - destruct (dict_has items k) eqn:Hh; [|reflexivity]. rewrite alone_bind. unfold mbind. rewrite sim_atom. unfold node_at. rewrite E, En. reflexivity.
      - refine ((_ : sim _ _) w). s.
    Qed.
    Lemma sim_member a k : sim (t_member_str strx prec a k) (member_str strx mrec a k).
    Proof. unfold t_member_str, member_str, t_str. s. apply sim_get. Qed.
    Lemma sim_stored {B} k (f : option nat -> prog B) (f' : world -> M B) :
      (forall w, alone (f (dget k (w_store w))) w = f' w w) -> sim (pbind (t_stored k) f) (mbind get_world f').
    Proof. intros H w. rewrite alone_bind. unfold mbind, t_stored, get_world. rewrite sim_atom. apply H. Qed.
    Lemma sim_contains v : sim (t_contains auth v) (store_contains auth v).
    Proof. unfold t_contains, store_contains, store_key. s. apply sim_stored. intro w. unfold dmem. destruct (dget a (w_store w)); reflexivity. Qed.
    Lemma sim_add v i : sim (t_add auth v i) (store_add auth v i).
    Proof. unfold t_add, store_add, store_key. s. Qed.
    Lemma sim_make v voc : sim (t_make v voc) (make_schema v voc).
    Proof. unfold t_make, make_schema. s. Qed.
    Lemma sim_store_load v voc : sim (t_store_load auth fetch v voc) (store_load auth fetch v voc).
    Proof.
      unfold t_store_load, store_load, store_key. s. apply sim_stored. intro w. destruct (dget a (w_store w)); [reflexivity|].
      refine ((_ : sim _ _) w). s. apply sim_make.
    Qed.
    Lemma sim_apply_ref i a : sim (t_apply_ref auth strx fetch prec i a) (apply_ref auth strx fetch mrec i a).
    Proof.
      unfold t_apply_ref, apply_ref, peek. s; [apply sim_member|]. apply sim_read. intros w x _. refine ((_ : sim _ _) w). s. apply sim_store_load.
    Qed.
    Lemma sim_write {B} i f (k : prog B) (k' : M B) : sim k k' -> sim (pbind (write i f) (fun _ => k)) (x <~ schema_at i ;; _ <~ set_schema i (f x) ;; k').
    Proof.
      intros H w. rewrite alone_bind. unfold mbind at 1 2. unfold write. rewrite sim_atom. unfold schema_at. destruct (nth_error (w_schemas w) i) as [x|]; [|reflexivity].
      unfold mbind, set_schema. apply H.
    Qed.
    Lemma sim_apply_anchor i a : sim (t_apply_anchor strx prec i a) (apply_anchor strx mrec i a).
    Proof.
      unfold t_apply_anchor, apply_anchor, peek, put_anchor. apply sim_bind; [apply sim_member|]. intro t.
      apply (sim_write i (fun x => Schema (s_value x) (s_ready x) (s_voc x) (dset t a (s_anchors x)) (s_id x))).
      intro w. rewrite alone_bind. unfold mbind at 1 2. rewrite sim_atom. unfold node_at. destruct (hget (w_heap w) a) as [n|] eqn:E; [|reflexivity].
      destruct (n_val n) as [| | | | |d|] eqn:En; try reflexivity.
      rewrite alone_bind. unfold mbind. destruct (dmem (u "$anchor") d) eqn:Hd.
      - unfold del_member. rewrite sim_atom. rewrite E. destruct n as [v pa ky]. cbn [n_val] in En. subst v. rewrite Hd. reflexivity.
      - cbn [alone]. unfold set_value. rewrite ddel_absent.
        + rewrite hset_same; [destruct w; reflexivity|]. exists n. auto.
        + exact Hd.
    Qed.
    Lemma sim_id_text a : sim (t_id_text strx prec a) (id_text strx mrec a).
    Proof. unfold t_id_text, id_text. s; first [apply sim_has|apply sim_member]. Qed.
    Lemma sim_apply_id i a : sim (t_apply_id auth strx prec i a) (apply_id auth strx mrec i a).
    Proof.
      unfold t_apply_id, apply_id, peek, put_id. apply sim_bind; [apply sim_id_text|]. intro t. apply sim_bind; [apply sim_done|]. intro v.
      destruct (u_frag v); [|apply sim_raise]. apply sim_bind; [apply sim_atom|]. intro n. destruct (n_parent n) as [pa|].
      - intro w. rewrite alone_bind. unfold mbind at 1 2. rewrite sim_atom. unfold get_world at 1. unfold mbind at 1, lift at 1.
        destruct (node_path (w_heap w) a) as [p|e|]; [|reflexivity..]. destruct (str_mem (u "enum") p); [reflexivity|].
        destruct (is_absolute auth v) as [abs|e|]; [|reflexivity..]. unfold mbind at 1, lift at 1. cbn [pbind].
        apply bind_at.
        + destruct abs; [reflexivity|]. rewrite alone_bind. unfold mbind at 1 2. rewrite sim_atom. unfold lift at 1. destruct (node_root (w_heap w) a) as [r|e|]; [|reflexivity..].
          refine ((_ : sim _ _) w). s; first [apply sim_has|apply sim_member|intro; reflexivity].
        + intro v'. destruct (n_val n); try apply sim_raise; (apply sim_read; intros w' x _; refine ((_ : sim _ _) w'); s; apply sim_add).
      - apply (sim_write i (fun x => Schema (s_value x) (s_ready x) (s_voc x) (s_anchors x) (Some v))). s; [apply sim_contains|apply sim_add].
    Qed.
    Lemma sim_any_has a ks : sim (t_any_has prec a ks) (any_has mrec a ks).
    Proof. induction ks as [|k ks IH]; cbn [t_any_has any_has]; s. apply sim_has. Qed.
    Lemma sim_apply_kws ks i : forall a, sim (t_apply_kws auth strx fetch prec ks i a) (apply_kws auth strx fetch mrec ks i a).
    Proof.
      induction ks as [|k ks IH]; intro a; cbn [t_apply_kws apply_kws]; [apply sim_ret|]. apply sim_bind; [apply sim_any_has|]. intro b.
      apply sim_bind; [|intro; apply IH]. apply sim_if; [|apply sim_ret]. destruct k; [apply sim_apply_ref|apply sim_apply_anchor|apply sim_apply_id].
    Qed.
    Lemma sim_map {A B} (f : A -> prog B) f' l : (forall x, sim (f x) (f' x)) -> sim (t_map f l) (mmap f' l).
    Proof. intro H. induction l as [|x l IH]; cbn [t_map mmap]; s. apply H. Qed.
    Lemma sim_process i a : sim (t_process auth strx fetch prec i a) (process auth strx fetch mrec i a).
    Proof.
      unfold t_process, process, peek. s; [apply sim_items|apply sim_map; intro; s|].
      apply sim_read. intros w x _. apply sim_apply_kws.
    Qed.
    Lemma sim_load i : sim (t_load prec i) (load mrec i).
    Proof.
      unfold t_load, load, put_value, put_ready. apply sim_read. intros w x Hx. destruct (s_ready x) eqn:Hr; [reflexivity|].
      rewrite alone_bind. unfold mbind at 1. unfold read. rewrite sim_atom, Hx. apply bind_at; [apply Hrec|]. intro a.
      intro w'. rewrite alone_bind. unfold mbind, write. rewrite sim_atom. unfold schema_at. destruct (nth_error (w_schemas w') i) as [y|] eqn:Hy; [|reflexivity].
      rewrite sim_atom. cbn [w_schemas w_heap w_store]. rewrite nth_lput, Nat.eqb_refl, Hy. cbn [s_value s_voc s_anchors s_id]. unfold set_schema. f_equal. f_equal.
      clear. revert i. induction (w_schemas w') as [|z l IH]; intros [|i]; cbn [lput]; try reflexivity. rewrite IH. reflexivity.
    Qed.
    Lemma sim_follow p : forall a, sim (t_follow dig prec a p) (follow dig mrec a p).
    Proof. induction p as [|k p IH]; intro a; cbn [t_follow follow]; s; apply IH. Qed.
    Lemma sim_value i : sim (t_value prec i) (_ <~ load mrec i ;; x <~ schema_at i ;; ret (s_value x)).
    Proof.
        intro w. unfold t_value, read. rewrite alone_bind. unfold mbind at 1. rewrite sim_atom.
        destruct (nth_error (w_schemas w) i) as [x|] eqn:Hx; [|unfold mbind, load, schema_at; cbn; unfold mbind, schema_at; rewrite Hx; reflexivity].
        assert (Hr : sim (atom (fun w0 => match nth_error (w_schemas w0) i with Some y => (w0, Ok (s_value y)) | None => (w0, Raise EUnmodelled) end)) (y <~ schema_at i ;; ret (s_value y))).
        { intro w0. rewrite sim_atom. unfold mbind, schema_at. destruct (nth_error (w_schemas w0) i); reflexivity. }
        destruct (s_ready x) eqn:Rx.
        - rewrite Hr. unfold mbind at 2. unfold load, mbind at 2. unfold schema_at at 2. rewrite Hx, Rx. reflexivity.
        - apply bind_at; [apply sim_load|]. intro. exact Hr.
    Qed.
    Lemma sim_query i p : sim (t_query dig prec i p) (query dig mrec i p).
    Proof.
      pose proof (sim_value i) as Hv.
      assert (Ha : sim (t_query dig prec i p) (root <~ (_ <~ load mrec i ;; x <~ schema_at i ;; ret (s_value x)) ;;
         match p with
         | [k] => x <~ schema_at i ;; match dget k (s_anchors x) with Some a => ret a | None => if str_eqb k [] then ret root else follow dig mrec root p end
         | _ => follow dig mrec root p
         end)).
      { unfold t_query. apply sim_bind; [exact Hv|]. intro root. destruct p as [|k [|k2 p]]; try apply sim_follow.
        apply sim_read. intros w x Hx. destruct (dget k (s_anchors x)) as [a|] eqn:Hd.
        - rewrite alone_bind. unfold mbind, read. rewrite sim_atom, Hx, Hd. reflexivity.
        - refine ((_ : sim _ _) w). apply sim_if; [apply sim_ret|apply (sim_follow [k])]. }
      intro w. rewrite Ha. unfold query, mbind. destruct (load mrec i w) as [w' [[]| |]]; [|reflexivity..].
      unfold schema_at. destruct (nth_error (w_schemas w') i) as [x|] eqn:Hx; [|reflexivity]. cbn [ret].
      destruct p as [|k [|k2 p]]; try reflexivity. rewrite Hx. reflexivity.
    Qed.
    Lemma sim_step A (c : call A) : sim (t_step auth dig strx fetch prec A c) (step auth dig strx fetch mrec A c).
    Proof.
      destruct c; cbn [t_step step]; [apply sim_query|apply sim_type|apply sim_raw|apply sim_has|apply sim_get|apply sim_eq|apply sim_process].
    Qed.
  End Step.
  Theorem exec_alone n : forall A (c : call A), sim (t_exec auth dig strx fetch n A c) (exec auth dig strx fetch n A c).
  Proof. induction n as [|n IH]; intros A c; cbn [t_exec exec]; [intro w; reflexivity|apply sim_step, IH]. Qed.
  Theorem load_alone n i : sim (t_load_n auth dig strx fetch n i) (load_n auth dig strx fetch n i).
  Proof. apply sim_load, exec_alone. Qed.
  Theorem value_alone n i : sim (t_value (t_exec auth dig strx fetch n) i) (_ <~ load_n auth dig strx fetch n i ;; x <~ schema_at i ;; ret (s_value x)).
  Proof. apply sim_value, exec_alone. Qed.
End Alone.
