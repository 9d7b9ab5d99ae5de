(** More depth never changes an answer. *)
From Verif Require Import PyBase PyVal Regex Numbers Uri Pointer Store Validators Heap Doc.
Local Open Scope nat_scope.
Local Notation length := List.length (only parsing).

Definition mle {A} (m m' : M A) : Prop := forall w, snd (m w) <> OutOfFuel -> m' w = m w.
Lemma mle_refl {A} (m : M A) : mle m m.
Proof. intros w _. reflexivity. Qed.
Lemma mle_bind {A B} (m m' : M A) (k k' : A -> M B) : mle m m' -> (forall a, mle (k a) (k' a)) -> mle (mbind m k) (mbind m' k').
Proof.
  intros Hm Hk w H. unfold mbind in *. specialize (Hm w). destruct (m w) as [w1 [a|e|]]; cbn in *.
  - rewrite (Hm ltac:(discriminate)). apply Hk, H.
  - rewrite (Hm ltac:(discriminate)). reflexivity.
  - congruence.
Qed.
Lemma mle_mmap {A B} (f f' : A -> M B) l : (forall x, mle (f x) (f' x)) -> mle (mmap f l) (mmap f' l).
Proof.
  intro H. induction l as [|x l IH]; cbn; [apply mle_refl|]. apply mle_bind; [apply H|]. intro y. apply mle_bind; [exact IH|]. intro ys. apply mle_refl.
Qed.

Section Mono.
  Variables (auth : pystr -> option authority) (dig : N -> option Z) (strx : heap -> addr -> pystr) (fetch : uri -> res pv).
  Notation step := (step auth dig strx fetch).
  Notation exec := (exec auth dig strx fetch).
  Definition below (f g : forall A, call A -> M A) : Prop := forall A (c : call A), mle (f A c) (g A c).

  Section Step.
    Variables (f g : forall A, call A -> M A) (H : below f g).
    Create HintDb docmono.
    Ltac go := repeat (first
      [ solve [auto 2 with docmono nocore]
      | match goal with
        | |- mle ?x ?x => apply mle_refl
        | |- mle (f _ _) _ => apply H
        | |- mle (mbind _ _) _ => apply mle_bind; [|intro]
        | |- mle (mmap _ _) _ => apply mle_mmap; intro
        end
      | match goal with |- mle (match ?x with _ => _ end) (match ?x with _ => _ end) => destruct x end ]).
    Lemma mono_items a : mle (node_items f a) (node_items g a).
    Proof. unfold node_items. go. Qed.
    Hint Resolve mono_items : docmono.
    Lemma mono_type a : mle (node_type f a) (node_type g a).
    Proof. unfold node_type. go. Qed.
    Hint Resolve mono_type : docmono.
    Lemma mono_raw a : mle (ref_raw f a) (ref_raw g a).
    Proof. unfold ref_raw. go. Qed.
    Hint Resolve mono_raw : docmono.
    Lemma mono_eq a k : mle (node_eq f a k) (node_eq g a k).
    Proof. unfold node_eq. go. Qed.
    Hint Resolve mono_eq : docmono.
    Lemma mono_any_eq l k : mle (any_eq f l k) (any_eq g l k).
    Proof. induction l; cbn; go; exact IHl. Qed.
    Hint Resolve mono_any_eq : docmono.
    Lemma mono_has a k : mle (node_has f a k) (node_has g a k).
    Proof. unfold node_has. go. Qed.
    Hint Resolve mono_has : docmono.
    Lemma mono_get a k : mle (node_get f a k) (node_get g a k).
    Proof. unfold node_get. go. Qed.
    Hint Resolve mono_get : docmono.
    Lemma mono_member a k : mle (member_str strx f a k) (member_str strx g a k).
    Proof. unfold member_str. go. Qed.
    Hint Resolve mono_member : docmono.
    Lemma mono_ref s a : mle (apply_ref auth strx fetch f s a) (apply_ref auth strx fetch g s a).
    Proof. unfold apply_ref. go. Qed.
    Hint Resolve mono_ref : docmono.
    Lemma mono_anchor s a : mle (apply_anchor strx f s a) (apply_anchor strx g s a).
    Proof. unfold apply_anchor. go. Qed.
    Hint Resolve mono_anchor : docmono.
    Lemma mono_idt a : mle (id_text strx f a) (id_text strx g a).
    Proof. unfold id_text. go. Qed.
    Hint Resolve mono_idt : docmono.
    Lemma mono_id s a : mle (apply_id auth strx f s a) (apply_id auth strx g s a).
    Proof. unfold apply_id. go. Qed.
    Hint Resolve mono_id : docmono.
    Lemma mono_any_has a ks : mle (any_has f a ks) (any_has g a ks).
    Proof. induction ks; cbn; go; exact IHks. Qed.
    Hint Resolve mono_any_has : docmono.
    Lemma mono_kw k s a : mle (apply_kw auth strx fetch f k s a) (apply_kw auth strx fetch g k s a).
    Proof. destruct k; cbn; auto with docmono. Qed.
    Hint Resolve mono_kw : docmono.
    Lemma mono_kws ks : forall s a, mle (apply_kws auth strx fetch f ks s a) (apply_kws auth strx fetch g ks s a).
    Proof. induction ks as [|k ks IH]; intros s a; cbn [apply_kws]; go; apply IH. Qed.
    Hint Resolve mono_kws : docmono.
    Lemma mono_process s a : mle (process auth strx fetch f s a) (process auth strx fetch g s a).
    Proof. unfold process. go. Qed.
    Lemma mono_load s : mle (load f s) (load g s).
    Proof. unfold load. go. Qed.
    Hint Resolve mono_process mono_load : docmono.
    Lemma mono_follow p : forall a, mle (follow dig f a p) (follow dig g a p).
    Proof. induction p as [|k p IH]; intro a; cbn [follow]; go; apply IH. Qed.
    Hint Resolve mono_follow : docmono.
    Lemma mono_query s p : mle (query dig f s p) (query dig g s p).
    Proof. unfold query. go. Qed.
    Hint Resolve mono_query : docmono.
    Lemma mono_step : below (step f) (step g).
    Proof. intros A []; cbn [Doc.step]; auto with docmono. Qed.
  End Step.

  Lemma below_S n : below (exec n) (exec (S n)).
  Proof.
    induction n as [|n IH]; [intros A c w Hw; cbn in Hw; congruence|]. cbn [Doc.exec]. apply mono_step, IH.
  Qed.
  Lemma below_le n m : n <= m -> below (exec n) (exec m).
  Proof.
    induction 1 as [|m _ IH]; [intros A c; apply mle_refl|]. intros A c w Hw. rewrite <- (IH A c w Hw). apply below_S. rewrite (IH A c w Hw). exact Hw.
  Qed.
End Mono.
