(** Monotonicity of the evaluator in its recursion budget. *)
From Verif Require Import PyBase PyBaseFacts PyVal Errors Validators Keywords.

(** [r2] agrees with [r1] unless [r1] had no answer yet. *)
Definition le_res {A} (r1 r2 : res A) : Prop := r1 = OutOfFuel \/ r1 = r2.

Lemma le_refl {A} (r : res A) : le_res r r.
Proof. right; reflexivity. Qed.
Lemma le_trans {A} (a b c : res A) : le_res a b -> le_res b c -> le_res a c.
Proof. unfold le_res; intros [->| ->] [->| ->]; auto. Qed.
Lemma le_bind {A B} (m1 m2 : res A) (k1 k2 : A -> res B) :
  le_res m1 m2 -> (forall a, le_res (k1 a) (k2 a)) -> le_res (bind m1 k1) (bind m2 k2).
Proof.
  intros [->| ->] Hk; [left; reflexivity|].
  destruct m2; simpl; [apply Hk|apply le_refl|apply le_refl].
Qed.
Lemma le_for_each {A} (f g : A -> res unit) l :
  (forall x, le_res (f x) (g x)) -> le_res (for_each f l) (for_each g l).
Proof.
  intro H; induction l as [|x l IH]; simpl; [apply le_refl|].
  apply le_bind; auto.
Qed.
Lemma le_try m1 m2 : le_res m1 m2 -> le_res (try_valid m1) (try_valid m2).
Proof. intros [->| ->]; [left; reflexivity|apply le_refl]. Qed.

Lemma le_Ok {A} (r1 r2 : res A) a : le_res r1 r2 -> r1 = Ok a -> r2 = Ok a.
Proof. intros [->| ->] H; [discriminate|exact H]. Qed.
Lemma le_Raise {A} (r1 r2 : res A) e : le_res r1 r2 -> r1 = Raise e -> r2 = Raise e.
Proof. intros [->| ->] H; [discriminate|exact H]. Qed.

Section Run.
  Context {node C : Type} (view : node -> res (nview node)) (E : env).
  Variables rec1 rec2 : C -> pv -> ctx -> res unit.
  Hypothesis Hrec : forall n v c, le_res (rec1 n v c) (rec2 n v c).

  Lemma le_pattern_loop pats k x c b :
    le_res (pattern_loop E rec1 pats k x c b) (pattern_loop E rec2 pats k x c b).
  Proof.
    revert b; induction pats as [|[p n] pats IH]; intro b; simpl; [apply le_refl|].
    destruct (re_ok E p); [|apply le_refl].
    destruct (re_search E p k); [|apply IH].
    apply le_bind; [apply Hrec|intros _; apply IH].
  Qed.
  Lemma le_member o c kx : le_res (member_validate E rec1 o c kx) (member_validate E rec2 o c kx).
  Proof.
    destruct kx as [k x]; unfold member_validate.
    apply le_bind.
    - destruct (ov_names o); [apply Hrec|apply le_refl].
    - intros _. destruct (dget k (ov_data o)); [apply Hrec|].
      apply le_bind.
      + destruct (ov_pat o); [apply le_pattern_loop|apply le_refl].
      + intros [|]; [apply le_refl|].
        destruct (ov_addl o) as [[|n]|]; simpl; [apply le_refl|apply Hrec|apply le_refl].
  Qed.
  Lemma le_prefix_loop lf1 lf2 ps vals i c : lf1 <= lf2 ->
    le_res (prefix_loop rec1 lf1 ps vals i c) (prefix_loop rec2 lf2 ps vals i c).
  Proof.
    revert lf2 i; induction lf1 as [|lf1 IH]; intros lf2 i Hle; [left; reflexivity|].
    destruct lf2 as [|lf2]; [lia|]. simpl.
    destruct (nth_error ps i); [|apply le_refl].
    destruct (nth_error vals i); (apply le_bind; [apply Hrec|intros _; apply IH; lia]).
  Qed.
  Lemma le_items_loop n vals i c :
    le_res (items_loop rec1 n vals i c) (items_loop rec2 n vals i c).
  Proof.
    revert i; induction vals as [|x vals IH]; intro i; simpl; [apply le_refl|].
    apply le_bind; [apply Hrec|intros _; apply IH].
  Qed.
  Lemma le_count n l : le_res (count_valid rec1 n l) (count_valid rec2 n l).
  Proof.
    induction l as [|x l IH]; simpl; [apply le_refl|].
    apply le_bind; [apply le_try, Hrec|intro r]. apply le_bind; [exact IH|intro; apply le_refl].
  Qed.
  Lemma le_anyof l v c last : le_res (anyof_loop rec1 l v c last) (anyof_loop rec2 l v c last).
  Proof.
    revert last; induction l as [|n l IH]; intro last; simpl; [apply le_refl|].
    apply le_bind; [apply le_try, Hrec|]. intros [e|]; [apply IH|apply le_refl].
  Qed.
  Lemma le_oneof l v c k last :
    le_res (oneof_loop rec1 l v c k last) (oneof_loop rec2 l v c k last).
  Proof.
    revert k last; induction l as [|n l IH]; intros k last; simpl; [apply le_refl|].
    apply le_bind; [apply le_try, Hrec|]. intros [e|]; apply IH.
  Qed.

  Lemma le_run_vobj lf1 lf2 o v c : lf1 <= lf2 ->
    le_res (run_vobj view E rec1 lf1 o v c) (run_vobj view E rec2 lf2 o v c).
  Proof.
    intro Hle. destruct o; simpl; try apply le_refl.
    - unfold object_validate. destruct v; try apply le_refl.
      apply le_for_each; intro; apply le_member.
    - unfold dep_schemas_validate. destruct v; try apply le_refl.
      apply le_for_each; intros [k n]. destruct (dmem k d); [apply Hrec|apply le_refl].
    - unfold array_validate. destruct v; try apply le_refl.
      apply le_bind.
      + destruct prefix as [[|p ps]|]; try apply le_refl. apply le_prefix_loop; exact Hle.
      + intro i. destruct items; [apply le_items_loop|apply le_refl].
    - unfold contains_validate. apply le_bind; [apply le_refl|intro l].
      apply le_bind; [apply le_count|intro; apply le_refl].
    - apply le_for_each; intro; apply Hrec.
    - apply le_anyof.
    - apply le_oneof.
    - unfold not_validate. apply le_bind; [apply le_try, Hrec|intro; apply le_refl].
    - unfold cond_validate. destruct (cv_if c0); [|apply le_refl].
      apply le_bind; [apply le_try, Hrec|]. intros [e|].
      + destruct (cv_else c0); [apply Hrec|apply le_refl].
      + destruct (cv_then c0); [apply Hrec|apply le_refl].
  Qed.
End Run.

Section Graph.
  Context {node : Type} (view : node -> res (nview node)) (strx : node -> pystr) (E : env).
  Variable voc : list akw.
  Notation validate := (validate view strx E voc).

  Lemma le_validate f1 f2 n v c : f1 <= f2 -> le_res (validate f1 n v c) (validate f2 n v c).
  Proof.
    revert f2 n v c; induction f1 as [|f1 IH]; intros f2 n v c Hle; [left; reflexivity|].
    destruct f2 as [|f2]; [lia|]. cbn [Keywords.validate].
    apply le_bind; [apply le_refl|]. intro d. apply le_for_each. intros [k o].
    apply le_run_vobj; [intros; apply IH; lia|lia].
  Qed.
End Graph.
