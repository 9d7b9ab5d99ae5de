(** C109 on concrete schemas. *)
From Verif Require Import PyBase PyBaseFacts PyVal Errors Validators Keywords Memory KeywordFacts Master Claims ScalarFacts PropsScalar ExBase PropsMemory PropsAnchor SchemaEdits PropsSchemaEdits.
From Verif Require Heap.
Local Open Scope Z_scope.

Definition held (h : Heap.heap) : @doc Heap.addr := Doc (Heap.hview h) (fun _ => []).
Definition plainb (n : Heap.node) : bool := match Heap.n_val n with Heap.PObj d => nodupb (dkeys d) | _ => true end.
Lemma held_wf h : forallb plainb h = true -> wf_view (d_view (held h)).
Proof.
  intros F n w m Hw Hm. cbn [d_view held] in Hw. unfold Heap.hview, Heap.hget in Hw. destruct (nth_error h n) as [x|] eqn:E; [|discriminate].
  apply nth_error_In in E. rewrite forallb_forall in F. specialize (F _ E). unfold plainb in F. destruct (Heap.n_val x); try discriminate; injection Hw as <-; try discriminate.
  injection Hm as <-. apply nodupb_ok, F.
Qed.
(** the schema with a member of one of its objects assigned *)
Definition put_in (h : Heap.heap) (path : list pystr) (k : pystr) (v : pv) : Heap.heap :=
  match fold_left (fun a x => b <- a ;; Heap.obj_get h b x) path (Ok 0%nat) with
  | Ok a => match Heap.obj_set h a k v with Ok h' => h' | _ => h end
  | _ => h
  end.
Definition limits : Heap.heap :=
  snd (Heap.new [] (jdict [("properties", jdict [("a", jdict [("minimum", VInt 3)]); ("b", jdict [("maximum", VInt 9)])])]%string)).
Definition wants_ten : Heap.heap := put_in limits [u "properties"; u "a"] (u "minimum") (VInt 10).
Definition five_a : pv := jdict [("a", VInt 5)]%string.
Definition five_b : pv := jdict [("b", VInt 5)]%string.
Definition both : pv := jdict [("a", VInt 5); ("b", VInt 5)]%string.
Definition wants_none : Heap.heap := put_in limits [u "properties"; u "b"] (u "maximum") (VInt 0).

(** C109 fails: [minimum] is raised to 10 after a call, and 5 is still accepted,
    although the schema as it is rejects it. *)
Theorem C109_refuted : exists steps log d' h', wf_view (d_view (held limits)) /\
  session ex_env all_keywords steps (held limits) (Memory.fresh 0%nat) = (log, d', h') /\ ~ Forall (up_to_date ex_env all_keywords 0%nat) log.
Proof.
  exists [Validate 9%nat five_a; Edit (held wants_ten); Validate 9%nat five_a].
  destruct (session ex_env all_keywords [Validate 9%nat five_a; Edit (held wants_ten); Validate 9%nat five_a] (held limits) (Memory.fresh 0%nat)) as [[log d'] h'] eqn:E.
  exists log, d', h'. split; [apply held_wf; vm_compute; reflexivity|]. split; [reflexivity|].
  assert (L : log = [Outcome (held limits) 9%nat five_a (Ok tt); Outcome (held wants_ten) 9%nat five_a (Ok tt)]).
  { change log with (fst (fst (log, d', h'))). rewrite <- E. vm_compute. reflexivity. }
  rewrite L. intro F. inversion F as [|? ? _ F1]; subst. inversion F1 as [|? ? U _]; subst. unfold up_to_date in U. vm_compute in U. discriminate.
Qed.
(** a call that reached every part of the schema: [C109_stale] applies *)
Definition warm : list (nat * pv) := [(9%nat, both)].
Example C109_stale_hyp : built (after (d_view (held limits)) (d_str (held limits)) ex_env all_keywords warm (Memory.fresh 0%nat)) (fun l => (l < 3)%nat).
Proof.
  intros [|[|[|l]]] Hl; [| | |lia]; (split; [vm_compute; lia|eexists; split; [vm_compute; reflexivity|repeat (constructor || (simpl; lia))]]).
Qed.
(** and the schema says something: the edit is one that would reject *)
Example C109_stale_ex :
  validate (d_view (held limits)) (d_str (held limits)) ex_env all_keywords 9 0%nat five_a [] = Ok tt /\
  (exists e, validate (d_view (held wants_ten)) (d_str (held wants_ten)) ex_env all_keywords 9 0%nat five_a [] = Raise e).
Proof. split; [vm_compute; reflexivity|eexists; vm_compute; reflexivity]. Qed.
(** a careful history: [b] is edited when only [a] has been used, and the edit counts *)
Definition late_edit : list (@step Heap.addr) := [Validate 9%nat five_a; Edit (held wants_none); Validate 9%nat five_b].
Example C109_partial_hyp : careful ex_env all_keywords late_edit (held limits) (Memory.fresh 0%nat).
Proof.
  cbn [careful late_edit]. split; [apply held_wf; vm_compute; reflexivity|]. split; [|exact I].
  intros n (l & Hl & Hn & Hs).
  assert (Hl3 : (l < 3)%nat) by (vm_compute in Hl; exact Hl). clear Hl.
  destruct l as [|[|[|l]]]; [| |exfalso; apply Hs; vm_compute; reflexivity|lia]; vm_compute in Hn; subst n; (split; [vm_compute; reflexivity|]); intros w k t Hw; vm_compute in Hw; injection Hw as <-; destruct k; try reflexivity; vm_compute; reflexivity.
Qed.
Example C109_partial_ex : exists d' h' e, session ex_env all_keywords late_edit (held limits) (Memory.fresh 0%nat) =
  ([Outcome (held limits) 9%nat five_a (Ok tt); Outcome (held wants_none) 9%nat five_b (Raise e)], d', h').
Proof. eexists _, _, _. vm_compute. reflexivity. Qed.
Example C109_before_ex : exists d' h' e, session ex_env all_keywords (map Edit [held wants_ten] ++ map (fun fv => Validate (fst fv) (snd fv)) [(9%nat, five_a)]) (held limits) (Memory.fresh 0%nat) =
  ([Outcome (held wants_ten) 9%nat five_a (Raise e)], d', h').
Proof. eexists _, _, _. vm_compute. reflexivity. Qed.
Print Assumptions C109_partial.
Print Assumptions C109_before.
Print Assumptions C109_stale.
Print Assumptions C109_refuted.
