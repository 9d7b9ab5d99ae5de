(** Concrete schemas used by the examples and refutations. *)
From Verif Require Import PyBase PyBaseFacts PyVal Errors Validators Keywords Spec LeafFacts KeywordFacts Master Claims ScalarFacts PropsScalar.
From Coq Require Import QArith.
Local Open Scope Z_scope.

(** every keyword class of the package *)
Definition all_keywords : list akw :=
  [KwAdditionalProperties; KwAllOf; KwAnyOf; KwConst; KwContains;
   KwDependentRequired; KwDependentSchemas; KwElse; KwEnum;
   KwExclusiveMaximum; KwExclusiveMinimum; KwFormat; KwIf; KwItems;
   KwMaxItems; KwMaxLength; KwMaxProperties; KwMaximum; KwMinItems;
   KwMinLength; KwMinProperties; KwMinimum; KwMultipleOf; KwNot; KwOneOf;
   KwPattern; KwPatternProperties; KwPrefixItems; KwProperties;
   KwPropertyNames; KwRequired; KwThen; KwType; KwUnevaluatedProperties;
   KwUniqueItems].
Lemma all_keywords_all k : In k all_keywords.
Proof. destruct k; simpl; tauto. Qed.

(** text given to [str()] for nodes that are not strings: irrelevant here *)
Definition ex_strx (t : jt) : pystr := [].
(** a small environment: patterns are literal prefixes, one format ["even"] *)
Definition ex_env : env :=
  Env (fun p => negb (str_mem (u "(") [p])) startswith
      (fun f => if str_eqb f (u "even")
                then Some (fun v => match v with VStr s => Ok (Nat.even (List.length s)) | _ => Raise EType end)
                else None)
      (fun s => Raise EDecimal).

Definition jnum (z : Z) : jt := TNum (Dec z 0).
Definition jstr (s : string) : jt := TStr (u s).
Arguments jstr s%string.
Definition jobj (l : list (string * jt)) : jt := TObj (map (fun kx => (u (fst kx), snd kx)) l).
Definition jdict (l : list (string * pv)) : pv := VDict (map (fun kx => (u (fst kx), snd kx)) l).
(** members of an object node *)
Definition members (t : jt) : list (pystr * jt) :=
  match t with TObj it => fold_left (fun acc kn => dset (fst kn) (snd kn) acc) it [] | _ => [] end.

Lemma obj_members it : obj_at tview (TObj it) (members (TObj it)).
Proof. eexists. split; reflexivity. Qed.
Lemma obj_members' l : obj_at tview (jobj l) (members (jobj l)).
Proof. apply obj_members. Qed.

Definition lone_b (voc : list akw) {node} (items : list (pystr * node)) (k : akw) : bool :=
  akw_mem k voc &&
  forallb (fun k' => implb (dmem (kw_key k') items) (if akw_eq_dec k' k then true else false)) voc.
Lemma lone_b_ok {node} voc (items : list (pystr * node)) k m :
  lone_b voc items k = true -> dget (kw_key k) items = Some m -> lone voc items k m.
Proof.
  unfold lone_b. intros H Hm. apply andb_true_iff in H as [H1 H2]. apply akw_mem_In in H1.
  split; [exact H1|]. split; [exact Hm|]. intros k' Hk' Hin.
  rewrite forallb_forall in H2. specialize (H2 k' Hk'). apply dmem_In in Hin. rewrite Hin in H2.
  simpl in H2. destruct (akw_eq_dec k' k); [assumption|discriminate].
Qed.
Definition only_b (voc : list akw) {node} (items : list (pystr * node)) (ks : list akw) : bool :=
  forallb (fun k' => implb (dmem (kw_key k') items) (akw_mem k' ks)) voc.
Lemma only_b_ok {node} voc (items : list (pystr * node)) ks : only_b voc items ks = true -> only voc items ks.
Proof.
  unfold only_b. intros H k' Hk' Hin. rewrite forallb_forall in H. specialize (H k' Hk').
  apply dmem_In in Hin. rewrite Hin in H. apply akw_mem_In. exact H.
Qed.
Ltac lone_tac := apply lone_b_ok; [vm_compute; reflexivity|reflexivity].

(** the double nearest to 0.1 *)
Definition f01 : pfloat := PFloat 3602879701896397 (-55) (Dec 1 (-1)).
Ltac plain_tac := unfold plain; repeat (apply Forall_cons; [apply plain_text_b; reflexivity|]); apply Forall_nil.
