(** C100: what an error says. *)
From Verif Require Import PyBase PyBaseFacts PyVal Errors Validators Keywords Spec Master Claims Ident IdentFacts ScalarFacts PropsScalar PropsErrors PropsErrorsEx PropsBlame ExBase ErrorText.
From Coq Require Import QArith.
Local Open Scope N_scope.

(** ** The specification *)
(** [str.format] on a template: doubled braces stand for themselves, a name in
    braces for its argument *)
Inductive renders (args : list (pystr * pystr)) : pystr -> pystr -> Prop :=
| r_end : renders args [] []
| r_char c t s : c <> 123 -> c <> 125 -> renders args t s -> renders args (c :: t) (c :: s)
| r_open t s : renders args t s -> renders args (123 :: 123 :: t) (123 :: s)
| r_close t s : renders args t s -> renders args (125 :: 125 :: t) (125 :: s)
| r_field name x t s : name <> [] -> plain_text name -> dget name args = Some x -> renders args t s ->
    renders args (123 :: name ++ 125 :: t) (x ++ s).

Section Text.
  Variable printable : N -> bool.
  Notation strs_text := (strs_text printable).
  Notation error_text := (error_text printable).
  Notation error_args := (error_args printable).
  (** what the text says after the place *)
  Definition sentence (k : vkind) (shown : pystr) : pystr :=
    match k with
    | KFail => u "Unexpected `" ++ shown ++ u "` value passed."
    | KNot => u "Failed to validate the value."
    | KOneOf => u "Passed value matches more than one expression, exactly one expected."
    | KType ts => u "Passed value must be one of the following type(s) `" ++ strs_text ts ++ u "`."
    | KEnum => u "Passed value must be one of: `" ++ shown ++ u "`."
    | KConst => u "Passed value must be equal to: `" ++ shown ++ u "`"
    | KMinimum d => u "Passed value must be greater or equal to set minimum `" ++ dec_text d ++ u "`."
    | KMaximum d => u "Passed value must be lower or equal to set maximum `" ++ dec_text d ++ u "`."
    | KMultipleOf d => u "Passed value must be multiple of `" ++ dec_text d ++ u "`."
    | KMinLength n => u "Passed value must be at least `" ++ int_text n ++ u "` characters long."
    | KMaxLength n => u "Passed value cannot exceed `" ++ int_text n ++ u "` characters."
    | KFormat f => u "Passed value must conform `" ++ f ++ u "` format."
    | KMinItems n => u "Passed value's length must be greater or equal to set minimum `" ++ int_text n ++ u "`."
    | KMaxItems n => u "Passed value's length must be lower or equal to set maximum `" ++ int_text n ++ u "`."
    | KMinContains n => u "Array should contain specified value at least `" ++ int_text n ++ u "` times."
    | KMaxContains n => u "Array should contain specified value at most `" ++ int_text n ++ u "` times."
    | KUnique => u "Passed value must contain only unique items."
    | KRequired p => u "Passed value is missing property `" ++ p ++ u "`."
    | KMinProps n => u "The number of properties is lower than expected minimum: " ++ int_text n ++ u "."
    | KMaxProps n => u "The number of properties is greater than expected maximum: " ++ int_text n ++ u "."
    | KDependent p q => u "Property `" ++ p ++ u "` requires `" ++ q ++ u "` to be provided."
    end.

  (** ** [format_text] *)
  Lemma same_outcome args t inside :
    (_ <- format_text args inside t ;; Ok tt) = format_scan (map fst args) inside t.
  Proof.
    assert (Hf : forall name, (_ <- field_text args name ;; Ok tt) = field_outcome (map fst args) name).
    { intro name. unfold field_text, field_outcome. destruct (positional (first_part name)) as [[|]|e|]; cbn [bind]; [reflexivity| |reflexivity..].
      destruct (dget (first_part name) args) as [x|] eqn:Hd.
      - apply dget_In in Hd. apply (in_map fst) in Hd. apply str_mem_In in Hd. simpl in Hd. rewrite Hd. destruct (existsb _ name); reflexivity.
      - apply dget_None in Hd. destruct (str_mem (first_part name) (map fst args)) eqn:Hm; [apply str_mem_In in Hm; contradiction|reflexivity]. }
    assert (Hn : forall n t inside, (List.length t <= n)%nat -> (_ <- format_text args inside t ;; Ok tt) = format_scan (map fst args) inside t).
    2:{ apply (Hn (List.length t)). lia. }
    clear t inside. induction n as [|n IH]; intros t inside Hl.
    { destruct t; [|simpl in Hl; lia]. destruct inside as [acc|]; reflexivity. }
    assert (Hadd : forall (f : pystr -> pystr) r, (_ <- (s <- r ;; Ok (f s)) ;; Ok tt) = (_ <- r ;; Ok tt)).
    { intros f [s|e|]; reflexivity. }
    assert (Hfield : forall name r, (_ <- (x <- field_text args name ;; s <- r ;; Ok (x ++ s)) ;; Ok tt) =
       (field_outcome (map fst args) name ;;; (_ <- r ;; Ok tt))).
    { intros name r. rewrite <- Hf. destruct (field_text args name) as [x|e|]; cbn [bind]; [apply Hadd| |]; reflexivity. }
    destruct t as [|c t]; [destruct inside as [acc|]; reflexivity|].
    simpl in Hl. destruct inside as [acc|]; cbn [format_text format_scan].
    - destruct (c =? c_lb); [reflexivity|]. destruct (c =? c_rb); [rewrite Hfield, IH by lia; reflexivity|].
      destruct (goes_on c); [|apply IH; lia]. destruct (name_ends _ _); [|reflexivity]. rewrite <- Hf. destruct (field_text args (rev acc)); reflexivity.
    - destruct (c =? c_rb).
      { destruct t as [|c' t]; [reflexivity|]. destruct (c' =? c_rb); [|reflexivity]. rewrite Hadd. apply IH. simpl in Hl; lia. }
      destruct (c =? c_lb).
      { destruct t as [|c' t]; [reflexivity|]. simpl in Hl. destruct (c' =? c_lb); [rewrite Hadd|]; apply IH; cbn [List.length]; lia. }
      rewrite Hadd. apply IH. lia.
  Qed.
  Lemma text_plain args p t : plain_text p -> format_text args None (p ++ t) = (s <- format_text args None t ;; Ok (p ++ s)).
  Proof.
    induction p as [|x p IH]; intro H; [simpl; destruct (format_text args None t); reflexivity|].
    destruct (H x (or_introl eq_refl)) as [H1 H2]. apply N.eqb_neq in H1, H2.
    cbn [app format_text]. unfold c_rb, c_lb. rewrite H1, H2, IH by (intros y Hy; apply H; right; exact Hy).
    destruct (format_text args None t); reflexivity.
  Qed.
  (** an open field ends with a closing brace *)
  Fixpoint first_brace (t : pystr) : option N :=
    match t with
    | [] => None
    | c :: t' => if (c =? 123) || (c =? 125) then Some c else first_brace t'
    end.
  Lemma open_field args t : forall acc s, format_text args (Some acc) t = Ok s -> first_brace t = Some 125.
  Proof.
    induction t as [|c t IH]; intros acc s; cbn [format_text first_brace].
    - discriminate.
    - unfold c_lb, c_rb. destruct (N.eqb_spec c 123) as [->|]; [discriminate|].
      destruct (N.eqb_spec c 125) as [->|]; [reflexivity|]. destruct (goes_on c); [|apply IH].
      destruct (name_ends _ _); [destruct (field_text _ _); discriminate|discriminate].
  Qed.
  Lemma field_some args name x : field_text args name = Ok x -> dget name args = Some x /\ name <> [].
  Proof.
    unfold field_text. destruct (positional (first_part name)) as [[|]|e|] eqn:Hi; cbn [bind]; try discriminate.
    destruct (dget (first_part name) args) as [y|] eqn:Hd; [|discriminate]. destruct (existsb _ name) eqn:Hn; [discriminate|]. intros [= <-].
    assert (E : first_part name = name).
    { clear -Hn. induction name as [|c name IH]; [reflexivity|]. cbn [existsb] in Hn. apply orb_false_iff in Hn as [H1 H2]. cbn [first_part]. rewrite N.eqb_sym, H1, (IH H2). reflexivity. }
    rewrite E in *. split; [exact Hd|]. intros ->. discriminate.
  Qed.
  Lemma plain_cons c t : c <> 123 -> c <> 125 -> plain_text t -> plain_text (c :: t).
  Proof. intros H1 H2 H x [<-|Hx]; [auto|apply H, Hx]. Qed.
  (** the text up to a point that no field can cross: the backquote after the path *)
  Lemma format_split args b : first_brace b <> Some 125 -> forall n p, (List.length p <= n)%nat ->
    (forall s, format_text args None (p ++ 96 :: b) = Ok s ->
       exists s1 s2, renders args p s1 /\ format_text args None b = Ok s2 /\ s = s1 ++ 96 :: s2) /\
    (forall acc s, plain_text acc -> format_text args (Some acc) (p ++ 96 :: b) = Ok s ->
       exists name q x s1 s2, p = name ++ 125 :: q /\ plain_text name /\ dget (rev acc ++ name) args = Some x /\ rev acc ++ name <> [] /\
         renders args q s1 /\ format_text args None b = Ok s2 /\ s = x ++ s1 ++ 96 :: s2).
  Proof.
    intro Hb. assert (Hb' : first_brace (96 :: b) <> Some 125) by exact Hb.
    assert (Hnone : forall s, format_text args None (96 :: b) = Ok s ->
       exists s1 s2, renders args [] s1 /\ format_text args None b = Ok s2 /\ s = s1 ++ 96 :: s2).
    { intros s H. change (96 :: b) with ([96] ++ b) in H. rewrite text_plain in H by (apply plain_text_b; reflexivity).
      destruct (format_text args None b) as [s2|e|]; cbn [bind] in H; try discriminate. injection H as <-.
      exists [], s2. split; [constructor|]. split; reflexivity. }
    induction n as [|n IH]; intros p Hl.
    { destruct p; [|simpl in Hl; lia]. split; [exact Hnone|]. intros acc s _ H. apply open_field in H. contradiction. }
    destruct p as [|c p].
    { split; [exact Hnone|]. intros acc s _ H. apply open_field in H. contradiction. }
    simpl in Hl. split.
    - intros s. cbn [app format_text]. unfold c_rb, c_lb. destruct (N.eqb_spec c 125) as [->|H125].
      { destruct p as [|c' p]; cbn [app]; [discriminate|].
        destruct (N.eqb_spec c' 125) as [->|]; [|discriminate]. simpl in Hl.
        destruct (format_text args None (p ++ 96 :: b)) as [s'|e|] eqn:Hs; cbn [bind]; try discriminate. intros [= <-].
        destruct (proj1 (IH p ltac:(lia)) s' Hs) as (s1 & s2 & Hr & Hbs & ->).
        exists (125 :: s1), s2. split; [constructor; exact Hr|]. split; [exact Hbs|reflexivity]. }
      destruct (N.eqb_spec c 123) as [->|H123].
      { destruct p as [|c' p]; cbn [app].
        { change (96 =? 123) with false. cbv iota. intro H. apply open_field in H. contradiction. }
        simpl in Hl. destruct (N.eqb_spec c' 123) as [->|H123].
        { destruct (format_text args None (p ++ 96 :: b)) as [s'|e|] eqn:Hs; cbn [bind]; try discriminate. intros [= <-].
          destruct (proj1 (IH p ltac:(lia)) s' Hs) as (s1 & s2 & Hr & Hbs & ->).
          exists (123 :: s1), s2. split; [constructor; exact Hr|]. split; [exact Hbs|reflexivity]. }
        change (c' :: p ++ 96 :: b) with ((c' :: p) ++ 96 :: b).
        intro H. destruct (proj2 (IH (c' :: p) ltac:(cbn [List.length]; lia)) [] s) as (name & q & x & s1 & s2 & Ep & Hn & Hd & Hne & Hr & Hbs & ->);
          [intros ? []|exact H|]. rewrite Ep. cbn [rev app] in Hd, Hne.
        exists (x ++ s1), s2. split; [|split; [exact Hbs|rewrite <- app_assoc; reflexivity]].
        apply r_field; assumption. }
      destruct (format_text args None (p ++ 96 :: b)) as [s'|e|] eqn:Hs; cbn [bind]; try discriminate. intros [= <-].
      destruct (proj1 (IH p ltac:(lia)) s' Hs) as (s1 & s2 & Hr & Hbs & ->).
      exists (c :: s1), s2. split; [constructor; assumption|]. split; [exact Hbs|reflexivity].
    - intros acc s Hacc. cbn [app format_text]. unfold c_lb, c_rb.
      destruct (N.eqb_spec c 123) as [->|H123]; [discriminate|].
      destruct (N.eqb_spec c 125) as [->|H125].
      { destruct (field_text args (rev acc)) as [x|e|] eqn:Hx; cbn [bind]; try discriminate.
        destruct (format_text args None (p ++ 96 :: b)) as [s'|e|] eqn:Hs; cbn [bind]; try discriminate. intros [= <-].
        destruct (proj1 (IH p ltac:(lia)) s' Hs) as (s1 & s2 & Hr & Hbs & ->).
        apply field_some in Hx as [Hx Hne]. exists [], p, x, s1, s2. rewrite app_nil_r.
        split; [reflexivity|]. split; [intros ? []|]. repeat (split; [assumption|]). reflexivity. }
      destruct (goes_on c); [destruct (name_ends _ _); [destruct (field_text _ _); discriminate|discriminate]|].
      intro H. destruct (proj2 (IH p ltac:(lia)) (c :: acc) s) as (name & q & x & s1 & s2 & -> & Hn & Hd & Hne & Hr & Hbs & ->);
        [apply plain_cons; assumption|exact H|].
      exists (c :: name), q, x, s1, s2. cbn [rev] in Hd, Hne. rewrite <- app_assoc in Hd, Hne.
      split; [reflexivity|]. split; [apply plain_cons; assumption|]. repeat (split; [assumption|]). reflexivity.
  Qed.

  (** the sentence *)
  Lemma message_text e shown : ve_kind e <> KFail ->
    format_text (error_args e shown) None (message (ve_kind e) shown) = Ok (sentence (ve_kind e) shown).
  Proof.
    intro H. unfold ErrorText.error_args. destruct (ve_kind e); try contradiction; reflexivity.
  Qed.
  Lemma message_fail e shown : ve_kind e = KFail -> plain_text shown ->
    format_text (error_args e shown) None (message (ve_kind e) shown) = Ok (sentence (ve_kind e) shown).
  Proof.
    intros H Hs. rewrite H. cbn [message sentence]. rewrite text_plain by (apply plain_text_b; reflexivity).
    rewrite text_plain by exact Hs. reflexivity.
  Qed.
  Lemma message_opens k shown : k <> KFail -> first_brace (u ". " ++ message k shown) <> Some 125.
  Proof. destruct k; try contradiction; intros _; vm_compute; discriminate. Qed.

  (** ** C100 *)
  (** without braces in the path (and, for a value met by [false], in the value)
      the text is the place and the sentence *)
  Theorem C100_text_partial e shown : plain_text (ve_path e) -> (ve_kind e = KFail -> plain_text shown) ->
    error_text e shown = Ok (u "Failed validation at `" ++ ve_path e ++ u "`. " ++ sentence (ve_kind e) shown).
  Proof.
    intros Hp Hs. unfold ErrorText.error_text. rewrite text_plain by (apply plain_text_b; reflexivity).
    rewrite text_plain by exact Hp. rewrite text_plain by (apply plain_text_b; reflexivity).
    assert (Hm : format_text (error_args e shown) None (message (ve_kind e) shown) = Ok (sentence (ve_kind e) shown)).
    { destruct (ve_kind e) eqn:Hk; try (rewrite <- Hk; apply message_text; rewrite Hk; discriminate).
      rewrite <- Hk. apply message_fail; [exact Hk|auto]. }
    rewrite Hm. reflexivity.
  Qed.
  (** whatever the path, a text that is produced ends with the sentence; the path
      is itself read as a template *)
  Theorem C100_text_exact e shown s : ve_kind e <> KFail ->
    error_text e shown = Ok s ->
    exists place, renders (error_args e shown) (ve_path e) place /\
      s = u "Failed validation at `" ++ place ++ u "`. " ++ sentence (ve_kind e) shown.
  Proof.
    intros Hk. unfold ErrorText.error_text. rewrite text_plain by (apply plain_text_b; reflexivity).
    change (u "`. " ++ message (ve_kind e) shown) with (96 :: u ". " ++ message (ve_kind e) shown).
    destruct (format_text _ None _) as [s'|x|] eqn:Hs; cbn [bind]; try discriminate. intros [= <-].
    destruct (proj1 (format_split _ _ (message_opens _ shown Hk) (List.length (ve_path e)) (ve_path e) (le_n _)) s' Hs) as (s1 & s2 & Hr & Hb & ->).
    rewrite text_plain in Hb by (apply plain_text_b; reflexivity). rewrite message_text in Hb by exact Hk.
    injection Hb as <-. exists s1. split; [exact Hr|reflexivity].
  Qed.
  (** a text is produced exactly when C36's rendering succeeds *)
  Theorem C100_outcome e shown : (_ <- error_text e shown ;; Ok tt) = str_error e shown.
  Proof.
    unfold ErrorText.error_text, str_error, err_str, py_format. rewrite same_outcome. f_equal.
    unfold ErrorText.error_args. destruct (ve_kind e); reflexivity.
  Qed.
  Theorem C100_always_text e shown : str_error e shown = Ok tt -> exists s, error_text e shown = Ok s.
  Proof. intro H. rewrite <- C100_outcome in H. destruct (error_text e shown) as [s| |]; [eauto|discriminate..]. Qed.
End Text.

(** ** The keyword an error comes from, in its code and in its text *)
Section Rejection.
  Variable printable : N -> bool.
  Context {node : Type} (view : node -> res (nview node)) (strx : node -> pystr) (E : env).
  Variable voc : list akw.
  (** [speaks items k x y code text]: keyword [k] with operand value [x], in a
      schema object with members [items], rejecting [y], has this code and says
      this.  [shown] is [str] of the operand of [enum] and [const]. *)
  Definition speaks (items : list (pystr * node)) (k : akw) (x : nval node) (y : pv) (shown code text : pystr) : Prop :=
    match k, x with
    | KwType, NStr s => code = u "type_error" /\
        text = u "Passed value must be one of the following type(s) `[" ++ repr_str printable s ++ u "]`."
    | KwType, NArr l => code = u "type_error" /\
        text = u "Passed value must be one of the following type(s) `[" ++
          join (u ", ") (map (fun m => repr_str printable (item_str view strx m)) l) ++ u "]`."
    | KwEnum, _ => code = u "enum_error" /\ text = u "Passed value must be one of: `" ++ shown ++ u "`."
    | KwConst, _ => code = u "const_error" /\ text = u "Passed value must be equal to: `" ++ shown ++ u "`"
    | KwMinimum, NNum d | KwExclusiveMinimum, NNum d => code = u "minimum_error" /\
        text = u "Passed value must be greater or equal to set minimum `" ++ dec_text d ++ u "`."
    | KwMaximum, NNum d | KwExclusiveMaximum, NNum d => code = u "maximum_error" /\
        text = u "Passed value must be lower or equal to set maximum `" ++ dec_text d ++ u "`."
    | KwMultipleOf, NNum d => code = u "multiple_of_error" /\ text = u "Passed value must be multiple of `" ++ dec_text d ++ u "`."
    | KwMinLength, NNum d => code = u "min_length_error" /\
        text = u "Passed value must be at least `" ++ int_text (dec_int d) ++ u "` characters long."
    | KwMaxLength, NNum d => code = u "max_length_error" /\
        text = u "Passed value cannot exceed `" ++ int_text (dec_int d) ++ u "` characters."
    | KwFormat, NStr s | KwPattern, NStr s => code = u "format_error" /\ text = u "Passed value must conform `" ++ s ++ u "` format."
    | KwMinItems, NNum d => code = u "minimum_items_error" /\
        text = u "Passed value's length must be greater or equal to set minimum `" ++ int_text (dec_int d) ++ u "`."
    | KwMaxItems, NNum d => code = u "maximum_items_error" /\
        text = u "Passed value's length must be lower or equal to set maximum `" ++ int_text (dec_int d) ++ u "`."
    | KwMinProperties, NNum d => code = u "minimum_properties_error" /\
        text = u "The number of properties is lower than expected minimum: " ++ int_text (dec_int d) ++ u "."
    | KwMaxProperties, NNum d => code = u "maximum_properties_error" /\
        text = u "The number of properties is greater than expected maximum: " ++ int_text (dec_int d) ++ u "."
    | KwContains, _ => code = u "contains_error" /\
        ((exists z, (int_member view items (u "minContains") z \/ (dget (u "minContains") items = None /\ z = 1%Z)) /\
            text = u "Array should contain specified value at least `" ++ int_text z ++ u "` times.") \/
         (exists z, int_member view items (u "maxContains") z /\
            text = u "Array should contain specified value at most `" ++ int_text z ++ u "` times."))
    | KwUniqueItems, NBool true => code = u "unique_items_error" /\ text = u "Passed value must contain only unique items."
    | KwRequired, NArr l => code = u "required_property_error" /\
        exists m, In m l /\ ~ has_name y (item_str view strx m) /\
          text = u "Passed value is missing property `" ++ item_str view strx m ++ u "`."
    | KwDependentRequired, NObj table => code = u "dependent_error" /\
        exists p m names q d, In (p, m) table /\ iter_strs view strx m = Ok names /\ In q names /\
          y = VDict d /\ In p (dkeys d) /\ ~ In q (dkeys d) /\
          text = u "Property `" ++ p ++ u "` requires `" ++ q ++ u "` to be provided."
    | KwOneOf, _ => code = u "error" /\ text = u "Passed value matches more than one expression, exactly one expected."
    | KwNot, _ => code = u "error" /\ text = u "Failed to validate the value."
    | KwItems, _ | KwPrefixItems, _ => code = u "type_error" /\
        text = u "Passed value must be one of the following type(s) `['array']`." /\ forall l, y <> VList l
    | _, _ => False
    end.
  Lemma complaint_speaks items k x y e shown : complaint view strx items k x y e ->
    speaks items k x y shown (error_code e) (sentence printable e shown).
  Proof.
    unfold complaint, speaks. destruct k, x; try contradiction; destruct e; try contradiction; cbn [error_code sentence];
      try (intros ->; split; [reflexivity|]; try reflexivity); try (intro; split; reflexivity).
    all: unfold strs_text; cbn [map join]; rewrite <- ?app_assoc; try reflexivity.
    all: try (intros [-> Hl]; split; [reflexivity|split; [reflexivity|exact Hl]]; fail).
    all: try (match goal with |- context [if ?b then _ else _] => destruct b end; try contradiction; intro; split; reflexivity).
    - intro H. split; [reflexivity|]. left. exists n. split; [exact H|reflexivity].
    - intro H. split; [reflexivity|]. right. exists n. split; [exact H|reflexivity].
    - intros (m & names & d & H1 & H2 & H3 & H4 & H5 & H6). split; [reflexivity|].
      exists property, m, names, expected, d. repeat (split; [assumption|]). reflexivity.
    - intros [(m & Hm & ->) Hn]. split; [reflexivity|]. exists m. split; [exact Hm|]. split; [exact Hn|reflexivity].
    - rewrite map_map. reflexivity.
  Qed.

  Hypothesis Hquiet : quiet_env E.
  Hypothesis Hview : forall n e, view n <> Raise (EValid e).
  Hypothesis Hwf : wf_view view.
  (** every rejection: somewhere inside, a [false] or one keyword that the value
      there does not meet; the code is that keyword's, and the text of the error,
      if there is one, gives the path (read as a template) and then what that
      keyword says with its operand *)
  Theorem C100_rejection_exact n v c e shown : Outcome view strx E voc n v c (Raise (EValid e)) ->
    exists p m y, held view strx E voc c n v p m y /\
      ((exists w, view m = Ok w /\ nv_val w = NBool false /\ ve_path e = dotted (c ++ p) /\
          error_code (ve_kind e) = u "error" /\
          (plain_text (ve_path e) -> plain_text shown ->
            error_text printable e shown =
              Ok (u "Failed validation at `" ++ ve_path e ++ u "`. Unexpected `" ++ shown ++ u "` value passed."))) \/
       (exists items k o x text, operand view voc m items k o x /\
          ~ demands view strx E voc (Accepts view strx E voc) (Rejects view strx E voc) items k o x y (c ++ p) /\
          path_text k (ve_kind e) (c ++ p) y (ve_path e) /\
          speaks items k x y shown (error_code (ve_kind e)) text /\
          (forall s, error_text printable e shown = Ok s -> exists place,
            renders (error_args printable e shown) (ve_path e) place /\
            s = u "Failed validation at `" ++ place ++ u "`. " ++ text) /\
          (plain_text (ve_path e) ->
            error_text printable e shown = Ok (u "Failed validation at `" ++ ve_path e ++ u "`. " ++ text)) /\
          (k <> KwNot -> exists s, error_text printable e shown = Ok s))).
  Proof.
    intro H. destruct (C87_blame view strx E voc Hquiet Hview Hwf n v c e H) as (p & m & y & Hh & Ha).
    exists p, m, y. split; [exact Hh|]. destruct Ha as [w Hw Hb|items k o x e p' Ho Hd Hc Hp].
    - left. exists w. repeat (split; [assumption || reflexivity|]). intros H1 H2.
      rewrite C100_text_partial; [|exact H1|intros _; exact H2]. cbn [ve_kind sentence]. reflexivity.
    - right. exists items, k, o, x, (sentence printable e shown).
      assert (Hk : e <> KFail). { intros ->. destruct k, x; try contradiction; cbn in Hc; destruct b; contradiction. }
      split; [exact Ho|]. split; [exact Hd|]. split; [exact Hp|]. split; [apply complaint_speaks; exact Hc|].
      split; [intros s Hs; apply (C100_text_exact printable (VErr e p') shown s Hk Hs)|].
      split; [intro Hpl; apply C100_text_partial; [exact Hpl|intro; contradiction]|].
      intro Hn. apply C100_always_text. eapply (C36_rendering_partial view strx E voc Hquiet Hview); [exact H|exact Hk|].
      cbn [ve_kind]. intros ->. destruct k, x; try contradiction; try (apply Hn; reflexivity). cbn in Hc; destruct b; contradiction.
  Qed.
End Rejection.

(** ** Refutations *)
(** a member name with doubled braces is shown with single ones, and one that
    is a field name is shown as something else altogether; the path attribute is right *)
Definition brace_schema (k : string) : jt := jobj [("properties", jobj [(k, jobj [("type", jstr "string")])])]%string.
Definition brace_value (k : string) : pv := jdict [(k, VInt 1)].
Theorem C100_text_refuted printable strx E :
  let e k := VErr (KType [u "string"]) (u k) in
  (forall k, In k ["{{a}}"; "{expected_types}"]%string ->
     Outcome tview strx E all_keywords (brace_schema k) (brace_value k) [] (Raise (EValid (e k)))) /\
  error_text printable (e "{{a}}"%string) [] = Ok (u "Failed validation at `{a}`. Passed value must be one of the following type(s) `['string']`.") /\
  error_text printable (e "{expected_types}"%string) [] =
    Ok (u "Failed validation at `['string']`. Passed value must be one of the following type(s) `['string']`.").
Proof.
  intro e. split; [|split; reflexivity].
  intros k [<-|[<-|[]]]; (split; [discriminate|exists 8%nat; vm_compute; reflexivity]).
Qed.
(** an exclusive bound is reported as an inclusive one: 3 is rejected by
    [exclusiveMinimum: 3] with a text that 3 satisfies, the same for every number *)
Theorem C100_bound_refuted printable strx E (z : Z) :
  let e := VErr (KMinimum (Dec z 0)) [] in
  Outcome tview strx E all_keywords (jobj [("exclusiveMinimum", TNum (Dec z 0))]%string) (VInt z) [] (Raise (EValid e)) /\
  error_text printable e [] =
    Ok (u "Failed validation at ``. Passed value must be greater or equal to set minimum `" ++ int_text z ++ u "`.").
Proof.
  split.
  - apply (C08_exclusive_minimum tview strx E all_keywords tview_wf (jobj [("exclusiveMinimum", TNum (Dec z 0))]%string) _ (TNum (Dec z 0)) (Dec z 0) (VInt z) (inject_Z z) [] (obj_members' _));
      [lone_tac|reflexivity|reflexivity| |constructor].
    unfold Qlt, dec_q. cbn. rewrite !Z.mul_1_r. lia.
  - rewrite C100_text_partial; [|intros ? []|discriminate]. cbn [ve_path ve_kind sentence]. rewrite dec_text_int. reflexivity.
Qed.

(** ** A rejection deep inside, with its code and text *)
Example C100_some printable strx E :
  let e := VErr (KMaximum (Dec 3 0)) (u "list.1") in
  Outcome tview strx E all_keywords blame_schema blame_value [] (Raise (EValid e)) /\
  error_code (ve_kind e) = u "maximum_error" /\
  error_text printable e [] =
    Ok (u "Failed validation at `list.1`. Passed value must be lower or equal to set maximum `3`.").
Proof.
  intro e. split; [apply (proj1 C87_some)|]. split; [reflexivity|].
  rewrite C100_text_partial; [reflexivity|apply plain_text_b; reflexivity|discriminate].
Qed.
(** the two members of a dependency, in this order *)
Example C100_dependent printable strx E :
  let n := jobj [("dependentRequired", jobj [("card", TArr [jstr "name"; jstr "zip"])])]%string in
  let e := VErr (KDependent (u "card") (u "zip")) [] in
  Outcome tview strx E all_keywords n (jdict [("name", VInt 1); ("card", VInt 2)]%string) [] (Raise (EValid e)) /\
  error_text printable e [] = Ok (u "Failed validation at ``. Property `card` requires `zip` to be provided.").
Proof. split; [split; [discriminate|exists 8%nat; vm_compute; reflexivity]|reflexivity]. Qed.
(** the hypotheses of the theorem about rejections are met *)
Example C100_rejection_some printable shown :
  exists p m y, held tview ex_strx ex_env all_keywords [] blame_schema blame_value p m y /\
    exists items k o x text, operand tview all_keywords m items k o x /\
      speaks printable tview ex_strx items k x y shown (u "maximum_error") text.
Proof.
  destruct (C100_rejection_exact printable tview ex_strx ex_env all_keywords ex_quiet tview_quiet tview_wf
    blame_schema blame_value [] (VErr (KMaximum (Dec 3 0)) (u "list.1")) shown (proj1 C87_some _ _)) as (p & m & y & Hh & [(w & _ & _ & _ & Hc & _)|H]).
  - discriminate Hc.
  - destruct H as (items & k & o & x & text & Ho & _ & _ & Hs & _). exists p, m, y. split; [exact Hh|].
    exists items, k, o, x, text. split; [exact Ho|exact Hs].
Qed.
Print Assumptions C100_text_partial.
Print Assumptions C100_text_exact.
Print Assumptions C100_outcome.
Print Assumptions C100_always_text.
Print Assumptions C100_rejection_exact.
Print Assumptions C100_text_refuted.
Print Assumptions C100_bound_refuted.
