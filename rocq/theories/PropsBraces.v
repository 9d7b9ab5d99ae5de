(** * C34 for every member name: what leaves [validate] when a member is of the
    wrong type *)
From Verif Require Import PyBase PyBaseFacts PyVal Errors Validators Keywords Spec LeafFacts Mono RunFacts KeywordFacts Master Claims ScalarFacts PropsScalar CompositeFacts PropsObject PropsErrors ErrorText PropsErrorText ExBase.
From Coq Require Import Lia.
Local Open Scope N_scope.

(** ** The specification *)
(** a text that [str.format] takes with arguments of these names: doubled braces
    stand for themselves, a name in braces for an argument *)
Inductive a_template (names : list pystr) : pystr -> Prop :=
| t_end : a_template names []
| t_char c t : c <> 123 -> c <> 125 -> a_template names t -> a_template names (c :: t)
| t_open t : a_template names t -> a_template names (123 :: 123 :: t)
| t_close t : a_template names t -> a_template names (125 :: 125 :: t)
| t_field name t : In name names -> a_template names t -> a_template names (123 :: name ++ 125 :: t).
(** a field that names an argument and goes on with one of [. [ ! :], or whose
    name begins with digits and a character beyond ASCII: left out of the model *)
Definition reaches (names : list pystr) (p : pystr) : Prop :=
  exists before name c after, p = before ++ 123 :: name ++ c :: after /\
    ((In name names /\ (c = 46 \/ c = 91 \/ c = 33 \/ c = 58)) \/ ((forall d, In d name -> 48 <= d <= 57) /\ 128 <= c)).
(** what a type error has for arguments *)
Definition type_fields : list pystr := [u "path"; u "expected_types"].

(** ** Scanning *)
Definition tame_name (name : pystr) : Prop :=
  plain_text name /\ field_outcome [name] name = Ok tt /\ existsb goes_on name = false.
Lemma tame_outcome names name : tame_name name -> In name names -> field_outcome names name = Ok tt.
Proof.
  intros (_ & H & _) I. unfold field_outcome in *. destruct (positional (first_part name)) as [[|]|e|]; cbn [bind] in *; try discriminate.
  destruct (str_mem (first_part name) [name]) eqn:M; [|discriminate]. destruct (existsb _ name); [discriminate|].
  apply str_mem_In in M. destruct M as [M|[]]. rewrite <- M. apply str_mem_In in I. rewrite I. reflexivity.
Qed.
Lemma scan_name names name t : plain_text name -> existsb goes_on name = false -> forall acc,
  format_scan names (Some acc) (name ++ 125 :: t) = (field_outcome names (rev acc ++ name) ;;; format_scan names None t).
Proof.
  induction name as [|c name IH]; intros P G acc; cbn [app format_scan].
  - rewrite app_nil_r. reflexivity.
  - destruct (P c (or_introl eq_refl)) as [H1 H2]. apply N.eqb_neq in H1, H2. unfold c_lb, c_rb. rewrite H1, H2.
    cbn [existsb] in G. apply orb_false_iff in G as [G1 G2]. rewrite G1. rewrite IH; [|intros x I; apply P; right; exact I|exact G2]. cbn [rev]. rewrite <- app_assoc. reflexivity.
Qed.
Lemma scan_template names p b : Forall tame_name names -> a_template names p -> format_scan names None (p ++ b) = format_scan names None b.
Proof.
  intros T H. induction H as [|c t H1 H2 H IH|t H IH|t H IH|name t I H IH]; [reflexivity| | | |].
  - cbn [app format_scan]. apply N.eqb_neq in H1, H2. unfold c_lb, c_rb. rewrite H1, H2. exact IH.
  - cbn [app format_scan]. exact IH.
  - cbn [app format_scan]. exact IH.
  - rewrite Forall_forall in T. pose proof (T name I) as (P & O & G).
    assert (N : exists c r, name = c :: r /\ c <> 123).
    { destruct name as [|c r]; [discriminate O|]. exists c, r. split; [reflexivity|]. apply (P c (or_introl eq_refl)). }
    destruct N as (c & r & Ec & Nc).
    change ((123 :: name ++ 125 :: t) ++ b) with (123 :: (name ++ 125 :: t) ++ b). rewrite <- app_assoc. change ((125 :: t) ++ b) with (125 :: t ++ b).
    cbn [format_scan]. change (123 =? c_rb) with false. change (123 =? c_lb) with true. cbv iota.
    destruct (name ++ 125 :: t ++ b) as [|c' r'] eqn:Ex; [destruct name; discriminate|]. assert (c' = c) by (rewrite Ec in Ex; cbn [app] in Ex; congruence).
    assert (c' =? c_lb = false) as -> by (apply N.eqb_neq; unfold c_lb; congruence). rewrite <- Ex.
    rewrite scan_name by assumption. cbn [rev app]. rewrite (tame_outcome names name (T name I) I). exact IH.
Qed.
Lemma scan_accepts names p b : first_brace b <> Some 125 -> format_scan names None (p ++ 96 :: b) = Ok tt -> a_template names p.
Proof.
  intros Hb H. set (args := map (fun f => (f, @nil N)) names).
  assert (E : map fst args = names) by (unfold args; rewrite map_map; apply map_id).
  rewrite <- E, <- same_outcome in H. destruct (format_text args None (p ++ 96 :: b)) as [s|e|] eqn:F; try discriminate.
  destruct (proj1 (format_split args b Hb (List.length p) p (le_n _)) s F) as (s1 & s2 & R & _).
  clear -R E. induction R as [|c t s H1 H2 R IH|t s R IH|t s R IH|name x t s Ne P D R IH]; [apply t_end|apply t_char; assumption|apply t_open, IH|apply t_close, IH|].
  apply t_field; [|exact IH]. apply dget_In, (in_map fst) in D. rewrite <- E. exact D.
Qed.

Lemma int_unmodelled s : forall acc, get_integer acc s = Raise EUnmodelled -> exists ds c r, s = ds ++ c :: r /\ (forall d, In d ds -> 48 <= d <= 57) /\ 128 <= c.
Proof.
  induction s as [|x s IH]; intros acc; cbn [get_integer]; [discriminate|]. destruct (is_digit x) eqn:D.
  - destruct (_ <? _); [discriminate|]. intro H. destruct (IH _ H) as (ds & c & r & -> & Hd & Hc). exists (x :: ds), c, r. split; [reflexivity|]. split; [|exact Hc].
    intros d [<-|I]; [unfold is_digit in D; apply andb_prop in D as [D1 D2]; apply N.leb_le in D1, D2; lia|apply Hd, I].
  - destruct (N.leb_spec 128 x); [|discriminate]. intros _. exists [], x, s. split; [reflexivity|]. split; [intros d []|assumption].
Qed.
Lemma first_part_split name : exists rest, name = first_part name ++ rest /\ (rest = [] \/ exists r, rest = 46 :: r).
Proof.
  induction name as [|c name (rest & E & H)]; [exists []; auto|]. cbn [first_part]. unfold c_dot. destruct (N.eqb_spec c 46) as [->|N].
  - exists (46 :: name). split; [reflexivity|]. right. eauto.
  - exists rest. split; [cbn [app]; congruence|exact H].
Qed.
(** the field text [name] read so far, in what follows the opening brace *)
Lemma field_unmodelled names name t : field_outcome names name = Raise EUnmodelled -> reaches names (123 :: name ++ t).
Proof.
  unfold field_outcome. destruct (first_part_split name) as (rest & E & R). destruct (positional (first_part name)) as [[|]|e|] eqn:P; cbn [bind]; try discriminate.
  - destruct (str_mem (first_part name) names) eqn:M; [|discriminate]. destruct (existsb (N.eqb c_dot) name) eqn:D; [|discriminate]. intros _. apply str_mem_In in M.
    destruct R as [->|[r ->]].
    + exfalso. rewrite app_nil_r in E. apply existsb_exists in D as (x & I & X). apply N.eqb_eq in X. subst x. clear -E I. induction name as [|c name IH]; [destruct I|].
      cbn [first_part] in E. unfold c_dot in *. destruct (N.eqb_spec c 46) as [->|N]; [discriminate E|]. destruct I as [I|I]; [congruence|]. apply IH; [congruence|exact I].
    + exists [], (first_part name), 46, (r ++ t). split; [cbn [app]; rewrite E at 1; rewrite <- app_assoc; reflexivity|]. left. auto.
  - intros [= ->]. unfold positional in P. destruct (first_part name) as [|x f] eqn:F; [discriminate|]. destruct (get_integer 0 (x :: f)) as [i|e|] eqn:G; cbn [bind] in P; try discriminate.
    injection P as ->. apply int_unmodelled in G as (ds & c & r & G & Hd & Hc). rewrite G in E. exists [], ds, c, (r ++ rest ++ t). split; [cbn [app]; rewrite E; rewrite <- !app_assoc; reflexivity|]. right. auto.
Qed.
Lemma reaches_in names a p : reaches names p -> reaches names (a ++ p).
Proof. intros (b & name & c & r & -> & H). exists (a ++ b), name, c, r. split; [rewrite <- app_assoc; reflexivity|exact H]. Qed.
Lemma reaches_before names p b : (forall name, In name names -> ~ In 96 name) -> reaches names (p ++ 96 :: b) -> reaches names p \/ reaches names b.
Proof.
  intros B (a & name & c & r & E & H). revert p E. induction a as [|x a IH]; intros p E.
  - left. cbn [app] in E. destruct p as [|y p]; cbn [app] in E; [discriminate|]. injection E as -> E.
    assert (N : ~ In 96 (name ++ [c])).
    { intro I. apply in_app_or in I as [I|[I|[]]]; destruct H as [[I' H]|[I' H]]; [apply (B name I' I)|specialize (I' 96 I); lia|lia|lia]. }
    assert (K : exists r', p = name ++ c :: r').
    { clear -E N. revert p E. induction name as [|z name IH]; intros p E; cbn [app] in *.
      - destruct p as [|y p]; cbn [app] in E; [injection E as E _; exfalso; apply N; left; congruence|]. injection E as -> E. exists p. reflexivity.
      - destruct p as [|y p]; cbn [app] in E; [injection E as E _; exfalso; apply N; left; congruence|]. injection E as -> E. destruct (IH (fun I => N (or_intror I)) p E) as [r' ->]. exists r'. reflexivity. }
    destruct K as [r' ->]. exists [], name, c, r'. split; [reflexivity|exact H].
  - destruct p as [|y p]; cbn [app] in E.
    + injection E as _ E. right. exists a, name, c, r. split; assumption.
    + injection E as -> E. destruct (IH p E) as [K|K]; [left|right; exact K]. exact (reaches_in names [x] p K).
Qed.
Lemma scan_unmodelled names : forall n t, (List.length t <= n)%nat ->
  (format_scan names None t = Raise EUnmodelled -> reaches names t) /\
  (forall acc, format_scan names (Some acc) t = Raise EUnmodelled -> reaches names (123 :: rev acc ++ t)).
Proof.
  induction n as [|n IH]; intros t L; (destruct t as [|c t]; [split; [discriminate|intros acc; discriminate]|]); cbn [List.length] in L; [lia|]. split.
  - cbn [format_scan]. destruct (c =? c_rb).
    { destruct t as [|c' t]; [discriminate|]. destruct (c' =? c_rb); [|discriminate]. intro H. apply (reaches_in names [c; c']). apply (IH t); [cbn [List.length] in L; lia|exact H]. }
    destruct (N.eqb_spec c c_lb) as [->|_].
    { destruct t as [|c' t]; [discriminate|]. destruct (c' =? c_lb); intro H.
      - apply (reaches_in names [c_lb; c']). apply (IH t); [cbn [List.length] in L; lia|exact H].
      - exact (proj2 (IH (c' :: t) ltac:(cbn [List.length] in *; lia)) [] H). }
    intro H. apply (reaches_in names [c]). apply (IH t); [lia|exact H].
  - intros acc. cbn [format_scan]. destruct (c =? c_lb); [discriminate|]. destruct (c =? c_rb).
    { destruct (field_outcome names (rev acc)) as [[]|e|] eqn:F; cbn [bind]; [|intros [= ->]; apply field_unmodelled, F|discriminate].
      intro H. assert (K : reaches names t) by (apply (IH t); [lia|exact H]). apply (reaches_in names (123 :: rev acc ++ [c])) in K. rewrite <- app_comm_cons, <- app_assoc in K. exact K. }
    destruct (goes_on c) eqn:G.
    { destruct (name_ends false (c :: t)); [|discriminate]. destruct (field_outcome names (rev acc)) as [[]|e|] eqn:F; cbn [bind]; [|intros [= ->]; apply field_unmodelled, F|discriminate].
      intros _. exists [], (rev acc), c, t. split; [reflexivity|]. left. unfold field_outcome in F. destruct (positional _) as [[|]|e|]; cbn [bind] in F; try discriminate.
      destruct (str_mem (first_part (rev acc)) names) eqn:M; [|discriminate]. destruct (existsb (N.eqb c_dot) (rev acc)) eqn:D; [discriminate|]. apply str_mem_In in M.
      assert (E : first_part (rev acc) = rev acc).
      { clear -D. induction (rev acc) as [|x l IH]; [reflexivity|]. cbn [existsb] in D. apply orb_false_iff in D as [D1 D2]. cbn [first_part]. rewrite N.eqb_sym, D1, (IH D2). reflexivity. }
      rewrite E in M. split; [exact M|]. unfold goes_on, c_sub, c_spec, c_conv in G. apply orb_prop in G as [G|G]; [apply orb_prop in G as [G|G]|]; apply N.eqb_eq in G; auto. }
    intro H. pose proof (proj2 (IH t ltac:(lia)) (c :: acc) H) as K. cbn [rev] in K. rewrite <- app_assoc in K. exact K.
Qed.

(** ** A type error at any place *)
Lemma type_fields_tame : Forall tame_name type_fields.
Proof. repeat (constructor; [split; [apply plain_text_b; reflexivity|split; reflexivity]|]). constructor. Qed.
Definition after_path : pystr := u ". " ++ template (KType []).
Lemma type_scan ts p : err_str (KType ts) p (template (KType ts)) = format_scan type_fields None (p ++ 96 :: after_path).
Proof.
  unfold err_str, py_format. rewrite scan_plain by (apply plain_text_b; reflexivity). reflexivity.
Qed.
Lemma one_brace x : forall y a r, ~ In 123 x -> ~ In 123 y -> x ++ 123 :: y = a ++ 123 :: r -> r = y.
Proof.
  induction x as [|c x IH]; intros y [|d a] r Nx Ny E; cbn [app] in E.
  - congruence.
  - injection E as _ E. exfalso. apply Ny. rewrite E. apply in_or_app. right. left. reflexivity.
  - injection E as E _. exfalso. apply Nx. left. congruence.
  - injection E as _ E. eapply IH; [intro I; apply Nx; right; exact I|exact Ny|exact E].
Qed.
Lemma type_raised ts p : (a_template type_fields p /\ @raise_verr unit (KType ts) p = Raise (EValid (VErr (KType ts) p))) \/
  (~ a_template type_fields p /\ exists e, @raise_verr unit (KType ts) p = Raise e /\ (e = EValue \/ e = EIndex \/ (exists name, e = EKey name) \/ (e = EUnmodelled /\ reaches type_fields p))).
Proof.
  unfold raise_verr. cbn [by_args]. rewrite type_scan.
  assert (S : format_scan type_fields None (96 :: after_path) = Ok tt) by reflexivity.
  destruct (format_scan type_fields None (p ++ 96 :: after_path)) as [[]|e|] eqn:F; cbn [bind].
  - left. split; [|reflexivity]. apply (scan_accepts type_fields p after_path); [vm_compute; discriminate|exact F].
  - right. split; [intro T; rewrite (scan_template _ _ _ type_fields_tame T), S in F; discriminate|]. exists e. split; [reflexivity|].
    pose proof (scan_raises _ _ _ _ F) as [->|[->|[H| ->]]]; auto. right; right; right. split; [reflexivity|].
    apply (proj1 (scan_unmodelled type_fields _ _ (le_n _))) in F. apply reaches_before in F as [F|F]; [exact F| |].
    + exfalso. destruct F as (a & name & c & r & E & H).
      assert (E' : name ++ c :: r = u "expected_types}`.") by (apply (one_brace (u ". Passed value must be one of the following type(s) `") _ a); [vm_compute; intuition discriminate|vm_compute; intuition discriminate|exact E]).
      destruct H as [[[<-|[<-|[]]] H]|[D H]].
      * vm_compute in E'. discriminate.
      * vm_compute in E'. injection E' as -> _. lia.
      * destruct name as [|d name]; vm_compute in E'; injection E' as -> _; [lia|]. specialize (D 101 (or_introl eq_refl)). lia.
    + intros name [<-|[<-|[]]]; vm_compute; intuition discriminate.
  - exfalso. destruct (@raise_verr_cases unit (KType ts) p) as [e He]. unfold raise_verr in He. cbn [by_args] in He. rewrite type_scan, F in He. discriminate.
Qed.

Section Names.
  Context {node : Type} (view : node -> res (nview node)) (strx : node -> pystr) (E : env).
  Variable voc : list akw.
  Hypothesis Hwf : wf_view view.
  Notation Outcome := (Outcome view strx E voc).
  Notation RejectsWith := (RejectsWith view strx E voc).
  Notation obj_at := (obj_at view).
  Notation lone := (lone voc).
  (** [walks c n v names s y]: validating [v] with [n] at the place [c] comes, by
      the members [names], to validating [y] with [s], and meets no fault before *)
  Inductive walks (c : list pystr) : node -> pv -> list pystr -> node -> pv -> Prop :=
  | w_here n v : walks c n v [] n v
  | w_member n props pats r closed before key y after s names s' y' :
      object_schema view voc n props pats r closed None -> good_patterns E pats ->
      (forall k x, In (k, x) before -> judged view strx E voc props pats r closed c k x) ->
      dget key props = Some s -> walks (c ++ [key]) s y names s' y' ->
      walks c n (VDict (before ++ (key, y) :: after)) (key :: names) s' y'.
  Lemma walks_outcome c n v names s y e : walks c n v names s y -> Outcome s y (c ++ names) (Raise e) -> Outcome n v c (Raise e).
  Proof.
    induction 1 as [c n v|c n props pats r closed before key y after s names s' y' O G B K W IH]; intro H; [rewrite app_nil_r in H; exact H|].
    eapply C15_first_fault; [eassumption..|]. eapply bad_property; [exact K|]. apply IH. rewrite <- app_assoc. exact H.
  Qed.

  (** C34, exactly, for members of the wrong type: the exception is a
      [ValidationError] if and only if the path, with the member names in it, is a
      text that [str.format] takes; else it is a [ValueError], [IndexError] or
      [KeyError]. *)
  Theorem C34_names n v names s y items m ts :
    walks [] n v names s y -> obj_at s items -> lone items KwType m -> type_operand view m ts -> incl ts type_names ->
    ~ (exists t, In t ts /\ has_type y t) ->
    (a_template type_fields (dotted names) /\ RejectsWith n v [] (KType ts) names) \/
    (~ a_template type_fields (dotted names) /\ exists e, Outcome n v [] (Raise e) /\
       (e = EValue \/ e = EIndex \/ (exists name, e = EKey name) \/ (e = EUnmodelled /\ reaches type_fields (dotted names)))).
  Proof.
    intros W Hn Hl Hts Hinc No. pose proof Hl as (_ & Hm & _).
    assert (Hb : forallb (fun t => str_mem t valid_types) ts = true).
    { apply forallb_forall. intros t Ht. apply str_mem_In. exact (Hinc t Ht). }
    assert (Ha : apply view strx E KwType items [] = Ok (put KwType (VType ts) [])).
    { destruct Hts as [(q & Hs & ->)|(l & Hs & Hf)]; unfold Claims.val_at in Hs.
      - kw_apply Hm Hs. rewrite Hb. reflexivity.
      - kw_apply Hm Hs. rewrite (names_item_str view strx l ts Hf), Hb. reflexivity. }
    assert (R : Outcome s y names (@raise_verr unit (KType ts) (dotted names))).
    { eapply lone_leaf; [exact Hwf|exact Hn|exact Hl|reflexivity|exact Ha| |apply raise_verr_not_oof]. intros rec lf. rewrite <- dotted_path. apply type_raise, No. }
    destruct (type_raised ts (dotted names)) as [[T K]|(T & e & K & H)]; rewrite K in R; [left|right]; (split; [exact T|]).
    - eapply walks_outcome; [exact W|exact R].
    - exists e. split; [|exact H]. eapply walks_outcome; [exact W|exact R].
  Qed.
End Names.

(** ** A case: two members with any names, the inner one of the wrong type *)
Definition named (key : pystr) (s : jt) : jt := TObj [(u "properties", TObj [(key, s)])].
Definition a_string : jt := jobj [("type", jstr "string")]%string.
Lemma walks_named E c key s y names s' y' : walks tview ex_strx E all_keywords (c ++ [key]) s y names s' y' ->
  walks tview ex_strx E all_keywords c (named key s) (VDict [(key, y)]) (key :: names) s' y'.
Proof.
  intro W. apply (w_member tview ex_strx E all_keywords c (named key s) [(key, s)] [] Free false [] key y [] s); [| | | |exact W].
  - exists [(u "properties", TObj [(key, s)])]. split; [eexists; split; reflexivity|]. split.
    { intros k _ [H|[]]. left. destruct k; try discriminate H. reflexivity. }
    split; [right; eexists; split; [split; [vm_compute; tauto|reflexivity]|eexists; split; reflexivity]|].
    assert (U : forall k, dget (kw_key k) [(u "properties", TObj [(key, s)])] = None -> unused all_keywords [(u "properties", TObj [(key, s)])] k).
    { intros k H [_ I]. apply dget_None in H. exact (H I). }
    split; [left; split; [apply U; reflexivity|reflexivity]|]. split; [left; apply U; reflexivity|]. split; [left; split; [reflexivity|apply U; reflexivity]|]. apply U; reflexivity.
  - intros p q [].
  - intros k x [].
  - cbn [dget]. rewrite str_eqb_refl. reflexivity.
Qed.
Example C34_names_some : 
  let E := ex_env in let run a b := validate tview ex_strx E all_keywords 9 (named a (named b a_string)) (VDict [(a, VDict [(b, VInt 1)])]) [] in
  (forall a b, walks tview ex_strx E all_keywords [] (named a (named b a_string)) (VDict [(a, VDict [(b, VInt 1)])]) [a; b] a_string (VInt 1)) /\
  (forall a b, (a_template type_fields (dotted [a; b]) /\ RejectsWith tview ex_strx E all_keywords (named a (named b a_string)) (VDict [(a, VDict [(b, VInt 1)])]) [] (KType [u "string"]) [a; b]) \/
     (~ a_template type_fields (dotted [a; b]) /\ exists e, Outcome tview ex_strx E all_keywords (named a (named b a_string)) (VDict [(a, VDict [(b, VInt 1)])]) [] (Raise e) /\
       (e = EValue \/ e = EIndex \/ (exists name, e = EKey name) \/ (e = EUnmodelled /\ reaches type_fields (dotted [a; b]))))) /\
  a_template type_fields (dotted [u "x{{"; u "{path}"]) /\ run (u "x{{") (u "{path}") = Raise (EValid (VErr (KType [u "string"]) (u "x{{.{path}"))) /\
  run (u "x") (u "{") = Raise EValue /\ run (u "{x") (u "y}") = Raise (EKey (u "x")) /\ run (u "x") (u "{0}") = Raise EIndex /\
  run (u "x") (u "{9223372036854775808}") = Raise EValue /\ run (u "x") (u "{y!z}") = Raise (EKey (u "y")) /\ run (u "x") (u "{y!}") = Raise EValue.
Proof.
  cbv zeta. assert (W : forall a b, walks tview ex_strx ex_env all_keywords [] (named a (named b a_string)) (VDict [(a, VDict [(b, VInt 1)])]) [a; b] a_string (VInt 1)).
  { intros a b. apply walks_named, walks_named, w_here. }
  split; [exact W|]. split.
  { intros a b. refine (C34_names tview ex_strx ex_env all_keywords tview_wf _ _ _ _ _ (members a_string) (jstr "string") [u "string"] (W a b) (obj_members _) _ _ _ _).
    - apply lone_b_ok; reflexivity.
    - left. exists (u "string"). split; [eexists; split; reflexivity|reflexivity].
    - intros t [<-|[]]. vm_compute. tauto.
    - intros (t & [<-|[]] & H). vm_compute in H; intuition discriminate. }
  split.
  { change (dotted [u "x{{"; u "{path}"]) with (120 :: 123 :: 123 :: 46 :: 123 :: u "path" ++ 125 :: []).
    apply t_char; [discriminate|discriminate|]. apply t_open. apply t_char; [discriminate|discriminate|]. apply t_field; [left; reflexivity|apply t_end]. }
  repeat split; vm_compute; reflexivity.
Qed.
