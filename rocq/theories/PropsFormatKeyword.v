(** The boolean format, and the [format] keyword with the table of formats the
    package comes with. *)
From Verif Require Import Regex RegexFacts FormatSpec Formats PropsFormats IsoSpec Iso PropsIso PropsClock PropsDuration PropsUrl.
From Verif Require Import PyBase PyBaseFacts PyVal Errors Validators Keywords Spec LeafFacts KeywordFacts Master Claims ScalarFacts
  PropsScalar ExBase.
From Coq Require Import QArith.
Local Open Scope Z_scope.
Local Notation length := List.length (only parsing).

(** ** C73: the boolean format *)
Theorem C73_boolean v :
  (format_boolean v = Ok true <->
     (exists s, v = VStr s /\ In s boolean_words) \/ exists q, value_is v q /\ (q == 0 \/ q == 1)%Q) /\
  (format_boolean v = Raise EType <-> ~ unstructured v) /\
  (unstructured v -> format_boolean v = Ok true \/ format_boolean v = Ok false).
Proof.
  assert (Num : (forall s, v <> VStr s) -> v <> VNone -> unstructured v ->
    (format_boolean v = Ok true <-> exists q, value_is v q /\ (q == 0 \/ q == 1)%Q)).
  { intros Hs Hn Hu.
    assert (E : format_boolean v = Ok (py_eq v (VInt 0) || py_eq v (VInt 1))).
    { destruct v; try reflexivity; try contradiction. exfalso. exact (Hs _ eq_refl). }
    rewrite E. clear E.
    assert (E : Ok (py_eq v (VInt 0) || py_eq v (VInt 1)) = Ok true <-> py_eq v (VInt 0) = true \/ py_eq v (VInt 1) = true).
    { rewrite <- orb_true_iff. split; congruence. }
    rewrite E, <- !equal_values_eq by (assumption || exact I). clear E.
    destruct v; try contradiction; try (exfalso; exact (Hs _ eq_refl)); try (exfalso; exact (Hn eq_refl));
      unfold equal_values, value_is;
      (split;
       [intros [(p & q & -> & -> & H)|(p & q & -> & -> & H)]; eexists; (split; [reflexivity|]); [left|right]; exact H
       |intros (q & -> & [H|H]); [left|right]; eexists _, _; (split; [reflexivity|]); (split; [reflexivity|]); exact H]). }
  destruct v as [|b|z|f|d|s|l|l].
  - split; [split; [discriminate|intros [(s & E & _)|(q & [] & _)]; discriminate]|].
    split; [split; [discriminate|intro H; exfalso; apply H; exact I]|]. right. reflexivity.
  - split; [|split; [split; [discriminate|intro H; exfalso; apply H; exact I]|intros _; cbn [format_boolean]; destruct (_ || _); auto]].
    rewrite Num by (discriminate || exact I). split; [auto|]. intros [(s & E & _)|H]; [discriminate|exact H].
  - split; [|split; [split; [discriminate|intro H; exfalso; apply H; exact I]|intros _; cbn [format_boolean]; destruct (_ || _); auto]].
    rewrite Num by (discriminate || exact I). split; [auto|]. intros [(s & E & _)|H]; [discriminate|exact H].
  - split; [|split; [split; [discriminate|intro H; exfalso; apply H; exact I]|intros _; cbn [format_boolean]; destruct (_ || _); auto]].
    rewrite Num by (discriminate || exact I). split; [auto|]. intros [(s & E & _)|H]; [discriminate|exact H].
  - split; [|split; [split; [discriminate|intro H; exfalso; apply H; exact I]|intros _; cbn [format_boolean]; destruct (_ || _); auto]].
    rewrite Num by (discriminate || exact I). split; [auto|]. intros [(s & E & _)|H]; [discriminate|exact H].
  - split; [|split; [split; [discriminate|intro H; exfalso; apply H; exact I]|intros _; cbn [format_boolean]; destruct (str_mem _ _); auto]].
    cbn [format_boolean]. split.
    + intro H. assert (H' := f_equal (fun r => match r with Ok b => b | _ => false end) H). cbv beta iota in H'. clear H. rename H' into H. left. exists s. split; [reflexivity|]. apply str_mem_In in H. unfold boolean_words. cbn [map] in *.
      cbn [In] in *. tauto.
    + intros [(s' & [= <-] & H)|(q & [] & _)]. f_equal. apply str_mem_In. unfold boolean_words in H. cbn [map] in *.
      cbn [In] in *. tauto.
  - split; [split; [discriminate|intros [(s & E & _)|(q & [] & _)]; discriminate]|].
    split; [split; [intros _ []|reflexivity]|]. intros [].
  - split; [split; [discriminate|intros [(s & E & _)|(q & [] & _)]; discriminate]|].
    split; [split; [intros _ []|reflexivity]|]. intros [].
Qed.
Example C73_some : format_boolean (VStr (u "nope")) = Ok true /\ format_boolean (VStr (u "Yes")) = Ok false /\
  format_boolean (VBool false) = Ok true /\ format_boolean (VDec (Dec 10 (-1))) = Ok true /\
  format_boolean (VInt 2) = Ok false /\ format_boolean (VList []) = Raise EType.
Proof. repeat split; vm_compute; reflexivity. Qed.

(** ** C77: the [format] keyword *)
Section Keyword.
  Context {node : Type} (view : node -> res (nview node)) (strx : node -> pystr) (E : env) (voc : list akw).
  Hypothesis Hwf : wf_view view.
  Notation Accepts := (Accepts view strx E voc).
  Notation Outcome := (Outcome view strx E voc).
  Notation RejectsWith := (RejectsWith view strx E voc).
  Notation obj_at := (obj_at view).
  Notation val_at := (val_at view).
  Notation lone := (lone voc).

  Lemma format_apply items name m test d : dget (kw_key KwFormat) items = Some m -> val_at m (NStr name) ->
    fmt E name = Some test -> apply view strx E KwFormat items d = Ok (put KwFormat (VFormat name) d).
  Proof. intros Hm Hx Hf. unfold Claims.val_at in Hx. kw_apply Hm Hx. rewrite Hf. reflexivity. Qed.

  (** a format the table has: whatever its test says about the value *)
  Theorem C77_known n items m name test v c :
    obj_at n items -> lone items KwFormat m -> val_at m (NStr name) -> fmt E name = Some test ->
    (test v = Ok true -> Accepts n v c) /\
    (test v = Ok false -> plain c -> RejectsWith n v c (KFormat name) c) /\
    (forall x, test v = Raise x -> Outcome n v c (Raise x)) /\
    (Accepts n v c -> test v = Ok true).
  Proof.
    intros Hn Hl Hx Hf. pose proof Hl as (_ & Hm & _).
    pose proof (format_apply items name m test [] Hm Hx Hf) as Ha.
    assert (R : forall rec lf, @run_vobj node view node E rec lf (VFormat name) v c = format_validate E name v c) by reflexivity.
    assert (R' : format_validate E name v c = (b <- test v ;; if b then Ok tt else raise_verr (KFormat name) (ctx_path c)))
      by (unfold format_validate; rewrite Hf; reflexivity).
    assert (A := leaf_accepts view strx E voc Hwf n items KwFormat m (VFormat name) v c (format_validate E name v c) Hn Hl eq_refl Ha R).
    split; [|split; [|split]].
    - intro H. apply A. rewrite R', H. reflexivity.
    - intros H Hc. apply (leaf_rejects view strx E voc Hwf n items KwFormat m (VFormat name) v c (KFormat name) Hn Hl eq_refl Ha); [|exact Hc].
      intros rec lf. rewrite R, R', H. reflexivity.
    - intros x H. apply (lone_leaf view strx E voc Hwf n items KwFormat m (VFormat name) v c _ Hn Hl eq_refl Ha); [|discriminate].
      intros rec lf. rewrite R, R', H. reflexivity.
    - intro H. apply A in H. rewrite R' in H. destruct (test v) as [[|]|x|]; cbn [bind] in H; unfold raise_verr in H; try reflexivity; try discriminate; cbn [by_args] in H; destruct (err_str _ _ _); discriminate.
  Qed.
  (** a format the table does not have: the schema is refused, whatever the value *)
  Theorem C77_unknown n items m name v c :
    obj_at n items -> lone items KwFormat m -> val_at m (NStr name) -> fmt E name = None ->
    Outcome n v c (Raise ESchemaParse).
  Proof.
    intros Hn Hl Hx Hf. pose proof Hl as (_ & Hm & _).
    assert (Ha : apply view strx E KwFormat items [] = Raise ESchemaParse).
    { unfold Claims.val_at in Hx. kw_apply Hm Hx. rewrite Hf. reflexivity. }
    destruct Hn as (w & Hw & Hi). destruct Hl as (Hv & _ & Hu).
    assert (R : run_kws view strx E w voc [] = Raise ESchemaParse).
    { clear Hw. induction voc as [|k l IH]; [contradiction|]. cbn [run_kws]. unfold step_kw, can_apply. rewrite Hi. cbn [bind].
      destruct (dmem (kw_key k) items) eqn:D.
      - apply dmem_In in D. rewrite (Hu k (or_introl eq_refl) D), Ha. reflexivity.
      - cbn [bind]. apply IH.
        + destruct Hv as [->|Hv]; [|exact Hv]. exfalso. unfold dmem in D. rewrite Hm in D. discriminate.
        + intros k' Hk'. apply Hu. right. exact Hk'. }
    split; [discriminate|]. exists 1%nat. cbn [validate]. unfold compile. rewrite Hw. cbn [bind]. rewrite Hi, R. reflexivity.
  Qed.
End Keyword.

(** *** What the names of the built-in table mean for a text *)
Section Table.
  Variable X : fmt_env.
  Local Notation dig := (digit (iso X)).
  Local Notation us := (float_us (iso X)).
  Local Open Scope string_scope.
  (** [t] may follow the text: a pattern ending in [$] also matches before a
      final line feed *)
  Definition upto_newline (P : pystr -> Prop) (s : pystr) : Prop := exists w t, s = (w ++ t)%list /\ final_newline t /\ P w.
  Definition meaning : list (string * (pystr -> Prop)) :=
    [("boolean", fun s => In s boolean_words);
     ("byte", fun s => b64_decodes X (VStr s) = true);
     ("date", upto_newline (fun w => exists y m d, written_date dig w y m d /\ real_date y m d));
     ("date-time", upto_newline (fun w => exists y mo d cols h m sec frac tz,
        written_datetime dig w y mo d cols h m sec frac tz /\ cols <> 1%nat /\ real_date y mo d /\ clock_ok h m sec /\ zone_ok tz));
     ("decimal", fun s => decimal_finite X (VStr s) = true);
     ("email", upto_newline (email folded_letter));
     ("hostname", upto_newline (host folded_letter));
     ("ip-address", fun s => ipv4 X (VStr s) = Ok true \/ ipv4 X (VStr s) = Ok false /\ ipv6 X (VStr s) = Ok true);
     ("ip-address-v4", fun s => ipv4 X (VStr s) = Ok true);
     ("ip-address-v6", fun s => ipv6 X (VStr s) = Ok true);
     ("pattern", fun s => re_compiles X (VStr s) = true);
     ("semver", upto_newline (semver folded_letter));
     ("time", fun s => exists cols h m sec frac tz,
        written_time dig s cols h m sec frac tz /\ cols <> 1%nat /\ clock_ok h m sec /\ frac <= 999999 /\ zone_ok tz);
     ("time-duration", fun s => exists sign w d h m n, written_duration dig us s sign w d h m n /\
        let t := sign * ((((w * 7 + d) * 24 + h) * 60 + m) * 60 * 1000000 + n) in
        -999999999 * 86400000000 <= t < 1000000000 * 86400000000);
     ("uri", upto_newline (uri_text folded_letter (u "+,-.")));
     ("url", upto_newline (url True));
     ("uuid", fun s => uuid_ok X (VStr s) = true)].

  Hypothesis str_text : forall s, str_of X (VStr s) = s.
  Hypothesis Xok : digits_ok (iso X).
  Hypothesis long_s : dig 383%N = None.

  Lemma okb b : Ok b = Ok true <-> b = true.
  Proof. split; congruence. Qed.
  Lemma catch_value_ok {A} (r : res A) : catch_value r = Ok true <-> exists x, r = Ok x.
  Proof. destruct r as [x|[]|]; cbn; split; try discriminate; try (intros [? ?]; discriminate); eauto. Qed.
  Lemma catch_all_ok {A} (r : res A) : catch_all r = Ok true <-> exists x, r = Ok x.
  Proof. destruct r as [x|e|]; cbn; split; try discriminate; try (intros [? ?]; discriminate); eauto. Qed.

  Theorem C77_table name P s : In (name, P) meaning ->
    (name = "url" -> forall c, In c s -> dig c <> None -> ascii_digit c) ->
    exists test, string_format X (u name) = Some test /\ (test (VStr s) = Ok true <-> P s).
  Proof.
    intros H Hd. unfold meaning in H.
    cbn [In] in H. repeat match goal with H : _ \/ _ |- _ => destruct H as [H|H] end; [..|contradiction];
      injection H as <- <-; (eexists; split; [reflexivity|]); cbn [fst snd]; cbn beta.
    - (* boolean *) rewrite (proj1 (C73_boolean _)). split.
      + intros [(s' & [= <-] & H)|(q & [] & _)]. exact H.
      + intro H. left. exists s. auto.
    - (* byte *) apply okb.
    - (* date *) unfold format_date. rewrite str_text, catch_value_ok. split.
      + intros [[y m d] H]. apply (C60_date_exact _ Xok) in H as [(w & t & E & Ht & Hw) Hr].
        exists w, t. split; [exact E|]. split; [exact Ht|]. exists y, m, d. auto.
      + intros (w & t & E & Ht & y & m & d & Hw & Hr). exists (PDate y m d). apply (C60_date_exact _ Xok).
        split; [|exact Hr]. exists w, t. auto.
    - (* date-time *) unfold format_datetime. rewrite str_text, catch_value_ok. split.
      + intros [x H]. apply (C61_datetime_accepts _ Xok) in H as (y & mo & d & cols & h & m & sec & frac & tz & (w & t & E & Ht & Hw) & Hc & Hr & Hk & Hz & _).
        exists w, t. split; [exact E|]. split; [exact Ht|]. exists y, mo, d, cols, h, m, sec, frac, tz. auto.
      + intros (w & t & E & Ht & y & mo & d & cols & h & m & sec & frac & tz & Hw & Hc & Hr & Hk & Hz).
        exists (PDate y mo d, PTime h m sec 0 tz). apply (C61_datetime_accepts _ Xok).
        exists y, mo, d, cols, h, m, sec, frac, tz. split; [exists w, t; auto|]. auto.
    - (* decimal *) apply okb.
    - (* email *) apply C64_email_exact.
    - (* hostname *) apply C59_hostname_exact.
    - (* ip-address *) unfold format_ip. destruct (ipv4 X (VStr s)) as [[|]|x|]; cbn [bind]; split; try (intros [H|[H1 H2]]; congruence); auto; discriminate.
    - reflexivity.
    - reflexivity.
    - (* pattern *) apply okb.
    - (* semver *) apply C63_semver_exact. exact str_text.
    - (* time *) unfold format_time. rewrite str_text, catch_value_ok. split.
      + intros [x H]. apply (C61_time_accepts _ Xok) in H as (cols & h & m & sec & frac & tz & Hw & Hc & Hk & Hf & Hz & _).
        exists cols, h, m, sec, frac, tz. auto.
      + intros (cols & h & m & sec & frac & tz & Hw & Hc & Hk & Hf & Hz). eexists. apply (C61_time_accepts _ Xok).
        exists cols, h, m, sec, frac, tz. repeat (split; [eassumption|]). reflexivity.
    - (* time-duration *) unfold format_duration. rewrite str_text, catch_all_ok. split.
      + intros [x H]. destruct (C62_outcomes (iso X) s Xok long_s) as [(sign & w & d & h & m & n & Hw & R)|[R|R]]; [|congruence|congruence].
        exists sign, w, d, h, m, n. split; [exact Hw|]. cbv zeta in *. unfold microseconds in R. rewrite R in H.
        destruct (_ && _) eqn:B in H; [|discriminate]. apply andb_true_iff in B as [B1 B2].
        apply Z.leb_le in B1. apply Z.ltb_lt in B2. auto.
      + intros (sign & w & d & h & m & n & Hw & B). cbv zeta in B. rewrite (C62_reads _ Xok long_s _ _ _ _ _ _ _ Hw).
        unfold mk_delta, microseconds, us_per_day. eexists.
        rewrite (proj2 (Z.leb_le _ _)) by lia. rewrite (proj2 (Z.ltb_lt _ _)) by lia. reflexivity.
    - (* uri *) apply C74_uri_exact. apply str_text.
    - (* url *) apply C75_url_exact; [apply str_text|exact (Hd eq_refl)|exact Xok].
    - apply okb.
  Qed.
  Theorem C77_no_other name : string_format X name <> None <-> In name (map (fun e => u (fst e)) meaning).
  Proof.
    unfold string_format. split.
    - intro H. destruct (dget name (formats X)) eqn:D; [|congruence]. apply dget_In in D.
      apply (in_map fst) in D. exact D.
    - intro H. intro D. apply dget_None in D. apply D. exact H.
  Qed.

  (** *** Registering formats *)
  Theorem C77_registered hist name f later : ~ In name (map fst later) ->
    dget name (registered X (hist ++ (name, f) :: later)) = Some f.
  Proof.
    intro H. unfold registered. rewrite fold_left_app. cbn [fold_left fst snd].
    generalize (fold_left (fun t nf => dset (fst nf) (snd nf) t) hist (formats X)) as t0. intro t0.
    assert (K : dget name (dset name f t0) = Some f) by (rewrite dget_dset, str_eqb_refl; reflexivity).
    revert K. generalize (dset name f t0) as t1. revert H. induction later as [|[k g] l IH]; intros H t1 K; [exact K|].
    cbn [fold_left fst snd]. apply IH; [intro C; apply H; right; exact C|].
    rewrite dget_dset. destruct (str_eqb_spec name k) as [->|_]; [exfalso; apply H; left; reflexivity|exact K].
  Qed.
  Theorem C77_not_registered hist name : ~ In name (map fst hist) -> dget name (registered X hist) = string_format X name.
  Proof.
    unfold registered, string_format. generalize (formats X) as t0. induction hist as [|[k g] l IH]; intros t0 H; [reflexivity|].
    cbn [fold_left fst snd]. rewrite IH by (intro C; apply H; right; exact C).
    rewrite dget_dset. destruct (str_eqb_spec name k) as [->|_]; [exfalso; apply H; left; reflexivity|reflexivity].
  Qed.
End Table.

(** *** The schema [{"format": name}] and a text *)
Theorem C77_format {node} (view : node -> res (nview node)) strx E voc X n items m name P s c :
  wf_view view -> (forall f, fmt E f = string_format X f) ->
  (forall s, str_of X (VStr s) = s) -> digits_ok (iso X) -> digit (iso X) 383%N = None ->
  (name = "url"%string -> forall ch, In ch s -> digit (iso X) ch <> None -> ascii_digit ch) ->
  obj_at view n items -> lone voc items KwFormat m -> val_at view m (NStr (u name)) ->
  In (name, P) (meaning X) ->
  Accepts view strx E voc n (VStr s) c <-> P s.
Proof.
  intros Hwf HE Hs Hd Hl Hu Hn Hlone Hm HP.
  destruct (C77_table X Hs Hd Hl name P s HP Hu) as (test & Ht & Hiff).
  rewrite <- HE in Ht. destruct (C77_known view strx E voc Hwf n items m (u name) test (VStr s) c Hn Hlone Hm Ht) as (H1 & _ & _ & H2).
  rewrite <- Hiff. split; assumption.
Qed.

(** a runtime, an environment and the 17 names; a hostname schema *)
Definition fmt_sec : fmt_env :=
  FmtEnv iso_sec (str_of fmt_ex) (re_compiles fmt_ex) (b64_decodes fmt_ex) (decimal_finite fmt_ex) (ipv4 fmt_ex) (ipv6 fmt_ex) (uuid_ok fmt_ex).
Definition table_env : env := Env (re_ok ex_env) (re_search ex_env) (string_format fmt_sec) (dec_of_str ex_env).
Example C77_some :
  let n := jobj [("format", jstr "hostname"); ("title", jstr "t")]%string in
  obj_at tview n (members n) /\ lone all_keywords (members n) KwFormat (jstr "hostname") /\
  val_at tview (jstr "hostname") (NStr (u "hostname")) /\
  (forall s, str_of fmt_sec (VStr s) = s) /\ digits_ok (iso fmt_sec) /\ digit (iso fmt_sec) 383%N = None /\
  Accepts tview ex_strx table_env all_keywords n (VStr (u "a-b.example")) [u "x"] /\
  RejectsWith tview ex_strx table_env all_keywords n (VStr (u "a..b")) [u "x"] (KFormat (u "hostname")) [u "x"] /\
  Outcome tview ex_strx table_env all_keywords n (VInt 3) [u "x"] (Raise EType).
Proof.
  cbv zeta. split; [apply obj_members'|]. split; [lone_tac|]. split; [reflexivity|].
  split; [reflexivity|]. split; [apply C62_runtime|]. split; [reflexivity|].
  split; [exists 1%nat; vm_compute; reflexivity|]. split; (split; [discriminate|exists 1%nat; vm_compute; reflexivity]).
Qed.
Example C77_none :
  Outcome tview ex_strx table_env all_keywords (jobj [("format", jstr "colour")]%string) VNone [] (Raise ESchemaParse) /\
  fmt table_env (u "colour") = None.
Proof. split; [split; [discriminate|exists 1%nat; vm_compute; reflexivity]|reflexivity]. Qed.
Example C77_custom : let f := fun v => Ok true in let g := fun v => Ok false in
  dget (u "colour") (registered fmt_sec [(u "colour", f); (u "date", f); (u "colour", g)]) = Some g /\
  dget (u "uuid") (registered fmt_sec [(u "colour", f); (u "date", f)]) = string_format fmt_sec (u "uuid").
Proof. split; reflexivity. Qed.

Print Assumptions C73_boolean.
Print Assumptions C77_known.
Print Assumptions C77_unknown.
Print Assumptions C77_format.
Print Assumptions C77_no_other.
Print Assumptions C77_registered.
Print Assumptions C77_not_registered.
