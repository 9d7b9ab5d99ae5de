(** C116: the built-in formats on values that are not texts. *)
From Verif Require Import Validators Errors Keywords Spec Master Claims PropsIso PropsClock PropsDuration PropsFormatKeyword ExBase.
From Verif Require Import PyBase PyBaseFacts LeafFacts PyVal Regex RegexFacts FormatSpec Iso IsoSpec Formats StdText Ident IdentFacts Claims PropsFormats PropsUrl PropsStd.
From Coq Require Import QArith DecimalN.
Local Open Scope nat_scope.
Local Open Scope string_scope.
Local Notation length := List.length (only parsing).

(** ** The specification *)
(** what a test can say about a value; [AsText s]: what it says about the text [s] *)
Inductive verdict := Yes | No | Fails | AsText (s : pystr).
(** the seventeen names, and what each says about null, a boolean, a whole number,
    an array and an object *)
Definition whole_numbers (top : Z) (z : Z) : verdict := if ((0 <=? z) && (z <? top))%Z then Yes else No.
Definition table : list (string * (verdict * verdict * (Z -> verdict) * verdict * verdict)) :=
  [("boolean",       (No, Yes, (fun z => if ((z =? 0) || (z =? 1))%Z then Yes else No), Fails, Fails));
   ("byte",          (No, No, (fun _ => No), No, No));
   ("date",          (No, No, (fun z => AsText (int_text z)), No, No));
   ("date-time",     (No, No, (fun z => AsText (int_text z)), No, No));
   ("email",         (Fails, Fails, (fun _ => Fails), Fails, Fails));
   ("hostname",      (Fails, Fails, (fun _ => Fails), Fails, Fails));
   ("ip-address",    (No, Yes, whole_numbers (2 ^ 128), No, No));
   ("ip-address-v4", (No, Yes, whole_numbers (2 ^ 32), No, No));
   ("ip-address-v6", (No, Yes, whole_numbers (2 ^ 128), No, No));
   ("pattern",       (No, No, (fun _ => No), No, No));
   ("semver",        (No, No, (fun _ => No), No, No));
   ("time",          (No, No, (fun z => AsText (int_text z)), No, No));
   ("time-duration", (No, No, (fun _ => No), No, No));
   ("uri",           (No, No, (fun _ => No), No, No));
   ("url",           (No, No, (fun _ => No), No, No));
   ("uuid",          (No, No, (fun _ => No), No, No))].
Definition says (test : pv -> res bool) (v : pv) (r : verdict) : Prop :=
  match r with Yes => test v = Ok true | No => test v = Ok false | Fails => test v = Raise EType | AsText s => test v = test (VStr s) end.

Section Others.
  Variables (X : iso_env) (str_of : pv -> pystr) (re_compiles decimal_list : pv -> bool).
  (** [str] and [re.compile] of the standard library, as far as they matter here *)
  Record python : Prop := {
    py_text : forall s, str_of (VStr s) = s;
    py_none : str_of VNone = u "None";
    py_bool : forall b, str_of (VBool b) = u (if b then "True" else "False");
    py_int : forall z, str_of (VInt z) = int_text z;
    py_list : forall l, exists r, str_of (VList l) = (91%N :: r);
    py_dict : forall d, exists r, str_of (VDict d) = (123%N :: r);
    py_compile : forall v, (forall s, v <> VStr s) -> re_compiles v = false
  }.
  Hypothesis P : python.
  Hypothesis Xok : digits_ok X.
  Notation F := (std_env X str_of re_compiles decimal_list).

  Lemma not_digit c : (c < 128)%N -> is_ascii_digit c = false -> is_digit X c = false.
  Proof. intros L H. unfold is_digit. destruct Xok as (_ & N0 & _). rewrite (N0 c L H). reflexivity. Qed.
  (** the texts of null, booleans, arrays and objects *)
  Definition odd (s : pystr) : Prop := s = u "None" \/ s = u "True" \/ s = u "False" \/ (exists r, s = (91%N :: r)) \/ (exists r, s = (123%N :: r)).
  Ltac odd_cases := intros [->|[->|[->|[[r ->]|[r ->]]]]].
  Lemma odd_digit s : odd s -> exists c r, s = (c :: r) /\ is_digit X c = false.
  Proof. odd_cases; eexists _, _; (split; [reflexivity|]); apply not_digit; reflexivity. Qed.
  Lemma odd_date s : odd s -> catch_value (parse_iso_date X s) = Ok false.
  Proof. intro H. apply odd_digit in H as (c & r & -> & D). unfold parse_iso_date, re_match. cbn. rewrite D. reflexivity. Qed.
  Lemma odd_datetime s : odd s -> catch_value (parse_iso_datetime X s) = Ok false.
  Proof. intro H. apply odd_digit in H as (c & r & -> & D). unfold parse_iso_datetime, re_match. cbn. rewrite D. reflexivity. Qed.
  Lemma odd_time s : odd s -> catch_value (parse_iso_time X s) = Ok false.
  Proof. odd_cases; reflexivity. Qed.
  Lemma odd_duration s : odd s -> catch_all (parse_iso_duration X s) = Ok false.
  Proof. odd_cases; reflexivity. Qed.
  Lemma odd_semver s : odd s -> matches semver_regex s = false.
  Proof. odd_cases; reflexivity. Qed.
  Lemma odd_url s : odd s -> matches (url_regex X) s = false.
  Proof. odd_cases; reflexivity. Qed.
  Lemma odd_uri s : odd s -> matches Formats.uri_regex s = false.
  Proof. odd_cases; reflexivity. Qed.
  Lemma odd_ipv4 s : odd s -> caught (ipv4_text s) = Ok false.
  Proof.
    intro O. destruct (ipv4_outcome s) as [[n H]| ->]; [|reflexivity]. exfalso. assert (A : ipv4_address s) by (apply ipv4_iff; eauto). revert O H A.
    odd_cases; intros H A; try discriminate H; destruct (ipv4_chars _ _ A (or_introl eq_refl)) as [C|C]; try discriminate C; unfold ascii_digit in C; lia.
  Qed.
  Lemma odd_ipv6 s : odd s -> caught (ipv6_text s) = Ok false.
  Proof.
    intro O. destruct (ipv6_outcome s) as [H| ->]; [|reflexivity]. exfalso. assert (A : ipv6_zoned s) by (apply ipv6_iff; exact H).
    assert (B : forall c r, c = 91%N \/ c = 123%N -> ~ ipv6_zoned (c :: r)).
    { intros c r Hc Z. assert (I : forall a, ipv6_address a -> In c a -> False).
      { intros a Ha Ia. destruct (ipv6_chars _ _ Ha Ia) as [C|[C|C]]; unfold hex_digit in *; lia. }
      destruct Z as [Z|([|y a] & z & Ha & _ & E)]; [apply (I _ Z); left; reflexivity|injection E as E _; lia|]. injection E as -> _. apply (I _ Ha). left. reflexivity. }
    revert O H A. odd_cases; intros H A; try discriminate H; (eapply B; [|exact A]); auto.
  Qed.

  (** the texts of whole numbers *)
  Lemma int_chars z c : In c (int_text z) -> c = 45%N \/ (48 <= c <= 57)%N.
  Proof.
    unfold int_text, num_digits. rewrite in_app_iff. intros [H|H].
    - destruct (z <? 0)%Z; [destruct H as [<-|[]]; left; reflexivity|destruct H].
    - right. pose proof (uint_chars_digits (N.to_uint (Z.abs_N z))) as D. rewrite Forall_forall in D. apply D, H.
  Qed.
  Lemma int_first z : exists c r, int_text z = (c :: r) /\ (c = 45%N \/ (48 <= c <= 57)%N) /\ (c = 45%N -> exists d r', r = (d :: r') /\ (48 <= d <= 57)%N).
  Proof.
    assert (D : forall n, exists d r, uint_chars (N.to_uint n) = (d :: r)).
    { intro n. destruct (N.to_uint n) eqn:E; try (eexists _, _; reflexivity). exfalso. assert (K : N.of_uint (N.to_uint n) = n) by apply DecimalN.Unsigned.of_to. rewrite E in K. cbn in K. subst n. discriminate E. }
    unfold int_text, num_digits. destruct (D (Z.abs_N z)) as (d & r & E). pose proof (uint_chars_digits (N.to_uint (Z.abs_N z))) as F. rewrite E in *. apply Forall_inv in F.
    destruct (z <? 0)%Z; cbn [app]; eexists _, _; (split; [reflexivity|]).
    - split; [left; reflexivity|]. intros _. eauto.
    - split; [right; exact F|]. intros ->. lia.
  Qed.
  Lemma int_semver z : matches semver_regex (int_text z) = false.
  Proof.
    destruct (matches semver_regex (int_text z)) eqn:M; [|reflexivity]. exfalso. assert (K : format_semver F (VStr (int_text z)) = Ok true) by (unfold format_semver; cbn [Formats.str_of std_env]; rewrite (py_text P), M; reflexivity).
    apply (C63_semver_exact F (py_text P)) in K as (w & t & E & _ & a & b & c & d & e & _ & _ & _ & _ & _ & Ew). assert (I : In 46%N (int_text z)) by (rewrite E, Ew, !in_app_iff; left; right; left; left; reflexivity).
    apply int_chars in I. lia.
  Qed.
  Lemma digit_cases c (Q : N -> Prop) : Q 48%N -> Q 49%N -> Q 50%N -> Q 51%N -> Q 52%N -> Q 53%N -> Q 54%N -> Q 55%N -> Q 56%N -> Q 57%N -> (48 <= c <= 57)%N -> Q c.
  Proof.
    intros Q0 Q1 Q2 Q3 Q4 Q5 Q6 Q7 Q8 Q9 H. assert (c = 48 \/ c = 49 \/ c = 50 \/ c = 51 \/ c = 52 \/ c = 53 \/ c = 54 \/ c = 55 \/ c = 56 \/ c = 57)%N as D by lia.
    repeat (destruct D as [->|D]; [assumption|]). subst c. assumption.
  Qed.
  Lemma int_uri z : matches Formats.uri_regex (int_text z) = false.
  Proof. destruct (int_first z) as (c & r & -> & [->|H] & _); [reflexivity|]. pattern c. apply digit_cases; try exact H; reflexivity. Qed.
  Lemma int_url z : matches (url_regex X) (int_text z) = false.
  Proof. destruct (int_first z) as (c & r & -> & [->|H] & _); [reflexivity|]. pattern c. apply digit_cases; try exact H; reflexivity. Qed.
  Lemma int_duration z : catch_all (parse_iso_duration X (int_text z)) = Ok false.
  Proof.
    destruct (int_first z) as (c & r & -> & [->|H] & K).
    - destruct (K eq_refl) as (d & r' & -> & Hd). pattern d. apply digit_cases; try exact Hd; reflexivity.
    - pattern c. apply digit_cases; try exact H; reflexivity.
  Qed.

  (** C116, what holds: the table says what each format does. *)
  Definition row_holds (test : pv -> res bool) (row : verdict * verdict * (Z -> verdict) * verdict * verdict) : Prop :=
    let '(null, bool, number, array, object) := row in
    says test VNone null /\ (forall b, says test (VBool b) bool) /\ (forall z, says test (VInt z) (number z)) /\
    (forall l, says test (VList l) array) /\ (forall d, says test (VDict d) object).
  Lemma int_eq a b : py_eq (VInt a) (VInt b) = (a =? b)%Z.
  Proof. apply eq_true_iff_eq. cbn [py_eq]. unfold opt_q_eqb, num_q. rewrite Z.eqb_eq, Qeq_bool_iff. unfold Qeq. cbn. lia. Qed.
  Lemma whole (test : pv -> res bool) top z : test (VInt z) = Ok ((0 <=? z) && (z <? top))%Z -> says test (VInt z) (whole_numbers top z).
  Proof. intro H. unfold whole_numbers. destruct ((0 <=? z) && (z <? top))%Z; exact H. Qed.
  Theorem C116_exact name row : In (name, row) table -> exists test, string_format F (u name) = Some test /\ row_holds test row.
  Proof.
    assert (On : odd (str_of VNone)) by (rewrite (py_none P); left; reflexivity).
    assert (Ob : forall b, odd (str_of (VBool b))) by (intros [|]; rewrite (py_bool P); [right; left|right; right; left]; reflexivity).
    assert (Ol : forall l, odd (str_of (VList l))) by (intro l; destruct (py_list P l) as [r ->]; right; right; right; left; eauto).
    assert (Od : forall d, odd (str_of (VDict d))) by (intro d; destruct (py_dict P d) as [r ->]; right; right; right; right; eauto).
    assert (Tx : forall (f : pystr -> res bool), (forall s, odd s -> f s = Ok false) -> f (str_of VNone) = Ok false /\ (forall b, f (str_of (VBool b)) = Ok false) /\ (forall l, f (str_of (VList l)) = Ok false) /\ (forall d, f (str_of (VDict d)) = Ok false)) by (intros f Hf; auto).
    intro I. unfold table in I. cbn [In] in I. repeat match goal with H : _ \/ _ |- _ => destruct H as [H|H] end; [..|contradiction]; injection I as <- <-; (eexists; split; [reflexivity|]); cbn [row_holds says fst snd]; cbn beta.
    - (* boolean *) repeat split; try reflexivity; [intros [|]; reflexivity|]. intro z. assert (E : format_boolean (VInt z) = Ok ((z =? 0) || (z =? 1))%Z) by (unfold format_boolean; rewrite !int_eq; reflexivity). destruct ((z =? 0) || (z =? 1))%Z; exact E.
    - (* byte *) repeat split; reflexivity.
    - destruct (Tx _ odd_date) as (A1 & A2 & A3 & A4). repeat split; auto. intro z. cbn [says]. unfold format_date. cbn [Formats.str_of std_env]. rewrite (py_text P), (py_int P). reflexivity.
    - destruct (Tx _ odd_datetime) as (A1 & A2 & A3 & A4). repeat split; auto. intro z. cbn [says]. unfold format_datetime. cbn [Formats.str_of std_env]. rewrite (py_text P), (py_int P). reflexivity.
    - repeat split; reflexivity.
    - repeat split; reflexivity.
    - (* ip-address *) destruct (Tx _ odd_ipv4) as (A1 & A2 & A3 & A4), (Tx _ odd_ipv6) as (B1 & B2 & B3 & B4). unfold format_ip. change (ipv4 F) with (std_ipv4 str_of). change (ipv6 F) with (std_ipv6 str_of). cbn [std_ipv4 std_ipv6].
      refine (conj _ (conj _ (conj _ (conj _ _)))); [cbn [says]; rewrite A1; exact B1|intros [|]; reflexivity| |intro l; cbn [says]; rewrite A3; apply B3|intro d; cbn [says]; rewrite A4; apply B4]. intro z. apply whole with (top := (2 ^ 128)%Z). cbv beta. cbn [std_ipv4 std_ipv6]. unfold in_range.
      assert ((2 ^ 32 <= 2 ^ 128)%Z) by (apply Z.pow_le_mono_r; lia). change (Z.pow_pos 2 128) with (2 ^ 128)%Z; destruct (Z.leb_spec 0 z), (Z.ltb_spec z (2 ^ 32)), (Z.ltb_spec z (2 ^ 128)); cbn [andb bind]; try reflexivity; try lia.
    - destruct (Tx _ odd_ipv4) as (A1 & A2 & A3 & A4). repeat split; auto. intro z. apply whole. reflexivity.
    - destruct (Tx _ odd_ipv6) as (A1 & A2 & A3 & A4). repeat split; auto. intro z. apply whole. reflexivity.
    - repeat split; intros; cbn [says Formats.re_compiles std_env]; (rewrite (py_compile P); [reflexivity|intros ? ?; discriminate]).
    - destruct (Tx (fun s => Ok (matches semver_regex s))) as (A1 & A2 & A3 & A4); [intros s H; f_equal; apply odd_semver, H|]. repeat split; auto. intro z. cbn [says]. unfold format_semver. cbn [Formats.str_of std_env]. rewrite (py_int P), int_semver. reflexivity.
    - destruct (Tx _ odd_time) as (A1 & A2 & A3 & A4). repeat split; auto. intro z. cbn [says]. unfold format_time. cbn [Formats.str_of std_env]. rewrite (py_text P), (py_int P). reflexivity.
    - destruct (Tx _ odd_duration) as (A1 & A2 & A3 & A4). repeat split; auto. intro z. cbn [says]. unfold format_duration. cbn [Formats.str_of std_env iso]. rewrite (py_int P). apply int_duration.
    - destruct (Tx (fun s => Ok (matches Formats.uri_regex s))) as (A1 & A2 & A3 & A4); [intros s H; f_equal; apply odd_uri, H|]. repeat split; auto. intro z. cbn [says]. unfold format_uri. cbn [Formats.str_of std_env]. rewrite (py_int P), int_uri. reflexivity.
    - destruct (Tx (fun s => Ok (matches (url_regex X) s))) as (A1 & A2 & A3 & A4); [intros s H; f_equal; apply odd_url, H|]. repeat split; auto. intro z. cbn [says]. unfold format_url. cbn [Formats.str_of std_env iso]. rewrite (py_int P), int_url. reflexivity.
    - repeat split; reflexivity.
  Qed.

  (** ... and "decimal": numbers and booleans pass, null and objects do not; a list
      is what [Decimal] says of it *)
  Theorem C116_decimal : exists test, string_format F (u "decimal") = Some test /\
    test VNone = Ok false /\ (forall b, test (VBool b) = Ok true) /\ (forall z, test (VInt z) = Ok true) /\ (forall f, test (VFloat f) = Ok true) /\ (forall d, test (VDec d) = Ok true) /\
    (forall d, test (VDict d) = Ok false).
  Proof. eexists. split; [reflexivity|]. repeat split; reflexivity. Qed.

  (** C116, refuted: the standard makes every format pass a value that is not a
      text; here no format lets null pass, and none lets an object pass *)
  Theorem C116_refuted name test v : string_format F name = Some test -> (v = VNone \/ exists d, v = VDict d) -> test v <> Ok true.
  Proof.
    intros H Hv.
    assert (N : forall nm row t, In (nm, row) table -> string_format F (u nm) = Some t -> t v <> Ok true).
    { intros nm row t I Ht. destruct (C116_exact _ _ I) as (t' & E & R). rewrite E in Ht. injection Ht as ->.
      assert (B : forall w, w = No \/ w = Fails -> says t v w -> t v <> Ok true) by (intros w [-> | ->] S; cbn [says] in S; rewrite S; discriminate).
      assert (K : forallb (fun r => let '(_, (a, _, _, _, e)) := r in match a, e with No, No | Fails, Fails | No, Fails => true | _, _ => false end) table = true) by reflexivity. rewrite forallb_forall in K. specialize (K _ I). destruct row as [[[[a b] c] d0] e]. cbn beta iota in K. destruct R as (R1 & _ & _ & _ & R5).
      destruct Hv as [-> |[d ->]]; [apply (B a); [destruct a, e; try discriminate K; auto|exact R1]|apply (B e); [destruct a, e; try discriminate K; auto|apply R5]]. }
    apply dget_In in H. cbn in H.
    assert (D : forall t, string_format F (u "decimal") = Some t -> t v <> Ok true).
    { intros t Ht. destruct C116_decimal as (t' & E & R1 & _ & _ & _ & _ & R2). rewrite E in Ht. injection Ht as ->. destruct Hv as [-> |[d ->]]; [rewrite R1|rewrite R2]; discriminate. }
    assert (J : forall nm t, In nm (map fst table) -> string_format F (u nm) = Some t -> t v <> Ok true) by (intros nm t I; apply in_map_iff in I as ([nm' row] & <- & I); exact (N nm' row t I)).
    destruct H as [H|H]; [injection H as _ <-; refine (J "boolean" _ _ eq_refl); cbn; tauto|].
    destruct H as [H|H]; [injection H as _ <-; refine (J "byte" _ _ eq_refl); cbn; tauto|].
    destruct H as [H|H]; [injection H as _ <-; refine (J "date" _ _ eq_refl); cbn; tauto|].
    destruct H as [H|H]; [injection H as _ <-; refine (J "date-time" _ _ eq_refl); cbn; tauto|].
    destruct H as [H|H]; [injection H as _ <-; exact (D _ eq_refl)|].
    destruct H as [H|H]; [injection H as _ <-; refine (J "email" _ _ eq_refl); cbn; tauto|].
    destruct H as [H|H]; [injection H as _ <-; refine (J "hostname" _ _ eq_refl); cbn; tauto|].
    destruct H as [H|H]; [injection H as _ <-; refine (J "ip-address" _ _ eq_refl); cbn; tauto|].
    destruct H as [H|H]; [injection H as _ <-; refine (J "ip-address-v4" _ _ eq_refl); cbn; tauto|].
    destruct H as [H|H]; [injection H as _ <-; refine (J "ip-address-v6" _ _ eq_refl); cbn; tauto|].
    destruct H as [H|H]; [injection H as _ <-; refine (J "pattern" _ _ eq_refl); cbn; tauto|].
    destruct H as [H|H]; [injection H as _ <-; refine (J "semver" _ _ eq_refl); cbn; tauto|].
    destruct H as [H|H]; [injection H as _ <-; refine (J "time" _ _ eq_refl); cbn; tauto|].
    destruct H as [H|H]; [injection H as _ <-; refine (J "time-duration" _ _ eq_refl); cbn; tauto|].
    destruct H as [H|H]; [injection H as _ <-; refine (J "uri" _ _ eq_refl); cbn; tauto|].
    destruct H as [H|H]; [injection H as _ <-; refine (J "url" _ _ eq_refl); cbn; tauto|].
    destruct H as [H|H]; [injection H as _ <-; refine (J "uuid" _ _ eq_refl); cbn; tauto|].
    contradiction.
  Qed.
  (** the schema {"format": name}: it never accepts null or an object, and
      "email" and "hostname" fail on everything that is not a text *)
  Theorem C116_schema {node} (view : node -> res (nview node)) strx E voc n items m name v c :
    wf_view view -> (forall f, fmt E f = string_format F f) -> obj_at view n items -> lone voc items KwFormat m -> val_at view m (NStr name) ->
    (v = VNone \/ exists d, v = VDict d) -> ~ Accepts view strx E voc n v c.
  Proof.
    intros Hwf HE Hn Hl Hm Hv A. destruct (string_format F name) as [test|] eqn:T.
    - rewrite <- HE in T. destruct (C77_known view strx E voc Hwf n items m name test v c Hn Hl Hm T) as (_ & _ & _ & K). rewrite HE in T. exact (C116_refuted name test v T Hv (K A)).
    - rewrite <- HE in T. apply outcome_accepts in A. pose proof (outcome_fun _ _ _ _ _ _ _ _ _ A (C77_unknown view strx E voc n items m name v c Hn Hl Hm T)). discriminate.
  Qed.
  Theorem C116_fails {node} (view : node -> res (nview node)) strx E voc n items m name v c :
    wf_view view -> (forall f, fmt E f = string_format F f) -> obj_at view n items -> lone voc items KwFormat m -> val_at view m (NStr (u name)) ->
    name = "email" \/ name = "hostname" -> (forall s, v <> VStr s) -> Outcome view strx E voc n v c (Raise EType).
  Proof.
    intros Hwf HE Hn Hl Hm Hname Hv.
    assert (exists test, fmt E (u name) = Some test /\ test v = Raise EType) as (test & T & R).
    { rewrite HE. destruct Hname as [-> | ->]; (eexists; split; [reflexivity|]); destruct v; try reflexivity; destruct (Hv _ eq_refl). }
    apply (C77_known view strx E voc Hwf n items m (u name) test v c Hn Hl Hm T). exact R.
  Qed.
End Others.

(** a runtime that meets the hypotheses, and the whole numbers that pass as dates *)
Definition some_str (v : pv) : pystr :=
  match v with
  | VStr s => s | VNone => u "None" | VBool b => u (if b then "True" else "False") | VInt z => int_text z
  | VList _ => u "[...]" | VDict _ => u "{...}" | _ => u "1.5"
  end.
Definition some_compiles (v : pv) : bool := match v with VStr _ => true | _ => false end.
Lemma some_python : python some_str some_compiles.
Proof. constructor; try reflexivity; [eexists; reflexivity..|]. intros [| | | | |s| |] H; try reflexivity. destruct (H s eq_refl). Qed.
Definition some_formats : fmt_env := std_env iso_sec some_str some_compiles (fun _ => false).
Definition some_env : env := Env (re_ok ex_env) (re_search ex_env) (string_format some_formats) (dec_of_str ex_env).
Example C116_some :
  let n := jobj [("format", jstr "date"); ("title", jstr "t")] in
  python some_str some_compiles /\ digits_ok iso_sec /\
  obj_at tview n (members n) /\ lone all_keywords (members n) KwFormat (jstr "date") /\ val_at tview (jstr "date") (NStr (u "date")) /\
  Accepts tview ex_strx some_env all_keywords n (VInt 20200229) [] /\
  RejectsWith tview ex_strx some_env all_keywords n (VInt 20190229) [] (KFormat (u "date")) [] /\
  RejectsWith tview ex_strx some_env all_keywords n VNone [] (KFormat (u "date")) [] /\
  Outcome tview ex_strx some_env all_keywords (jobj [("format", jstr "email")]) (VInt 3) [] (Raise EType).
Proof.
  cbv zeta. split; [apply some_python|]. split; [apply C62_runtime|]. split; [apply obj_members'|]. split; [lone_tac|]. split; [reflexivity|].
  split; [exists 1%nat; vm_compute; reflexivity|]. repeat split; try discriminate; exists 1%nat; vm_compute; reflexivity.
Qed.

Print Assumptions C116_exact.
Print Assumptions C116_decimal.
Print Assumptions C116_refuted.
Print Assumptions C116_schema.
Print Assumptions C116_fails.
