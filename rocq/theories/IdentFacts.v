(** The texts of Ident.v determine what they print. *)
From Verif Require Import PyBase PyBaseFacts PyVal Numbers Claims OrderFacts Uri Heap Doc Ident.
From Coq Require DecimalPos DecimalN.
Local Open Scope nat_scope.
Local Notation length := List.length (only parsing).

(** ** Decimal digits *)
Definition digit_char (c : N) : Prop := (48 <= c <= 57)%N.
Definition value (s : pystr) (acc : Z) : Z := fold_left (fun a c => 10 * a + (Z.of_N c - 48))%Z s acc.
Lemma value_pos d : forall p, value (uint_chars d) (Zpos p) = Zpos (Pos.of_uint_acc d p).
Proof. induction d as [|d IH|d IH|d IH|d IH|d IH|d IH|d IH|d IH|d IH|d IH]; intro p; [reflexivity|..]; cbn [uint_chars value fold_left Pos.of_uint_acc]; (etransitivity; [|apply IH]); unfold value; f_equal; lia. Qed.
Lemma value_uint d : value (uint_chars d) 0 = Z.of_N (N.of_uint d).
Proof.
  unfold N.of_uint. induction d as [|d IH|d IH|d IH|d IH|d IH|d IH|d IH|d IH|d IH|d IH]; [reflexivity|exact IH|..]; apply (value_pos d).
Qed.
Lemma value_digits z : value (num_digits z) 0 = Z.abs z.
Proof. unfold num_digits. rewrite value_uint, DecimalN.Unsigned.of_to. lia. Qed.
Lemma num_digits_digits z : Forall digit_char (num_digits z).
Proof. apply uint_chars_digits. Qed.
Lemma num_digits_nonempty z : num_digits z <> [].
Proof.
  unfold num_digits. destruct (Z.abs_N z) as [|p]; [discriminate|]. cbn. intro H. pose proof (DecimalPos.Unsigned.to_uint_nonnil p) as K. apply K.
  destruct (Pos.to_uint p); cbn in H; try discriminate; reflexivity.
Qed.
Lemma value_zeros n s acc : value (repeat 48%N n ++ s) acc = value s (acc * 10 ^ Z.of_nat n)%Z.
Proof.
  revert acc. induction n as [|n IH]; intro acc; [rewrite Z.mul_1_r; reflexivity|]. cbn [repeat app]. change (value (48%N :: repeat 48%N n ++ s) acc) with (value (repeat 48%N n ++ s) (10 * acc + 0)%Z). rewrite IH. f_equal.
  rewrite Nat2Z.inj_succ, Z.pow_succ_r by lia. lia.
Qed.

(** ** [str] of a Decimal *)
Definition isdigit (c : N) : bool := ((48 <=? c) && (c <=? 57))%N.
Fixpoint span (s : pystr) : pystr * pystr :=
  match s with
  | c :: s' => if isdigit c then let '(a, b) := span s' in (c :: a, b) else ([], s)
  | [] => ([], [])
  end.
Definition stops (r : pystr) : Prop := match r with c :: _ => isdigit c = false | [] => True end.
Lemma isdigit_iff c : isdigit c = true <-> digit_char c.
Proof. unfold isdigit, digit_char. rewrite andb_true_iff, !N.leb_le. reflexivity. Qed.
Lemma span_app a r : Forall digit_char a -> stops r -> span (a ++ r) = (a, r).
Proof.
  intros F S. induction F as [|c a Hc _ IH]; cbn.
  - destruct r as [|c r]; [reflexivity|]. cbn in *. rewrite S. reflexivity.
  - apply isdigit_iff in Hc. rewrite Hc, IH. reflexivity.
Qed.
Definition unsign (t : pystr) : bool * pystr := match t with 45%N :: t' => (true, t') | _ => (false, t) end.
Definition unfrac (r : pystr) : pystr * pystr := match r with 46%N :: r' => span r' | _ => ([], r) end.
Definition unexp (r : pystr) : Z := match r with 69%N :: 43%N :: r' => value r' 0 | 69%N :: 45%N :: r' => - value r' 0 | _ => 0 end%Z.
Definition undec (t : pystr) : dec :=
  let '(neg, t) := unsign t in
  let '(ip, r) := span t in
  let '(fp, r) := unfrac r in
  let ex := unexp r in
  let c := value (ip ++ fp) 0 in
  Dec (if neg then - c else c)%Z (ex - Z.of_nat (length fp)).
Lemma undec_parts (neg : bool) ip fp ex c e :
  ip <> [] -> Forall digit_char ip -> Forall digit_char fp ->
  value (ip ++ fp) 0 = c -> e = (ex - Z.of_nat (length fp))%Z ->
  undec ((if neg then u "-" else []) ++ ip ++ (match fp with [] => [] | _ => u "." ++ fp end) ++
         (if (ex =? 0)%Z then [] else u "E" ++ (if (ex <? 0)%Z then u "-" else u "+") ++ num_digits ex)) = Dec (if neg then - c else c)%Z e.
Proof.
  intros Hi Fi Ff Hc He.
  set (X := if (ex =? 0)%Z then [] else u "E" ++ (if (ex <? 0)%Z then u "-" else u "+") ++ num_digits ex).
  assert (SX : stops X) by (unfold X; destruct (ex =? 0)%Z; [exact I|reflexivity]).
  set (P := match fp with [] => [] | _ => u "." ++ fp end).
  assert (SP : stops (P ++ X)) by (unfold P; destruct fp; [exact SX|reflexivity]).
  assert (EX : unexp X = ex).
  { unfold X. destruct (Z.eqb_spec ex 0) as [->|N]; [reflexivity|]. destruct (Z.ltb_spec ex 0); cbn; fold (value (num_digits ex) 0); rewrite value_digits; lia. }
  unfold undec. assert (E0 : unsign ((if neg then u "-" else []) ++ ip ++ P ++ X) = (neg, ip ++ P ++ X)).
  { destruct neg; [reflexivity|]. destruct ip as [|d ip]; [congruence|]. pose proof (Forall_inv Fi) as Hd. unfold digit_char in Hd.
    cbn [app]. destruct d as [|d]; [reflexivity|]. do 6 (try (destruct d as [d|d|]; try reflexivity)). exfalso; lia. }
  rewrite E0, (span_app ip _ Fi SP). clear E0 SP.
  assert (E1 : unfrac (P ++ X) = (fp, X)).
  { unfold P. destruct fp as [|f fp]; [|change (u "." ++ f :: fp) with (46%N :: f :: fp); cbn [app]; apply (span_app (f :: fp)); assumption].
    cbn [app]. unfold X. destruct (ex =? 0)%Z; reflexivity. }
  rewrite E1, EX, Hc, He. reflexivity.
Qed.
Lemma undec_text d : undec (dec_text d) = d.
Proof.
  destruct d as [c e]. unfold dec_text. cbn [dc de]. set (ds := num_digits c). pose proof (num_digits_digits c) as Fd. pose proof (num_digits_nonempty c) as Nd. fold ds in Fd, Nd.
  set (left := (e + Z.of_nat (length ds))%Z). set (dot := if (e <=? 0)%Z && (-6 <? left)%Z then left else 1%Z).
  assert (Len : (1 <= Z.of_nat (length ds))%Z) by (destruct ds; [congruence|cbn; lia]).
  assert (Sg : forall ip fp, value (ip ++ fp) 0 = Z.abs c -> (if (c <? 0)%Z then - value (ip ++ fp) 0 else value (ip ++ fp) 0)%Z = c) by (intros ip fp ->; destruct (Z.ltb_spec c 0); lia).
  set (EE := if (left =? dot)%Z then [] else u "E" ++ (if (left - dot <? 0)%Z then u "-" else u "+") ++ num_digits (left - dot)).
  assert (EEE : EE = if (left - dot =? 0)%Z then [] else u "E" ++ (if (left - dot <? 0)%Z then u "-" else u "+") ++ num_digits (left - dot)).
  { unfold EE. destruct (Z.eqb_spec left dot), (Z.eqb_spec (left - dot) 0); try reflexivity; lia. }
  assert (Dp : (dot <= Z.of_nat (length ds))%Z) by (unfold dot; destruct (Z.leb_spec e 0), (Z.ltb_spec (-6) left); cbn [andb]; unfold left in *; lia).
  assert (G : forall ip fp, ip <> [] -> Forall digit_char ip -> Forall digit_char fp -> value (ip ++ fp) 0 = Z.abs c -> e = (left - dot - Z.of_nat (length fp))%Z ->
    undec ((if (c <? 0)%Z then u "-" else []) ++ ip ++ (match fp with [] => [] | _ => u "." ++ fp end) ++ EE) = Dec c e).
  { intros ip fp H1 H2 H3 H4 H5. rewrite EEE, (undec_parts _ ip fp (left - dot) _ e H1 H2 H3 eq_refl H5), (Sg _ _ H4). reflexivity. }
  clearbody EE. destruct (Z.leb_spec dot 0) as [L|L].
  - specialize (G (u "0") (repeat 48%N (Z.to_nat (- dot)) ++ ds)). replace (match repeat 48%N (Z.to_nat (- dot)) ++ ds with [] => [] | _ => u "." ++ repeat 48%N (Z.to_nat (- dot)) ++ ds end) with (u "." ++ repeat 48%N (Z.to_nat (- dot)) ++ ds) in G.
    2: { destruct (repeat 48%N (Z.to_nat (- dot)) ++ ds) eqn:E; [|reflexivity]. apply app_eq_nil in E as [_ E]. congruence. }
    cbv beta iota. apply G; [discriminate|apply Forall_cons; [split; vm_compute; discriminate|apply Forall_nil]| | |].
    + apply Forall_app. split; [|exact Fd]. apply Forall_forall. intros x Hx. apply repeat_spec in Hx. subst x. unfold digit_char. lia.
    + cbn [app u]. change (value (u "0" ++ repeat 48%N (Z.to_nat (- dot)) ++ ds) 0) with (value (repeat 48%N (Z.to_nat (- dot)) ++ ds) 0). rewrite value_zeros. rewrite Z.mul_0_l. apply value_digits.
    + rewrite app_length, repeat_length, Nat2Z.inj_add, Z2Nat.id by lia. unfold left. lia.
  - destruct (Z.leb_spec (Z.of_nat (length ds)) dot) as [L2|L2].
    + replace (Z.to_nat dot - length ds) with 0 by lia. cbn [repeat]. rewrite app_nil_r. specialize (G ds []). cbn [app] in G |- *. apply G; [exact Nd|exact Fd|constructor| |].
      * rewrite app_nil_r. apply value_digits.
      * cbn. unfold left. lia.
    + specialize (G (firstn (Z.to_nat dot) ds) (skipn (Z.to_nat dot) ds)).
      assert (Ns : skipn (Z.to_nat dot) ds <> []) by (intro E; apply (f_equal (@List.length N)) in E; rewrite skipn_length in E; cbn in E; lia).
      replace (match skipn (Z.to_nat dot) ds with [] => [] | _ => u "." ++ skipn (Z.to_nat dot) ds end) with (u "." ++ skipn (Z.to_nat dot) ds) in G by (destruct (skipn (Z.to_nat dot) ds); [congruence|reflexivity]).
      apply G.
      * intro E. apply (f_equal (@List.length N)) in E. rewrite firstn_length in E. cbn in E. lia.
      * rewrite <- (firstn_skipn (Z.to_nat dot) ds) in Fd. apply Forall_app in Fd. tauto.
      * rewrite <- (firstn_skipn (Z.to_nat dot) ds) in Fd. apply Forall_app in Fd. tauto.
      * rewrite firstn_skipn. apply value_digits.
      * rewrite skipn_length. unfold left. lia.
Qed.
Lemma dec_text_inj d d' : dec_text d = dec_text d' -> d = d'.
Proof. intro H. rewrite <- (undec_text d), <- (undec_text d'), H. reflexivity. Qed.
(** for an integer it is the usual text *)
Lemma dec_text_int z : dec_text (Dec z 0) = int_text z.
Proof.
  unfold dec_text, int_text. cbn [dc de]. pose proof (num_digits_nonempty z) as Nd. set (ds := num_digits z) in *.
  assert (L : (0 < Z.of_nat (length ds))%Z) by (destruct ds; [congruence|cbn; lia]). cbn [Z.add Z.leb Z.compare].
  destruct (Z.ltb_spec (-6) (Z.of_nat (length ds))); [|lia]. cbn [andb].
  destruct (Z.leb_spec (Z.of_nat (length ds)) 0); [lia|]. rewrite Z.leb_refl, Nat2Z.id, Nat.sub_diag, Z.eqb_refl. cbn. rewrite !app_nil_r. reflexivity.
Qed.
(** its characters *)
Definition num_char (c : N) : Prop := digit_char c \/ In c (u "-+.E").
Lemma dec_text_chars d : Forall num_char (dec_text d).
Proof.
  destruct d as [c e]. unfold dec_text. cbn [dc de]. pose proof (num_digits_digits c) as Fd. set (ds := num_digits c) in *.
  assert (D : forall l, Forall digit_char l -> Forall num_char l) by (intros l; apply Forall_impl; intros; left; assumption).
  assert (Z0 : forall n, Forall digit_char (repeat 48%N n)) by (intro n; apply Forall_forall; intros x Hx; apply repeat_spec in Hx; subst x; unfold digit_char; lia).
  assert (U : forall s, (forall c, In c (u s) -> In c (u "-+.E0")) -> Forall num_char (u s)).
  { intros s H. apply Forall_forall. intros x Hx. specialize (H x Hx). cbn in H. unfold num_char. cbn. unfold digit_char. intuition lia. }
  set (left := (e + Z.of_nat (length ds))%Z). set (dot := if (e <=? 0)%Z && (-6 <? left)%Z then left else 1%Z). clearbody left dot.
  destruct (dot <=? 0)%Z; [|destruct (Z.of_nat (length ds) <=? dot)%Z].
  all: repeat match goal with |- Forall _ (_ ++ _) => apply Forall_app; split end.
  all: try match goal with
    | |- Forall _ (if ?b then u _ else []) => destruct b; [apply U; cbn; tauto|constructor]
    | |- Forall _ (u _) => apply U; cbn; tauto
    | |- Forall _ (if ?b then [] else _) =>
        destruct b; [constructor|]; apply Forall_app; split; [apply U; cbn; tauto|]; apply Forall_app; split; [match goal with |- Forall _ (if ?b then _ else _) => destruct b; apply U; cbn; tauto end|apply D, num_digits_digits]
    | |- Forall _ [] => constructor
    | |- Forall _ (repeat _ _) => apply D, Z0
    end.
  all: try (apply D, Fd).
  all: apply D; rewrite <- (firstn_skipn (Z.to_nat dot) ds) in Fd; apply Forall_app in Fd; tauto.
Qed.

(** ** [repr] of a text *)
Section Texts.
  Variable printable : N -> bool.
  Local Open Scope N_scope.
  Notation repr_char := (repr_char printable).
  Notation repr_str := (repr_str printable).
  Lemma hex1_inj a b : a < 16 -> b < 16 -> hex1 a = hex1 b -> a = b.
  Proof. unfold hex1. destruct (N.ltb_spec a 10), (N.ltb_spec b 10); lia. Qed.
  Lemma hexn_length k c : length (hexn k c) = k.
  Proof. revert c. induction k as [|k IH]; intro c; [reflexivity|]. cbn [hexn]. rewrite app_length, IH. cbn. lia. Qed.
  Lemma hexn_inj k : forall c c', c < 16 ^ N.of_nat k -> c' < 16 ^ N.of_nat k -> hexn k c = hexn k c' -> c = c'.
  Proof.
    induction k as [|k IH]; intros c c' L L' E; [cbn in *; lia|]. cbn [hexn] in E. apply app_inj_tail in E as [E1 E2].
    rewrite Nat2N.inj_succ, N.pow_succ_r' in L, L'.
    apply IH in E1; [|apply N.div_lt_upper_bound; lia|apply N.div_lt_upper_bound; lia]. apply hex1_inj in E2; [|apply N.mod_lt; lia|apply N.mod_lt; lia].
    rewrite (N.div_mod' c 16), (N.div_mod' c' 16). congruence.
  Qed.
  Lemma app_inj_len {A} (a a' r r' : list A) : length a = length a' -> a ++ r = a' ++ r' -> a = a' /\ r = r'.
  Proof. revert a'. induction a as [|x a IH]; intros [|y a'] L E; try discriminate; [auto|]. cbn in *. injection E as -> E. destruct (IH a' ltac:(lia) E) as [-> ->]. auto. Qed.
  (** code points *)
  Definition code_point (c : N) : Prop := c < 1114112.
  Lemma repr_char_cases q c : code_point c ->
    (repr_char q c = [c] /\ c <> 92 /\ c <> q) \/ (repr_char q c = [92; c] /\ (c = q \/ c = 92)) \/
    (repr_char q c = [92; 116] /\ c = 9) \/ (repr_char q c = [92; 110] /\ c = 10) \/ (repr_char q c = [92; 114] /\ c = 13) \/
    (repr_char q c = 92 :: 120 :: hexn 2 c /\ c < 256) \/ (repr_char q c = 92 :: 117 :: hexn 4 c /\ c < 65536) \/
    (repr_char q c = 92 :: 85 :: hexn 8 c /\ c < 1114112).
  Proof.
    intro L. unfold Ident.repr_char. destruct (N.eqb_spec c q) as [E|Nq]; [cbn [orb]; tauto|]. destruct (N.eqb_spec c 92) as [E|N9]; [cbn [orb]; tauto|]. cbn [orb].
    destruct (N.eqb_spec c 9); [tauto|]. destruct (N.eqb_spec c 10); [tauto|]. destruct (N.eqb_spec c 13); [tauto|].
    destruct (N.ltb_spec c 32), (N.eqb_spec c 127); cbn [orb]; try (do 5 right; left; split; [reflexivity|lia]).
    destruct (N.ltb_spec c 127); [tauto|]. destruct (printable c); [tauto|]. destruct (N.ltb_spec c 256); [do 5 right; left; split; [reflexivity|lia]|].
    destruct (N.ltb_spec c 65536); [do 6 right; left; split; [reflexivity|lia]|do 7 right; split; [reflexivity|exact L]].
  Qed.
  Lemma repr_char_pf q c c' r r' : q = 34 \/ q = 39 -> code_point c -> code_point c' -> repr_char q c ++ r = repr_char q c' ++ r' -> c = c' /\ r = r'.
  Proof.
    intros Hq L L' E.
    assert (H : forall k, c < 16 ^ N.of_nat k -> c' < 16 ^ N.of_nat k -> hexn k c ++ r = hexn k c' ++ r' -> c = c' /\ r = r').
    { intros k B B' Eh. apply app_inj_len in Eh as [E1 ->]; [|rewrite !hexn_length; reflexivity]. split; [|reflexivity]. eapply hexn_inj; eassumption. }
    destruct (repr_char_cases q c L) as [[R K]|[[R K]|[[R K]|[[R K]|[[R K]|[[R K]|[[R K]|[R K]]]]]]]];
      destruct (repr_char_cases q c' L') as [[R' K']|[[R' K']|[[R' K']|[[R' K']|[[R' K']|[[R' K']|[[R' K']|[R' K']]]]]]]];
      rewrite R, R' in E; cbn [app] in E;
      try (apply (H 2%nat); [cbn; lia|cbn; lia|exact (f_equal (skipn 2) E)]); try (apply (H 4%nat); [cbn; lia|cbn; lia|exact (f_equal (skipn 2) E)]); try (apply (H 8%nat); [cbn; lia|cbn; lia|exact (f_equal (skipn 2) E)]);
      try (injection E as -> ->; auto; fail); try (injection E as E ->; lia); try (injection E as E _; lia); try (injection E as ->; subst; auto; fail); try (injection E as E1 E2; lia); try discriminate E.
    all: injection E as E; exfalso; lia.
  Qed.
  Lemma repr_char_head q c : q = 34 \/ q = 39 -> code_point c -> exists x y, repr_char q c = x :: y /\ x <> q.
  Proof. intros Hq L. destruct (repr_char_cases q c L) as [[R K]|[[R K]|[[R K]|[[R K]|[[R K]|[[R K]|[[R K]|[R K]]]]]]]]; rewrite R; eexists; eexists; (split; [reflexivity|]); lia. Qed.
  Lemma quote_cases s : quote_of s = 34 \/ quote_of s = 39.
  Proof. unfold quote_of. destruct (_ && _); auto. Qed.
  Lemma repr_str_pf s s' r r' : Forall code_point s -> Forall code_point s' -> repr_str s ++ r = repr_str s' ++ r' -> s = s' /\ r = r'.
  Proof.
    intros F F' E. unfold Ident.repr_str in E. cbn [app] in E. injection E as Eq E. rewrite <- Eq in E. pose proof (quote_cases s) as Q. set (q := quote_of s) in *. clearbody q. clear Eq.
    rewrite <- !app_assoc in E. revert s' F' E. induction F as [|c s Hc F IH]; intros [|c' s'] F' E; cbn [flat_map app] in E.
    - injection E as ->. auto.
    - inversion F' as [|? ? Hc' F'']; subst. destruct (repr_char_head q c' Q Hc') as (x & y & Ex & Nx). rewrite Ex in E. cbn in E. injection E as E _. congruence.
    - destruct (repr_char_head q c Q Hc) as (x & y & Ex & Nx). rewrite Ex in E. cbn in E. injection E as E _. congruence.
    - inversion F' as [|? ? Hc' F'']; subst. rewrite <- !app_assoc in E. apply (repr_char_pf q) in E as [-> E]; try assumption. destruct (IH s' F'' E) as [-> ->]. auto.
  Qed.

  (** ** UTF-8 *)
  Lemma utf8_pf c c' r r' : code_point c -> code_point c' -> utf8_char c ++ r = utf8_char c' ++ r' -> c = c' /\ r = r'.
  Proof.
    intros L L' E. unfold utf8_char, code_point in *.
    assert (D : forall x m, m <> 0 -> x = m * (x / m) + x mod m) by (intros; apply N.div_mod; assumption).
    assert (B : forall x m, m <> 0 -> x mod m < m) by (intros; apply N.mod_lt; assumption).
    assert (Q : forall x, x / 4096 = x / 64 / 64 /\ x / 262144 = x / 64 / 64 / 64) by (intro x; rewrite !N.div_div by lia; auto).
    destruct (Q c) as [Q1 Q2]. destruct (Q c') as [Q1' Q2'].
    pose proof (D c 64 ltac:(lia)) as D1. pose proof (D (c / 64) 64 ltac:(lia)) as D2. pose proof (D (c / 64 / 64) 64 ltac:(lia)) as D3.
    pose proof (D c' 64 ltac:(lia)) as D1'. pose proof (D (c' / 64) 64 ltac:(lia)) as D2'. pose proof (D (c' / 64 / 64) 64 ltac:(lia)) as D3'.
    pose proof (B c 64 ltac:(lia)) as B1. pose proof (B (c / 64) 64 ltac:(lia)) as B2. pose proof (B (c / 64 / 64) 64 ltac:(lia)) as B3.
    pose proof (B c' 64 ltac:(lia)) as B1'. pose proof (B (c' / 64) 64 ltac:(lia)) as B2'. pose proof (B (c' / 64 / 64) 64 ltac:(lia)) as B3'.
    rewrite !Q1, !Q2, !Q1', !Q2' in E. clear D B Q Q1 Q2 Q1' Q2'.
    set (c1 := c / 64) in *. set (c2 := c1 / 64) in *. set (c3 := c2 / 64) in *. set (d1 := c' / 64) in *. set (d2 := d1 / 64) in *. set (d3 := d2 / 64) in *.
    set (m0 := c mod 64) in *. set (m1 := c1 mod 64) in *. set (m2 := c2 mod 64) in *. set (k0 := c' mod 64) in *. set (k1 := d1 mod 64) in *. set (k2 := d2 mod 64) in *.
    clearbody c1 c2 c3 d1 d2 d3 m0 m1 m2 k0 k1 k2.
    destruct (N.ltb_spec c 128), (N.ltb_spec c' 128); try (destruct (N.ltb_spec c 2048)); try (destruct (N.ltb_spec c' 2048)); try (destruct (N.ltb_spec c 65536)); try (destruct (N.ltb_spec c' 65536)); try lia;
      cbn [app] in E;
      repeat match type of E with _ :: _ = _ :: _ => let H1 := fresh "H1" in pose proof (f_equal (hd 0) E) as H1; apply (f_equal (@tl N)) in E; cbn [hd tl] in H1, E end;
      try (split; [lia|exact E]); exfalso; lia.
  Qed.
  Lemma utf8_inj s s' b : Forall code_point s -> Forall code_point s' -> utf8 s = Ok b -> utf8 s' = Ok b -> s = s'.
  Proof.
    intros F F'. unfold utf8. destruct (existsb surrogate s); [discriminate|]. destruct (existsb surrogate s'); [discriminate|]. intros [= <-] [= E]. symmetry in E.
    assert (NE : forall c, utf8_char c <> []) by (intro c; unfold utf8_char; destruct (c <? 128), (c <? 2048), (c <? 65536); discriminate).
    revert s' F' E. induction F as [|c s Hc F IH]; intros [|c' s'] F' E; cbn [flat_map] in E; [reflexivity| | |].
    - symmetry in E. apply app_eq_nil in E as [E _]. apply NE in E. contradiction.
    - apply app_eq_nil in E as [E _]. apply NE in E. contradiction.
    - inversion F' as [|? ? Hc' F'']; subst. apply utf8_pf in E as [-> E]; try assumption. f_equal. apply IH; assumption.
  Qed.
  Close Scope N_scope.
End Texts.
