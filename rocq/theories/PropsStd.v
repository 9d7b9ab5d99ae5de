(** C94-C98: the formats whose tests call the standard library. *)
From Verif Require Import PyBase PyBaseFacts PyVal Regex Iso Formats FormatSpec PropsPointer StdText.
From Coq Require Import NArith.
Local Open Scope nat_scope.
Local Notation length := List.length (only parsing).

(** ** What the formats are meant to accept *)
(** 0 to 255 without a leading zero *)
Definition octet (w : pystr) : Prop := number_text w /\ (number_of w <= 255)%N /\ (w = u "0" \/ no_leading_zero w).
Definition ipv4_address (s : pystr) : Prop := exists a b c d, address s a b c d /\ octet a /\ octet b /\ octet c /\ octet d.
Definition hex_digit (c : N) : Prop := (48 <= c <= 57 \/ 65 <= c <= 70 \/ 97 <= c <= 102)%N.
(** 16 bits *)
Definition group (w : pystr) : Prop := 1 <= length w <= 4 /\ forall c, In c w -> hex_digit c.
(** [n] groups, the last two of which may be written as an IPv4 address *)
Inductive groups : nat -> list pystr -> Prop :=
| gr_hex l : Forall group l -> groups (length l) l
| gr_v4 l a : Forall group l -> ipv4_address a -> groups (length l + 2) (l ++ [a]).
(** RFC 4291, section 2.2: eight groups, or fewer around a double colon *)
Definition ipv6_address (s : pystr) : Prop :=
  (exists l, groups 8 l /\ s = join (u ":") l) \/
  (exists l r n, Forall group l /\ groups n r /\ length l + n <= 7 /\ s = join (u ":") l ++ u "::" ++ join (u ":") r).
(** RFC 4007: an address, maybe followed by a percent sign and a zone *)
Definition zone_text (z : pystr) : Prop := z <> [] /\ ~ In 37%N z /\ ~ In 47%N z.
Definition ipv6_zoned (s : pystr) : Prop := ipv6_address s \/ exists a z, ipv6_address a /\ zone_text z /\ s = a ++ u "%" ++ z.

(** ** Splitting *)
Lemma split_of_join c ws : ws <> [] -> Forall (fun w => ~ In c w) ws -> split c (join [c] ws) = ws.
Proof.
  intros N F. induction F as [|w ws Hw F IH]; [congruence|]. destruct ws as [|w' ws]; [apply split_none, Hw|].
  change (join [c] (w :: w' :: ws)) with (w ++ c :: join [c] (w' :: ws)). rewrite split_app by exact Hw. f_equal. apply IH. discriminate.
Qed.
Lemma split_parts c s : split c s <> [] /\ Forall (fun w => ~ In c w) (split c s) /\ s = join [c] (split c s).
Proof.
  split; [destruct (split_cons c s) as (w & ws & ->); discriminate|]. split; [apply Forall_forall; intros w; apply split_no_sep|symmetry; apply split_join].
Qed.
Lemma null_spec w : null w = true <-> w = [].
Proof. destruct w; cbn; split; congruence. Qed.
Lemma digit_iff c : is_ascii_digit c = true <-> ascii_digit c.
Proof. unfold is_ascii_digit, between, ascii_digit. rewrite andb_true_iff, !N.leb_le. reflexivity. Qed.
Lemma hex_iff c : is_hex c = true <-> hex_digit c.
Proof. unfold is_hex, is_ascii_digit, between, hex_digit. rewrite !orb_true_iff, !andb_true_iff, !N.leb_le. lia. Qed.
Lemma ex_iff c w : existsb (N.eqb c) w = true <-> In c w.
Proof. rewrite existsb_exists. split; [intros (x & H & E); apply N.eqb_eq in E; subst; exact H|intro H; exists c; split; [exact H|apply N.eqb_refl]]. Qed.
Lemma ex_false c w : existsb (N.eqb c) w = false <-> ~ In c w.
Proof. rewrite <- ex_iff. destruct (existsb (N.eqb c) w); split; congruence. Qed.

(** ** C94: IPv4 *)
Lemma number_from w : forall a, (a * 10 ^ N.of_nat (length w) <= fold_left (fun a c => 10 * a + (c - 48)) w a)%N.
Proof.
  induction w as [|c w IH]; intro a; [cbn; lia|]. cbn [fold_left List.length]. rewrite Nat2N.inj_succ, N.pow_succ_r'. etransitivity; [|apply IH].
  rewrite N.mul_assoc. apply N.mul_le_mono_r. lia.
Qed.
Lemma octet_short w : octet w -> length w <= 3.
Proof.
  intros ((N & D) & V & [->|Z]); [cbn; lia|]. destruct (Nat.le_gt_cases (length w) 3) as [|L]; [assumption|]. exfalso.
  destruct w as [|c w]; [cbn in L; lia|]. specialize (Z w). specialize (D c (or_introl eq_refl)). unfold ascii_digit in D.
  assert (c <> 48)%N by congruence. unfold number_of in V. cbn [fold_left] in V. pose proof (number_from w (10 * 0 + (c - 48))%N) as K.
  assert (P : (10 ^ 3 <= 10 ^ N.of_nat (length w))%N) by (apply N.pow_le_mono_r; cbn in L; lia). change (10 ^ 3)%N with 1000%N in P.
  assert ((1 * 10 ^ N.of_nat (length w) <= (10 * 0 + (c - 48)) * 10 ^ N.of_nat (length w))%N) by (apply N.mul_le_mono_r; lia). lia.
Qed.
Lemma octet_iff w : octet w <-> exists n, parse_octet w = Ok n.
Proof.
  unfold parse_octet. change (fold_left (fun a c => 10 * a + (c - 48)) w 0)%N with (number_of w). split.
  - intro H. pose proof (octet_short w H) as L. destruct H as ((N & D) & V & Z). destruct (null w) eqn:E; [apply null_spec in E; congruence|].
    replace (forallb is_ascii_digit w) with true by (symmetry; apply forallb_forall; intros c Hc; apply digit_iff, D, Hc). cbn [negb].
    destruct (Nat.ltb_spec 3 (length w)); [lia|]. replace (negb (str_eqb w (u "0")) && startswith (u "0") w) with false.
    + destruct (N.ltb_spec 255 (number_of w)); [lia|eauto].
    + symmetry. apply andb_false_iff. destruct Z as [->|Z]; [left; reflexivity|right]. destruct w as [|c w]; [congruence|]. change (N.eqb 48 c && true = false).
      destruct (N.eqb_spec 48 c) as [<-|]; [destruct (Z w eq_refl)|reflexivity].
  - intros [n H]. destruct (null w) eqn:E; [discriminate|]. destruct (forallb is_ascii_digit w) eqn:D; [|discriminate]. cbn [negb] in H.
    destruct (3 <? length w); [discriminate|]. destruct (negb (str_eqb w (u "0")) && startswith (u "0") w) eqn:Z; [discriminate|].
    destruct (N.ltb_spec 255 (number_of w)); [discriminate|]. split; [split|split].
    + intros ->. discriminate.
    + intros c Hc. rewrite forallb_forall in D. apply digit_iff, D, Hc.
    + assumption.
    + apply andb_false_iff in Z as [Z|Z]; [left; apply str_eqb_eq; destruct (str_eqb w (u "0")); [reflexivity|discriminate]|right]. intros w' ->. discriminate.
Qed.
Lemma octet_chars w c : octet w -> In c w -> ascii_digit c.
Proof. intros ((_ & D) & _). auto. Qed.
Theorem ipv4_iff s : ipv4_address s <-> exists n, ipv4_text s = Ok n.
Proof.
  unfold ipv4_text, v4_of_text. split.
  - intros (a & b & c & d & -> & Ha & Hb & Hc & Hd).
    assert (K : forall x, (x < 48)%N -> Forall (fun w => ~ In x w) [a; b; c; d]) by (intros x Hx; repeat constructor; intro H; eapply octet_chars in H; try eassumption; unfold ascii_digit in H; lia).
    change (a ++ u "." ++ b ++ u "." ++ c ++ u "." ++ d) with (join [46%N] [a; b; c; d]).
    replace (existsb (N.eqb 47) _) with false.
    + destruct (null _) eqn:E.
      * apply null_spec in E. destruct Ha as ((N & _) & _). destruct a; [congruence|discriminate].
      * rewrite split_of_join; [|discriminate|apply K; lia]. cbn [List.length negb Nat.eqb map_res].
        apply octet_iff in Ha as [? ->], Hb as [? ->], Hc as [? ->], Hd as [? ->]. cbn. eauto.
    + symmetry. apply ex_false. specialize (K 47%N ltac:(lia)). inversion K as [|? ? K1 K2]; subst. inversion K2 as [|? ? K3 K4]; subst. inversion K4 as [|? ? K5 K6]; subst. inversion K6 as [|? ? K7 _]; subst.
      cbn [join]. rewrite !in_app_iff. cbn. intuition discriminate.
  - intros [n H]. destruct (existsb (N.eqb 47) s); [discriminate|]. destruct (null s); [discriminate|]. destruct (split_parts 46%N s) as (_ & _ & J).
    destruct (split 46%N s) as [|a [|b [|c [|d [|]]]]]; try discriminate. cbn [List.length Nat.eqb negb] in H.
    destruct (map_res parse_octet [a; b; c; d]) as [ns|e|] eqn:M; try discriminate. apply map_res_Ok in M.
    inversion M as [|? ? ? ? Ma M1]; subst. inversion M1 as [|? ? ? ? Mb M2]; subst. inversion M2 as [|? ? ? ? Mc M3]; subst. inversion M3 as [|? ? ? ? Md _]; subst.
    exists a, b, c, d. split; [reflexivity|]. split; [|split; [|split]]; apply octet_iff; eauto.
Qed.

(** ** C95: IPv6 *)
Lemma group_iff w : group w <-> parse_hextet w = Ok tt.
Proof.
  unfold parse_hextet, group. split.
  - intros (L & H). replace (forallb is_hex w) with true by (symmetry; apply forallb_forall; intros c Hc; apply hex_iff, H, Hc). cbn [negb].
    destruct (Nat.ltb_spec 4 (length w)); [lia|]. destruct w; [cbn in L; lia|reflexivity].
  - destruct (forallb is_hex w) eqn:E; [|discriminate]. cbn [negb]. destruct (Nat.ltb_spec 4 (length w)); [discriminate|]. destruct w as [|x w]; [discriminate|].
    intros _. split; [cbn in *; lia|]. rewrite forallb_forall in E. intros c Hc. apply hex_iff, E, Hc.
Qed.
Lemma groups_iff l : Forall group l <-> for_each parse_hextet l = Ok tt.
Proof. rewrite for_each_Ok. split; intro F; (eapply Forall_impl; [|exact F]); intros w; apply group_iff. Qed.
Lemma hex_group n : (n < 65536)%N -> group (hex_of n).
Proof.
  intro L. set (b := map N.of_nat (seq 0 256)).
  assert (B : forall x, (x < 256)%N -> In x b) by (intros x Hx; apply in_map_iff; exists (N.to_nat x); split; [lia|apply in_seq; lia]).
  assert (K : forallb (fun x => forallb (fun y => match parse_hextet (hex_of (256 * x + y)) with Ok _ => true | _ => false end) b) b = true) by (vm_compute; reflexivity).
  rewrite forallb_forall in K. specialize (K (n / 256)%N (B (n / 256)%N ltac:(apply N.div_lt_upper_bound; lia))). rewrite forallb_forall in K. specialize (K (n mod 256)%N (B (n mod 256)%N ltac:(apply N.mod_lt; lia))).
  rewrite <- N.div_mod in K by lia. apply group_iff. destruct (parse_hextet (hex_of n)) as [[]|e|]; [reflexivity|discriminate..].
Qed.
Lemma group_some w : group w -> w <> [].
Proof. intros (L & _) ->. cbn in L. lia. Qed.

Definition padded (l : list pystr) : list pystr := match l with [] => [[]] | _ => l end.
Lemma gaps_In parts i : In i (gaps parts) <-> 1 <= i <= length parts - 2 /\ nth i parts [] = [].
Proof. unfold gaps. rewrite filter_In, in_seq, null_spec. intuition lia. Qed.
Lemma gaps_NoDup parts : NoDup (gaps parts).
Proof. apply NoDup_filter, seq_NoDup. Qed.
Lemma gaps_one parts i : In i (gaps parts) -> (forall j, In j (gaps parts) -> j = i) -> gaps parts = [i].
Proof.
  pose proof (gaps_NoDup parts) as D. destruct (gaps parts) as [|j [|k l]]; intros H A.
  - destruct H.
  - rewrite (A j); [reflexivity|left; reflexivity].
  - exfalso. inversion D as [|? ? Nj _]; subst. apply Nj. rewrite (A j (or_introl eq_refl)), (A k (or_intror (or_introl eq_refl))). left. reflexivity.
Qed.
Lemma gaps_none parts : (forall j, ~ In j (gaps parts)) -> gaps parts = [].
Proof. destruct (gaps parts) as [|j l]; intro H; [reflexivity|]. destruct (H j). left. reflexivity. Qed.
Lemma last_nth (l : list pystr) : @last pystr l [] = @nth pystr (length l - 1) l [].
Proof. set (d := [] : pystr). clearbody d. induction l as [|x l IH]; [reflexivity|]. destruct l as [|y l]; [reflexivity|]. change (last (x :: y :: l) d) with (last (y :: l) d). rewrite IH. cbn. rewrite Nat.sub_0_r. reflexivity. Qed.
Lemma hd_nth (l : list pystr) : @hd (list N) [] l = @nth pystr 0 l [].
Proof. destruct l; reflexivity. Qed.
Lemma nth_group l i : Forall group l -> i < length l -> nth i l [] <> [].
Proof. intros F L. rewrite Forall_forall in F. apply group_some, F, nth_In, L. Qed.
Lemma null_group w : w <> [] -> null w = false.
Proof. destruct w; [congruence|reflexivity]. Qed.

Lemma v6_core parts : 3 <= length parts -> v6_parts parts = Ok tt <->
  (length parts = 8 /\ Forall group parts) \/
  exists l r, Forall group l /\ Forall group r /\ length l + length r <= 7 /\ parts = padded l ++ ([[]] : list pystr) ++ padded r.
Proof.
  intro L3. unfold v6_parts. split.
  - destruct (Nat.ltb_spec 9 (length parts)); [discriminate|]. destruct (gaps parts) as [|i [|j gs]] eqn:G; [| |discriminate].
    + destruct (Nat.eqb_spec (length parts) 8) as [E8|]; [|discriminate]. cbn [negb]. destruct (null (hd [] parts)); [discriminate|]. destruct (null (last parts [])); [discriminate|].
      cbn [bind]. rewrite firstn_all, Nat.sub_0_r, skipn_all. cbn [for_each]. destruct (for_each parse_hextet parts) as [[]|e|] eqn:E; try discriminate. intros _. left. split; [exact E8|apply groups_iff, E].
    + assert (Gi : In i (gaps parts)) by (rewrite G; left; reflexivity). apply gaps_In in Gi as [Ri Ni].
      assert (Sp : parts = firstn i parts ++ ([[]] : list pystr) ++ skipn (S i) parts).
      { rewrite <- (firstn_skipn i parts) at 1. f_equal. rewrite <- Ni. clear -Ri. assert (i < length parts) by lia. clear Ri. revert i H. induction parts as [|p ps IH]; intros [|i] H; cbn in *; try lia; [reflexivity|]. apply IH. lia. }
      set (A := firstn i parts) in *. set (B := skipn (S i) parts) in *. assert (LA : length A = i) by (unfold A; rewrite firstn_length; lia). assert (LB : length B = length parts - i - 1) by (unfold B; rewrite skipn_length; lia).
      intro E. assert (HA : exists l hi, A = padded l /\ Forall group l /\ length l = hi /\ (if null (hd [] parts) then if i - 1 =? 0 then Ok (i - 1) else Raise EValue else Ok i) = Ok hi).
      { assert (N0 : nth 0 parts [] = nth 0 A []) by (rewrite Sp, app_nth1 by lia; reflexivity). rewrite hd_nth, N0 in E |- *. destruct (null (nth 0 A [])) eqn:Z.
        - destruct (Nat.eqb_spec (i - 1) 0); [|discriminate]. apply null_spec in Z. exists [], 0. replace (i - 1) with 0 by lia. repeat split; [|constructor]. destruct A as [|x [|y A']]; cbn in LA, Z; try lia. cbn in Z |- *. rewrite Z. reflexivity.
        - cbn [bind] in E. match type of E with bind (bind ?x _) _ = _ => destruct x as [lo|e|]; try discriminate end. cbn [bind] in E.
          destruct (8 <=? i + lo); [discriminate|]. cbn [bind] in E. fold A in E. destruct (for_each parse_hextet A) as [[]|e|] eqn:EA; try discriminate.
          exists A, i. repeat split; [|apply groups_iff, EA|exact LA]. destruct A; [cbn in LA; lia|reflexivity]. }
      destruct HA as (l & hi & EA & Fl & Ll & Ehi). rewrite Ehi in E. cbn [bind] in E.
      assert (HB : exists r lo, B = padded r /\ Forall group r /\ length r = lo /\ (let k := length parts - i - 1 in if null (last parts []) then if k - 1 =? 0 then Ok (k - 1) else Raise EValue else Ok k) = Ok lo).
      { cbv zeta in E |- *. assert (N0 : nth (length parts - 1) parts [] = nth (length B - 1) B []).
        { pose proof (f_equal (fun x => nth (length parts - 1) x []) Sp) as N0. cbv beta in N0. etransitivity; [exact N0|]. rewrite app_assoc, app_nth2; rewrite app_length; cbn [List.length]; [f_equal|]; lia. }
        rewrite last_nth, N0 in E |- *. destruct (null (nth (length B - 1) B [])) eqn:Z.
        - destruct (Nat.eqb_spec (length parts - i - 1 - 1) 0) as [e0|]; [|discriminate]. apply null_spec in Z. exists [], 0. rewrite e0. repeat split; [|constructor]. destruct B as [|x [|y B']]; cbn in LB, Z; try lia. cbn in Z |- *. rewrite Z. reflexivity.
        - cbn [bind] in E. destruct (8 <=? hi + (length parts - i - 1)); [discriminate|]. cbn [bind] in E. destruct (for_each parse_hextet (firstn hi parts)) as [[]|e|]; try discriminate. cbn [bind] in E.
          replace (length parts - (length parts - i - 1)) with (S i) in E by lia. fold B in E.
          exists B, (length parts - i - 1). repeat split; [|apply groups_iff, E|exact LB]. destruct B; [cbn in LB; lia|reflexivity]. }
      destruct HB as (r & lo & EB & Fr & Lr & Elo). cbv zeta in E, Elo. rewrite Elo in E. cbn [bind] in E. destruct (Nat.leb_spec 8 (hi + lo)); [discriminate|].
      right. exists l, r. split; [exact Fl|]. split; [exact Fr|]. split; [lia|]. rewrite Sp, EA, EB. reflexivity.
  - intros [[E8 F]|(l & r & Fl & Fr & Ls & ->)].
    + rewrite E8. cbn [Nat.ltb Nat.leb]. rewrite gaps_none.
      * cbn [Nat.eqb negb]. rewrite hd_nth, last_nth, !null_group by (apply nth_group; [exact F|lia]). cbn [bind]. rewrite <- E8, firstn_all, Nat.sub_0_r, skipn_all. rewrite (proj1 (groups_iff _) F). reflexivity.
      * intros j Hj. apply gaps_In in Hj as [Hj N]. eapply nth_group; [exact F| |exact N]. lia.
    + assert (Pl : forall m : list pystr, 1 <= length (padded m) /\ (length (padded m) = length m \/ m = [] /\ padded m = [[]])) by (intros [|x m]; cbn; split; auto; lia).
      destruct (Pl l) as [L1 L1']. destruct (Pl r) as [L2 L2'].
      assert (Len : length (padded l ++ ([[]] : list pystr) ++ padded r) = length (padded l) + 1 + length (padded r)) by (rewrite !app_length; cbn [List.length]; lia).
      assert (G : gaps (padded l ++ ([[]] : list pystr) ++ padded r) = [length (padded l)]).
      { apply gaps_one.
        - apply gaps_In. split; [lia|]. rewrite app_nth2, Nat.sub_diag by lia. reflexivity.
        - intros j Hj. apply gaps_In in Hj as [Rj Nj]. destruct (lt_eq_lt_dec j (length (padded l))) as [[H|H]|H]; [exfalso|exact H|exfalso].
          + rewrite app_nth1 in Nj by exact H. destruct L1' as [E|[-> E]]; [|rewrite E in H; cbn in H; lia]. destruct l as [|x l]; [cbn in H; lia|]. eapply nth_group; [exact Fl| |exact Nj]. exact H.
          + rewrite app_assoc, app_nth2 in Nj by (rewrite app_length; cbn [List.length]; lia). rewrite app_length in Nj. cbn [List.length] in Nj.
            destruct r as [|x r]; [cbn in *; lia|]. eapply nth_group; [exact Fr| |exact Nj]. cbn in *. lia. }
      rewrite G, Len. destruct (Nat.ltb_spec 9 (length (padded l) + 1 + length (padded r))) as [H|_].
      { exfalso. destruct L1' as [E1|[E1 E1']], L2' as [E2|[E2 E2']]; rewrite ?E1', ?E2' in *; cbn in H; lia. }
      rewrite hd_nth, last_nth, Len.
      assert (Hhi : (if null (nth 0 (padded l ++ ([[]] : list pystr) ++ padded r) []) then if length (padded l) - 1 =? 0 then Ok (length (padded l) - 1) else Raise EValue else Ok (length (padded l))) = Ok (length l)).
      { rewrite app_nth1 by lia. destruct l as [|x l]; [reflexivity|]. rewrite null_group; [reflexivity|]. apply (nth_group _ 0 Fl). cbn. lia. }
      rewrite Hhi. cbn [bind]. cbv zeta.
      assert (Hlo : (if null (nth (length (padded l) + 1 + length (padded r) - 1) (padded l ++ ([[]] : list pystr) ++ padded r) []) then if length (padded l) + 1 + length (padded r) - length (padded l) - 1 - 1 =? 0 then Ok (length (padded l) + 1 + length (padded r) - length (padded l) - 1 - 1) else Raise EValue else Ok (length (padded l) + 1 + length (padded r) - length (padded l) - 1)) = Ok (length r)).
      { replace (length (padded l) + 1 + length (padded r) - length (padded l) - 1) with (length (padded r)) by lia. rewrite app_assoc, app_nth2, app_length by (rewrite app_length; cbn [List.length]; lia). cbn [List.length].
        replace (length (padded l) + 1 + length (padded r) - 1 - (length (padded l) + 1)) with (length (padded r) - 1) by lia.
        destruct r as [|x r]; [reflexivity|]. rewrite null_group; [reflexivity|]. apply (nth_group _ _ Fr). cbn. lia. }
      rewrite Hlo. cbn [bind]. destruct (Nat.leb_spec 8 (length l + length r)); [lia|]. cbn [bind].
      assert (E1 : for_each parse_hextet (firstn (length l) (padded l ++ ([[]] : list pystr) ++ padded r)) = Ok tt).
      { apply groups_iff. destruct l as [|x l]; [constructor|]. rewrite firstn_app, Nat.sub_diag. cbn [firstn padded]. rewrite firstn_all2 by lia. rewrite app_nil_r. exact Fl. }
      rewrite E1. cbn [bind]. apply groups_iff. destruct r as [|x r].
      * rewrite Nat.sub_0_r. rewrite skipn_all2 by (rewrite Len; cbn; lia). constructor.
      * replace (length (padded l) + 1 + length (padded (x :: r)) - length (x :: r)) with (length (padded l ++ ([[]] : list pystr))) by (rewrite app_length; cbn; lia).
        rewrite app_assoc, skipn_app, Nat.sub_diag, skipn_all2 by lia. exact Fr.
Qed.

Lemma join_app c (a b : list pystr) : a <> [] -> b <> [] -> join [c] (a ++ b) = join [c] a ++ c :: join [c] b.
Proof.
  intros Na Nb. induction a as [|x a IH]; [congruence|]. destruct a as [|y a].
  - destruct b as [|z b]; [congruence|]. reflexivity.
  - change (join [c] ((x :: y :: a) ++ b)) with (x ++ c :: join [c] ((y :: a) ++ b)). rewrite IH by discriminate.
    change (join [c] (x :: y :: a)) with (x ++ c :: join [c] (y :: a)). rewrite <- app_assoc. reflexivity.
Qed.
Lemma join_padded c l : join [c] (padded l) = join [c] l.
Proof. destruct l; reflexivity. Qed.
Lemma padded_some l : padded l <> [].
Proof. destruct l; discriminate. Qed.
Lemma join_gap l r : join (u ":") l ++ u "::" ++ join (u ":") r = join [58%N] (padded l ++ ([[]] : list pystr) ++ padded r).
Proof.
  rewrite join_app by (try apply padded_some; discriminate). rewrite join_app by (try apply padded_some; discriminate). rewrite !join_padded. reflexivity.
Qed.
Lemma join_chars c x l : In x (join [c] l) -> x = c \/ exists w, In w l /\ In x w.
Proof.
  induction l as [|w l IH]; [intros []|]. destruct l as [|w' l].
  - intro H. right. exists w. split; [left; reflexivity|exact H].
  - change (join [c] (w :: w' :: l)) with (w ++ c :: join [c] (w' :: l)). rewrite in_app_iff. intros [H|[H|H]].
    + right. exists w. split; [left; reflexivity|exact H].
    + left. symmetry. exact H.
    + destruct (IH H) as [E|(v & Hv & Hx)]; [left; exact E|right; exists v; split; [right; exact Hv|exact Hx]].
Qed.
Lemma ipv4_chars s c : ipv4_address s -> In c s -> c = 46%N \/ ascii_digit c.
Proof.
  intros (a & b & d & e & -> & Ha & Hb & Hd & He). rewrite !in_app_iff. intros [H|[[<-|[]]|[H|[[<-|[]]|[H|[[<-|[]]|H]]]]]]; auto; right; (eapply octet_chars; [|exact H]; assumption).
Qed.
Lemma ipv4_dot s : ipv4_address s -> In 46%N s.
Proof. intros (a & b & d & e & -> & _). rewrite !in_app_iff. right. left. left. reflexivity. Qed.
Definition addr_char (c : N) : Prop := c = 46%N \/ hex_digit c.
Lemma groups_chars n l w c : groups n l -> In w l -> In c w -> addr_char c.
Proof.
  intros G Hw Hc. inversion G as [l' F|l' a F A]; subst.
  - rewrite Forall_forall in F. right. apply (F w Hw), Hc.
  - apply in_app_iff in Hw as [Hw|[<-|[]]]; [rewrite Forall_forall in F; right; apply (F w Hw), Hc|].
    destruct (ipv4_chars _ _ A Hc) as [E|D]; [left; exact E|right; unfold ascii_digit in D; left; lia].
Qed.
Lemma ipv6_chars s c : ipv6_address s -> In c s -> c = 58%N \/ addr_char c.
Proof.
  intros [(l & G & ->)|(l & r & n & F & G & _ & ->)] H.
  - apply join_chars in H as [E|(w & Hw & Hc)]; [left; exact E|right; eapply groups_chars; eassumption].
  - rewrite !in_app_iff in H. destruct H as [H|[[<-|[<-|[]]]|H]]; try (left; reflexivity).
    + apply join_chars in H as [E|(w & Hw & Hc)]; [left; exact E|right]. eapply groups_chars; [apply (gr_hex _ F)|eassumption..].
    + apply join_chars in H as [E|(w & Hw & Hc)]; [left; exact E|right; eapply groups_chars; eassumption].
Qed.
Lemma groups_colon n l : groups n l -> Forall (fun w => ~ In 58%N w) l.
Proof. intro G. apply Forall_forall. intros w Hw Hc. destruct (groups_chars _ _ _ _ G Hw Hc) as [E|E]; [discriminate|]. unfold hex_digit in E. lia. Qed.
Lemma group_dot w : group w -> existsb (N.eqb 46) w = false.
Proof. intros (_ & H). apply ex_false. intro D. apply H in D. unfold hex_digit in D. lia. Qed.
Lemma last_snoc {A} (l : list A) x d : last (l ++ [x]) d = x.
Proof. apply last_last. Qed.
Lemma removelast_snoc {A} (l : list A) x : removelast (l ++ [x]) = l.
Proof. rewrite removelast_app by discriminate. apply app_nil_r. Qed.
(** what [v6_parts] sees, and the groups it stands for *)
Definition seen (parts : list pystr) : Prop :=
  groups 8 parts \/ exists l r n, Forall group l /\ groups n r /\ length l + n <= 7 /\ parts = padded l ++ ([[]] : list pystr) ++ padded r.
Lemma snoc_of {A} (l : list A) : l <> [] -> exists m x, l = m ++ [x].
Proof. intro N. destruct (exists_last N) as (m & x & ->). eauto. Qed.
Lemma seen_iff parts : 3 <= length parts ->
  seen parts <-> (if existsb (N.eqb 46) (last parts []) then n <- ipv4_text (last parts []) ;; v6_parts (removelast parts ++ [hex_of (n / 65536 mod 65536)%N; hex_of (n mod 65536)%N]) else v6_parts parts) = Ok tt.
Proof.
  intro L3. assert (Np : parts <> []) by (intros ->; cbn in L3; lia). destruct (snoc_of parts Np) as (ps & a & ->). rewrite last_snoc, removelast_snoc.
  assert (Lp : length (ps ++ [a]) = S (length ps)) by (rewrite app_length; cbn; lia). rewrite Lp in L3.
  assert (Hx : forall n, group (hex_of (n / 65536 mod 65536)%N) /\ group (hex_of (n mod 65536)%N)) by (intro n; split; apply hex_group, N.mod_lt; lia).
  split.
  - intros [G|(l & r & n & F & G & Ln & E)].
    + inversion G as [l' F E1 E2|l' a' F A E1 E2].
      * subst l'. apply Forall_app in F as [F Fa]. rewrite group_dot by (inversion Fa; assumption). apply v6_core; [lia|]. left. split; [lia|]. apply Forall_app. split; assumption.
      * apply app_inj_tail in E2 as [-> ->]. replace (existsb (N.eqb 46) a) with true by (symmetry; apply ex_iff, ipv4_dot, A).
        apply ipv4_iff in A as [k ->]. cbn [bind]. apply v6_core; rewrite app_length; cbn [List.length]; [lia|]. left. split; [lia|]. apply Forall_app. split; [exact F|]. destruct (Hx k). constructor; [assumption|constructor; [assumption|constructor]].
    + inversion G as [r' Fr E1 E2|r' a' Fr A E1 E2]; [subst n r'|subst n r].
      * assert (D : existsb (N.eqb 46) a = false).
        { destruct r as [|x r]; [change (padded []) with ([[]] : list pystr) in E; rewrite app_assoc in E; apply app_inj_tail in E as [_ ->]; reflexivity|].
          change (padded (x :: r)) with (x :: r) in E. destruct (snoc_of (x :: r) ltac:(discriminate)) as (r0 & y & Ey). rewrite Ey in *. rewrite !app_assoc in E. apply app_inj_tail in E as [_ ->].
          apply Forall_app in Fr as [_ Fy]. apply group_dot. inversion Fy; assumption. }
        rewrite D. apply v6_core; [lia|]. right. exists l, r. auto.
      * replace (padded (r' ++ [a'])) with (r' ++ [a']) in E by (destruct r'; reflexivity). rewrite !app_assoc in E. apply app_inj_tail in E as [-> ->].
        replace (existsb (N.eqb 46) a') with true by (symmetry; apply ex_iff, ipv4_dot, A). apply ipv4_iff in A as [k ->]. cbn [bind]. destruct (Hx k) as [G1 G2].
        apply v6_core; [rewrite !app_length in *; cbn [List.length] in *; lia|]. right. exists l, (r' ++ [hex_of (k / 65536 mod 65536)%N; hex_of (k mod 65536)%N]).
        split; [exact F|]. split; [apply Forall_app; split; [exact Fr|constructor; [assumption|constructor; [assumption|constructor]]]|]. split; [rewrite app_length; cbn [List.length]; lia|].
        rewrite <- !app_assoc. do 2 f_equal. destruct r'; reflexivity.
  - destruct (existsb (N.eqb 46) a) eqn:D.
    + destruct (ipv4_text a) as [k|e|] eqn:K; try discriminate. cbn [bind]. assert (A : ipv4_address a) by (apply ipv4_iff; eauto). destruct (Hx k) as [G1 G2].
      set (h1 := hex_of (k / 65536 mod 65536)%N) in *. set (h2 := hex_of (k mod 65536)%N) in *. intro E. apply v6_core in E; [|rewrite app_length; cbn [List.length]; lia]. destruct E as [[E8 F]|(l & r & Fl & Fr & Ls & E)].
      * left. rewrite app_length in E8. cbn [List.length] in E8. apply Forall_app in F as [F _]. replace 8 with (length ps + 2) by lia. apply gr_v4; assumption.
      * right. apply group_some in G1, G2. destruct r as [|x r0].
        { exfalso. change (ps ++ [h1; h2] = padded l ++ [[]] ++ [[]]) in E. replace (ps ++ [h1; h2]) with ((ps ++ [h1]) ++ [h2]) in E by (rewrite <- app_assoc; reflexivity). rewrite app_assoc in E. apply app_inj_tail in E as [_ E]. congruence. }
        change (padded (x :: r0)) with (x :: r0) in E. destruct (snoc_of (x :: r0) ltac:(discriminate)) as (r1 & y & Ey). rewrite Ey in *. clear x r0 Ey.
        replace (ps ++ [h1; h2]) with ((ps ++ [h1]) ++ [h2]) in E by (rewrite <- app_assoc; reflexivity). rewrite !app_assoc in E. apply app_inj_tail in E as [E <-].
        destruct r1 as [|x r0]; [exfalso; rewrite app_nil_r in E; apply app_inj_tail in E as [_ E]; congruence|]. destruct (snoc_of (x :: r0) ltac:(discriminate)) as (r2 & z & Ez). rewrite Ez in *. clear x r0 Ez.
        rewrite app_assoc in E. apply app_inj_tail in E as [-> <-]. apply Forall_app in Fr as [Fr _]. apply Forall_app in Fr as [Fr _]. rewrite !app_length in Ls. cbn [List.length] in Ls.
        exists l, (r2 ++ [a]), (length r2 + 2). split; [exact Fl|]. split; [apply gr_v4; assumption|]. split; [lia|]. rewrite <- !app_assoc. do 2 f_equal. destruct r2; reflexivity.
    + intro E. apply v6_core in E; [|lia]. destruct E as [[E8 F]|(l & r & Fl & Fr & Ls & E)].
      * left. rewrite <- E8. apply gr_hex, F.
      * right. exists l, r, (length r). split; [exact Fl|]. split; [apply gr_hex, Fr|]. split; [exact Ls|exact E].
Qed.
Theorem v6_iff s : ipv6_address s <-> v6_of_text s = Ok tt.
Proof.
  assert (R : ipv6_address s <-> 3 <= length (split 58%N s) /\ seen (split 58%N s)).
  { split.
    - intros [(l & G & ->)|(l & r & n & F & G & Ln & ->)].
      + change (u ":") with [58%N]. assert (Ll : 7 <= length l) by (inversion G; subst; rewrite ?app_length; cbn [List.length]; lia).
        rewrite split_of_join; [|intros ->; cbn in Ll; lia|eapply groups_colon, G]. split; [lia|]. left. exact G.
      + rewrite join_gap. assert (P : forall m, Forall (fun w => ~ In 58%N w) m -> Forall (fun w => ~ In 58%N w) (padded m)) by (intros [|x m] H; [constructor; [intros []|constructor]|exact H]).
        rewrite split_of_join.
        * split; [|right; exists l, r, n; auto]. rewrite !app_length. cbn [List.length]. pose proof (padded_some l). pose proof (padded_some r). destruct (padded l), (padded r); try congruence. cbn. lia.
        * destruct (padded l); discriminate.
        * apply Forall_app. split; [apply P; eapply groups_colon, gr_hex, F|]. apply Forall_app. split; [constructor; [intros []|constructor]|apply P; eapply groups_colon, G].
    - destruct (split_parts 58%N s) as (_ & _ & J). intros (L3 & [G|(l & r & n & F & G & Ln & E)]).
      + left. exists (split 58%N s). split; [exact G|exact J].
      + right. exists l, r, n. split; [exact F|]. split; [exact G|]. split; [exact Ln|]. rewrite join_gap, <- E. exact J. }
  rewrite R. unfold v6_of_text. destruct s as [|c s]; [split; [intros [H _]; cbn in H; lia|discriminate]|]. change (null (c :: s)) with false. cbv zeta. set (parts := split 58%N (c :: s)).
  destruct (Nat.ltb_spec (length parts) 3) as [H|H]; [split; [lia|discriminate]|]. rewrite <- seen_iff by exact H. tauto.
Qed.
Lemma partition_spec c s : match partition c s with (a, None) => s = a /\ ~ In c a | (a, Some z) => s = a ++ c :: z /\ ~ In c a end.
Proof.
  induction s as [|x s IH]; [split; [reflexivity|intros []]|]. cbn [partition]. destruct (N.eqb_spec x c) as [->|Ne]; [split; [reflexivity|intros []]|].
  destruct (partition c s) as [a [z|]]; destruct IH as [-> Na]; (split; [reflexivity|intros [E|H]; [congruence|exact (Na H)]]).
Qed.
Lemma partition_at c a z : ~ In c a -> partition c (a ++ c :: z) = (a, Some z).
Proof.
  induction a as [|x a IH]; intro Na; cbn [partition app]; [rewrite N.eqb_refl; reflexivity|].
  destruct (N.eqb_spec x c) as [->|]; [destruct Na; left; reflexivity|]. rewrite IH; [reflexivity|]. intro H. apply Na. right. exact H.
Qed.
Theorem ipv6_iff s : ipv6_zoned s <-> ipv6_text s = Ok tt.
Proof.
  assert (Nc : forall a c, ipv6_address a -> c = 37%N \/ c = 47%N -> ~ In c a).
  { intros a c A Hc H. destruct (ipv6_chars _ _ A H) as [E|[E|E]]; [|unfold hex_digit in E..]; lia. }
  unfold ipv6_text. split.
  - intros [A|(a & z & A & (Z0 & Z1 & Z2) & ->)].
    + replace (existsb (N.eqb 47) s) with false by (symmetry; apply ex_false, Nc; [exact A|auto]).
      pose proof (partition_spec 37%N s) as P. destruct (partition 37%N s) as [a [z|]]; destruct P as [-> P]; [|apply v6_iff, A].
      destruct (Nc _ 37%N A (or_introl eq_refl)). apply in_app_iff. right. left. reflexivity.
    + replace (existsb (N.eqb 47) (a ++ u "%" ++ z)) with false.
      * change (a ++ u "%" ++ z) with (a ++ 37%N :: z). rewrite partition_at by (apply Nc; auto). rewrite null_group by exact Z0. rewrite (proj2 (ex_false _ _) Z1). apply v6_iff, A.
      * symmetry. apply ex_false. rewrite !in_app_iff. intros [H|[[H|[]]|H]]; [exact (Nc _ _ A (or_intror eq_refl) H)|discriminate|exact (Z2 H)].
  - destruct (existsb (N.eqb 47) s) eqn:S47; [discriminate|]. apply ex_false in S47. pose proof (partition_spec 37%N s) as P. destruct (partition 37%N s) as [a [z|]]; destruct P as [-> P].
    + destruct (null z) eqn:Zn; [discriminate|]. destruct (existsb (N.eqb 37) z) eqn:Z37; [discriminate|]. cbn [orb]. intro H. right. exists a, z. split; [apply v6_iff, H|]. split; [|reflexivity].
      split; [intros ->; discriminate|]. split; [apply ex_false, Z37|]. intro H47. apply S47, in_app_iff. right. right. exact H47.
    + intro H. left. apply v6_iff, H.
Qed.

(** ** C96: UUIDs *)
Definition hex_text (n : nat) (w : pystr) : Prop := length w = n /\ forall c, In c w -> hex_digit c.
(** RFC 4122, section 3 *)
Definition canonical_uuid (s : pystr) : Prop :=
  exists a b c d e, hex_text 8 a /\ hex_text 4 b /\ hex_text 4 c /\ hex_text 4 d /\ hex_text 12 e /\
    s = a ++ u "-" ++ b ++ u "-" ++ c ++ u "-" ++ d ++ u "-" ++ e.
(** a text [int(text, 16)] accepts, the minus sign apart: white space, a plus
    sign, a prefix, digits with single underscores between them, white space *)
Definition hex_run (w : pystr) : Prop := w <> [] /\ forall c, In c w -> hex_digit c.
Definition hex_number (w : pystr) : Prop := exists ws, ws <> [] /\ Forall hex_run ws /\ w = join (u "_") ws.
Definition white (w : pystr) : Prop := forall c, In c w -> (9 <= c <= 13 \/ c = 32)%N.
Definition int16_text (t : pystr) : Prop :=
  exists s1 sg pre w s2, white s1 /\ white s2 /\ (sg = [] \/ sg = u "+") /\
    In pre (map u [""; "0x"; "0X"; "0x_"; "0X_"]%string) /\ hex_number w /\ t = s1 ++ sg ++ pre ++ w ++ s2.

Lemma white_iff s : forallb c_space s = true <-> white s.
Proof.
  rewrite forallb_forall. unfold white, c_space, between, one. split; intros H c Hc; specialize (H c Hc).
  - rewrite orb_true_iff, andb_true_iff, !N.leb_le, N.eqb_eq in H. exact H.
  - rewrite orb_true_iff, andb_true_iff, !N.leb_le, N.eqb_eq. exact H.
Qed.
Lemma one_iff c x : one c x = true <-> x = c.
Proof. unfold one. apply N.eqb_eq. Qed.
Definition runs (ws : list pystr) : pystr := List.concat (map (cons 95%N) ws).
Lemma hex_tail_iff s :
  (forall p, p <> 95%N -> hex_tail (Some p) s = true <->
     exists r ws s2, (forall c, In c r -> hex_digit c) /\ Forall hex_run ws /\ white s2 /\ s = r ++ runs ws ++ s2) /\
  (forall q, q = None \/ q = Some 95%N -> hex_tail q s = true <->
     exists r ws s2, hex_run r /\ Forall hex_run ws /\ white s2 /\ s = r ++ runs ws ++ s2).
Proof.
  induction s as [|c s [IHm IHs]].
  - split.
    + intros p Hp. cbn. split; [|intros _; destruct (one 95 p) eqn:E; [apply one_iff in E; congruence|reflexivity]].
      intros _. exists [], [], []. split; [intros c []|]. split; [constructor|]. split; [intros c []|reflexivity].
    + intros q Hq. split; [destruct Hq as [->| ->]; discriminate|]. intros (r & ws & s2 & (N & _) & _ & _ & E). destruct r; [congruence|discriminate].
  - assert (Hh : is_hex c = true -> c <> 95%N) by (intros H ->; discriminate).
    assert (Hsp : (9 <= c <= 13 \/ c = 32)%N -> is_hex c = false /\ one 95 c = false).
    { intro H. split; [destruct (is_hex c) eqn:E; [apply hex_iff in E; unfold hex_digit in E; lia|reflexivity]|destruct (one 95 c) eqn:E; [apply one_iff in E; lia|reflexivity]]. }
    split.
    + intros p Hp. cbn [hex_tail]. replace (one 95 p) with false by (destruct (one 95 p) eqn:E; [apply one_iff in E; congruence|reflexivity]). destruct (is_hex c) eqn:Hc.
      * rewrite (IHm c (Hh eq_refl)). apply hex_iff in Hc. split.
        -- intros (r & ws & s2 & Hr & Hw & H2 & ->). exists (c :: r), ws, s2. split; [intros x [<-|Hx]; [exact Hc|exact (Hr x Hx)]|]. auto.
        -- intros (r & ws & s2 & Hr & Hw & H2 & E). destruct r as [|x r].
           ++ destruct ws as [|w ws]; cbn [runs map List.concat app] in E.
              ** destruct s2 as [|x s2]; [discriminate|]. injection E as <- ->. specialize (H2 c (or_introl eq_refl)). unfold hex_digit in Hc. lia.
              ** injection E as -> ->. unfold hex_digit in Hc. lia.
           ++ injection E as <- ->. exists r, ws, s2. split; [intros y Hy; apply Hr; right; exact Hy|]. auto.
      * destruct (one 95 c) eqn:H95.
        -- apply one_iff in H95. subst c. rewrite (IHs (Some 95%N) (or_intror eq_refl)). split.
           ++ intros (r & ws & s2 & Hr & Hw & H2 & ->). exists [], (r :: ws), s2. split; [intros x []|]. split; [constructor; assumption|]. split; [exact H2|]. unfold runs. cbn [map List.concat app]. rewrite <- !app_assoc. reflexivity.
           ++ intros (r & ws & s2 & Hr & Hw & H2 & E). destruct r as [|x r]; [|injection E as <- _; specialize (Hr _ (or_introl eq_refl)); unfold hex_digit in Hr; lia].
              destruct ws as [|w ws]; [destruct s2 as [|x s2]; [discriminate|]; injection E as <- _; specialize (H2 _ (or_introl eq_refl)); lia|].
              inversion Hw as [|? ? Hw1 Hw2]; subst. unfold runs in E. cbn [map List.concat app] in E. injection E as ->. exists w, ws, s2. rewrite <- app_assoc. auto.
        -- cbn [negb andb]. rewrite white_iff. split.
           ++ intro H. exists [], [], (c :: s). split; [intros x []|]. split; [constructor|]. auto.
           ++ intros (r & ws & s2 & Hr & Hw & H2 & E). destruct r as [|x r].
              ** destruct ws as [|w ws]; [cbn in E; rewrite E; exact H2|]. injection E as -> _. discriminate.
              ** injection E as <- _. specialize (Hr c (or_introl eq_refl)). apply hex_iff in Hr. congruence.
    + intros q Hq. cbn [hex_tail]. destruct (is_hex c) eqn:Hc.
      * rewrite (IHm c (Hh eq_refl)). apply hex_iff in Hc. split.
        -- intros (r & ws & s2 & Hr & Hw & H2 & ->). exists (c :: r), ws, s2. split; [split; [discriminate|intros x [<-|Hx]; [exact Hc|exact (Hr x Hx)]]|]. auto.
        -- intros (r & ws & s2 & (Nr & Hr) & Hw & H2 & E). destruct r as [|x r]; [congruence|]. injection E as <- ->. exists r, ws, s2. split; [intros y Hy; apply Hr; right; exact Hy|]. auto.
      * split.
        -- intro H. exfalso. destruct Hq as [->| ->]; destruct (one 95 c); discriminate.
        -- intros (r & ws & s2 & (Nr & Hr) & _ & _ & E). exfalso. destruct r as [|x r]; [congruence|]. injection E as <- _. specialize (Hr c (or_introl eq_refl)). apply hex_iff in Hr. congruence.
Qed.
Lemma hex_tail_number s : hex_tail None s = true <-> exists w s2, hex_number w /\ white s2 /\ s = w ++ s2.
Proof.
  rewrite (proj2 (hex_tail_iff s) None (or_introl eq_refl)). split.
  - intros (r & ws & s2 & Hr & Hw & H2 & ->). exists (r ++ runs ws), s2. split; [|split; [exact H2|apply app_assoc]]. exists (r :: ws). split; [discriminate|]. split; [constructor; assumption|]. symmetry. apply join_map.
  - intros (w & s2 & (ws & N & F & ->) & H2 & ->). destruct ws as [|r ws]; [congruence|]. inversion F as [|? ? Hr Hw]; subst. exists r, ws, s2. change (u "_") with [95%N]. rewrite join_map, <- app_assoc. auto.
Qed.
Lemma lstrip_spec p s : exists a, s = a ++ lstrip p s /\ forallb p a = true /\ match lstrip p s with c :: _ => p c = false | [] => True end.
Proof.
  induction s as [|c s IH]; [exists []; cbn; auto|]. destruct IH as (a & E & P & H). cbn [lstrip]. destruct (p c) eqn:Pc.
  - exists (c :: a). split; [cbn; congruence|]. split; [cbn; rewrite Pc; exact P|exact H].
  - exists []. auto.
Qed.
Lemma lstrip_app p a s : forallb p a = true -> match s with c :: _ => p c = false | [] => True end -> lstrip p (a ++ s) = s.
Proof.
  induction a as [|c a IH]; intros P H; [destruct s as [|c s]; [reflexivity|]; cbn; rewrite H; reflexivity|].
  cbn in *. apply andb_true_iff in P as [-> P]. apply IH; assumption.
Qed.
Lemma hex_number_head w : hex_number w -> exists c t, w = c :: t /\ hex_digit c /\ forall x t', t = x :: t' -> x = 95%N \/ hex_digit x.
Proof.
  intros (ws & N & F & ->). destruct ws as [|r ws]; [congruence|]. inversion F as [|? ? (Nr & Hr) _]; subst. destruct r as [|c r]; [congruence|]. change (u "_") with [95%N]. rewrite join_map.
  exists c, (r ++ List.concat (map (fun x => 95%N :: x) ws)). split; [reflexivity|]. split; [apply Hr; left; reflexivity|]. intros x t' E. destruct r as [|y r].
  - destruct ws as [|w ws]; [discriminate|]. injection E as <- _. left. reflexivity.
  - injection E as <- _. right. apply Hr. right. left. reflexivity.
Qed.
Theorem int16_iff t : int16_ok t = true <-> int16_text t.
Proof.
  unfold int16_ok. rewrite hex_tail_number. split.
  - intros (w & s2 & Hw & H2 & E). destruct (lstrip_spec c_space t) as (s1 & E1 & H1 & _). set (t1 := lstrip c_space t) in *.
    assert (S : exists sg, (sg = [] \/ sg = u "+") /\ t1 = sg ++ no_sign t1).
    { destruct t1 as [|c t2]; [exists []; auto|]. cbn [no_sign]. destruct (one 43 c) eqn:C; [apply one_iff in C; subst c; exists (u "+"); auto|exists []; auto]. }
    destruct S as (sg & Hsg & E2). set (t2 := no_sign t1) in *.
    assert (P : exists pre, In pre (map u [""; "0x"; "0X"; "0x_"; "0X_"]%string) /\ t2 = pre ++ no_prefix t2).
    { clearbody t2. clear. destruct t2 as [|a [|b t]]; [exists []; cbn; auto 12..|]. cbn [no_prefix]. destruct (one 48 a) eqn:A; [|exists []; cbn; auto 12]. apply one_iff in A. subst a.
      destruct (one 120 b) eqn:B; [|destruct (one 88 b) eqn:B'; [|exists []; cbn; auto 12]]; cbn [orb andb].
      - apply one_iff in B. subst b. destruct t as [|y t]; [exists (u "0x"); cbn; auto 12|]. destruct (one 95 y) eqn:Y; [apply one_iff in Y; subst y; exists (u "0x_"); cbn; auto 12|exists (u "0x"); cbn; auto 12].
      - apply one_iff in B'. subst b. destruct t as [|y t]; [exists (u "0X"); cbn; auto 12|]. destruct (one 95 y) eqn:Y; [apply one_iff in Y; subst y; exists (u "0X_"); cbn; auto 12|exists (u "0X"); cbn; auto 12]. }
    destruct P as (pre & Hpre & E3). exists s1, sg, pre, w, s2. split; [apply white_iff, H1|]. split; [exact H2|]. split; [exact Hsg|]. split; [exact Hpre|]. split; [exact Hw|]. rewrite <- E, <- E3, <- E2. exact E1.
  - intros (s1 & sg & pre & w & s2 & H1 & H2 & Hsg & Hpre & Hw & ->). exists w, s2. split; [exact Hw|]. split; [exact H2|].
    destruct (hex_number_head w Hw) as (c & t & Ew & Hc & Ht). clear Hw.
    assert (Cs : c_space c = false). { destruct (c_space c) eqn:E; [|reflexivity]. assert (W : white [c]) by (apply white_iff; cbn; rewrite E; reflexivity). specialize (W c (or_introl eq_refl)). unfold hex_digit in Hc. lia. }
    rewrite lstrip_app; [|apply white_iff, H1|].
    + assert (E : no_sign (sg ++ pre ++ w ++ s2) = pre ++ w ++ s2).
      { destruct Hsg as [->| ->]; [|reflexivity]. rewrite Ew. cbn in Hpre. destruct Hpre as [<-|[<-|[<-|[<-|[<-|[]]]]]]; try reflexivity. cbn. destruct (one 43 c) eqn:C; [apply one_iff in C; unfold hex_digit in Hc; lia|reflexivity]. }
      rewrite E. rewrite Ew. cbn in Hpre. destruct Hpre as [<-|[<-|[<-|[<-|[<-|[]]]]]].
      * destruct (t ++ s2) as [|x r] eqn:X; [cbn; rewrite X; reflexivity|]. cbn. rewrite X.
        assert (Nx : one 120 x || one 88 x = false).
        { destruct (one 120 x || one 88 x) eqn:O; [|reflexivity]. apply orb_true_iff in O. rewrite !one_iff in O. destruct t as [|y t]; [cbn in X; destruct s2 as [|z s2]; [discriminate|]; injection X as -> _; specialize (H2 x (or_introl eq_refl)); lia|].
          injection X as -> _. specialize (Ht x t eq_refl). unfold hex_digit in Ht. lia. }
        rewrite Nx, andb_false_r. reflexivity.
      * cbn. destruct (one 95 c) eqn:C; [apply one_iff in C; unfold hex_digit in Hc; lia|reflexivity].
      * cbn. destruct (one 95 c) eqn:C; [apply one_iff in C; unfold hex_digit in Hc; lia|reflexivity].
      * reflexivity.
      * reflexivity.
    + destruct Hsg as [->| ->]; [|reflexivity]. rewrite Ew. cbn in Hpre. destruct Hpre as [<-|[<-|[<-|[<-|[<-|[]]]]]]; try reflexivity. exact Cs.
Qed.

Definition no_hyphen (s : pystr) : pystr := filter (fun c => negb (N.eqb c 45)) s.
Lemma startswith_head c p s : (forall s', s <> c :: s') -> startswith (c :: p) s = false.
Proof. intro H. destruct s as [|x s]; [reflexivity|]. cbn. destruct (N.eqb_spec c x) as [<-|]; [destruct (H s eq_refl)|reflexivity]. Qed.
Lemma replace_absent c p r s : ~ In c s -> replace (c :: p) r s = s.
Proof.
  unfold replace. induction s as [|x s IH]; intro N; [reflexivity|]. cbn [replace_aux]. rewrite startswith_head by (intros s' [= -> _]; apply N; left; reflexivity).
  rewrite IH by (intro H; apply N; right; exact H). reflexivity.
Qed.
Lemma replace_hyphen s : replace (u "-") [] s = no_hyphen s.
Proof. change (u "-") with [45%N]. rewrite replace1. induction s as [|c s IH]; [reflexivity|]. cbn. rewrite IH. destruct (N.eqb c 45); reflexivity. Qed.
Lemma lstrip_none p s : (forall c, In c s -> p c = false) -> lstrip p s = s.
Proof. destruct s as [|c s]; intro H; [reflexivity|]. cbn. rewrite H by (left; reflexivity). reflexivity. Qed.
Lemma strip_none p s : (forall c, In c s -> p c = false) -> strip p s = s.
Proof.
  intro H. unfold strip. rewrite (lstrip_none p s H), lstrip_none, rev_involutive; [reflexivity|]. intros c Hc. apply H, in_rev, Hc.
Qed.
Lemma strip_around p a s b : forallb p a = true -> forallb p b = true -> (forall c, In c s -> p c = false) -> s <> [] -> strip p (a ++ s ++ b) = s.
Proof.
  intros Ha Hb Hs N. unfold strip. rewrite lstrip_app; [|exact Ha|destruct s as [|c s]; [congruence|]; apply Hs; left; reflexivity].
  rewrite rev_app_distr, lstrip_app; [apply rev_involutive| |].
  - apply forallb_forall. intros c Hc. rewrite forallb_forall in Hb. apply Hb, in_rev, Hc.
  - destruct (rev s) as [|c r] eqn:E; [exact I|]. apply Hs, in_rev. rewrite E. left. reflexivity.
Qed.
Lemma lstrip_len p s : length (lstrip p s) <= length s.
Proof. induction s as [|c s IH]; [cbn; lia|]. cbn. destruct (p c); cbn; lia. Qed.
Lemma strip_len p s : length (strip p s) <= length s.
Proof. unfold strip. rewrite rev_length. pose proof (lstrip_len p (rev (lstrip p s))). rewrite rev_length in H. pose proof (lstrip_len p s). lia. Qed.
Lemma replace_len p s : forall k, length (replace_aux p [] k s) <= length s.
Proof.
  induction s as [|c s IH]; intros [|k]; cbn [replace_aux List.length]; try lia.
  - destruct (startswith p (c :: s)); cbn [app List.length]; [specialize (IH (List.length p - 1))|specialize (IH 0)]; lia.
  - specialize (IH k). lia.
Qed.
Lemma hex_not c x : hex_digit c -> (x < 48 \/ 57 < x < 65 \/ 70 < x < 97 \/ 102 < x)%N -> c <> x.
Proof. unfold hex_digit. lia. Qed.
(** hexadecimal digits and hyphens *)
Definition uuid_chars (s : pystr) : Prop := forall c, In c s -> hex_digit c \/ c = 45%N.
Lemma uuid_clean s : uuid_chars s -> uuid_hex s = no_hyphen s.
Proof.
  intro H. unfold uuid_hex. change (u "urn:") with (117%N :: u "rn:"). change (u "uuid:") with (117%N :: u "uid:").
  assert (N : ~ In 117%N s) by (intro C; destruct (H _ C) as [C1|C1]; [unfold hex_digit in C1|]; lia).
  rewrite (replace_absent 117 (u "rn:")), (replace_absent 117 (u "uid:")) by exact N. rewrite strip_none by (intros c Hc; unfold brace, one; apply orb_false_iff; rewrite !N.eqb_neq; destruct (H _ Hc) as [C1|C1]; [unfold hex_digit in C1|]; lia).
  apply replace_hyphen.
Qed.
Lemma no_hyphen_hex s : uuid_chars s -> forall c, In c (no_hyphen s) -> hex_digit c.
Proof. intros H c Hc. apply filter_In in Hc as [Hc N]. destruct (H c Hc) as [| ->]; [assumption|discriminate]. Qed.
Lemma hex_ok h : length h = 32 -> (forall c, In c h -> hex_digit c) -> int16_text h.
Proof.
  intros L H. exists [], [], [], h, []. split; [intros c []|]. split; [intros c []|]. split; [left; reflexivity|]. split; [left; reflexivity|]. split; [|cbn; symmetry; apply app_nil_r].
  exists [h]. split; [discriminate|]. split; [|reflexivity]. constructor; [|constructor]. split; [intros ->; discriminate|exact H].
Qed.
Lemma hex_ascii X h : (forall c, In c h -> hex_digit c) -> to_ascii X h = h.
Proof.
  intro H. unfold to_ascii. replace (forallb (fun c => N.ltb c 128) h) with true; [reflexivity|]. symmetry. apply forallb_forall. intros c Hc. apply N.ltb_lt. specialize (H c Hc). unfold hex_digit in H. lia.
Qed.
Lemma canonical_chars s : canonical_uuid s -> uuid_chars s /\ length (no_hyphen s) = 32 /\ s <> [] /\ length s = 36.
Proof.
  intros (a & b & c & d & e & (La & Ha) & (Lb & Hb) & (Lc & Hc) & (Ld & Hd) & (Le & He) & ->). split; [|split; [|split]].
  - intros x. rewrite !in_app_iff. intros [H|[[<-|[]]|[H|[[<-|[]]|[H|[[<-|[]]|[H|[[<-|[]]|H]]]]]]]]; auto.
  - assert (F : forall w, (forall x, In x w -> hex_digit x) -> no_hyphen w = w).
    { unfold no_hyphen. induction w as [|x w IH]; intro H; [reflexivity|]. cbn [filter]. replace (N.eqb x 45) with false; [cbn [negb]; rewrite IH; [reflexivity|intros y Hy; apply H; right; exact Hy]|]. symmetry. apply N.eqb_neq. specialize (H x (or_introl eq_refl)). unfold hex_digit in H. lia. }
    unfold no_hyphen in *. rewrite !filter_app, (F a Ha), (F b Hb), (F c Hc), (F d Hd), (F e He). cbn. rewrite !app_length. lia.
  - destruct a; [discriminate|discriminate].
  - rewrite !app_length. cbn. lia.
Qed.

(** ** C97: base64 *)
Definition base64_alphabet : pystr := u "ABCDEFGHIJKLMNOPQRSTUVWXYZabcdefghijklmnopqrstuvwxyz0123456789+/".
(** RFC 4648, section 4 *)
Definition sextet (i : N) : N := nth (N.to_nat i) base64_alphabet 0%N.
Fixpoint base64_encode (b : list N) : pystr :=
  match b with
  | [] => []
  | [x] => [sextet (x / 4); sextet (x mod 4 * 16)] ++ u "=="
  | [x; y] => [sextet (x / 4); sextet (x mod 4 * 16 + y / 16); sextet (y mod 16 * 4)] ++ u "="
  | x :: y :: z :: r =>
      [sextet (x / 4); sextet (x mod 4 * 16 + y / 16); sextet (y mod 16 * 4 + z / 64); sextet (z mod 64)] ++ base64_encode r
  end%N.
Definition in_alphabet (c : N) : bool := existsb (N.eqb c) base64_alphabet.
(** how many characters of a text are in the alphabet, and how many are "=" *)
Definition data (s : pystr) : nat := length (filter in_alphabet s).
Definition pads (s : pystr) : nat := length (filter (N.eqb 61) s).

Local Arguments Nat.modulo : simpl never.
Local Arguments in_alphabet : simpl never.
Local Arguments data : simpl never.
Local Arguments pads : simpl never.
Lemma alphabet_iff c : b64_char c = in_alphabet c.
Proof.
  assert (K : forallb (fun c => Bool.eqb (b64_char c) (in_alphabet c)) (map N.of_nat (seq 0 128)) = true) by (vm_compute; reflexivity).
  rewrite forallb_forall in K. destruct (N.lt_ge_cases c 128) as [L|L].
  - apply Bool.eqb_prop, K, in_map_iff. exists (N.to_nat c). split; [lia|apply in_seq; lia].
  - assert (B : b64_char c = false) by (unfold b64_char, is_upper, is_lower, is_ascii_digit, between, one; rewrite !orb_false_iff, !andb_false_iff, !N.leb_gt, !N.eqb_neq; lia).
    rewrite B. symmetry. apply ex_false. intro H. assert (A : forallb (fun c => N.ltb c 128) base64_alphabet = true) by reflexivity. rewrite forallb_forall in A. apply A, N.ltb_lt in H. lia.
Qed.
Lemma data_app a b : data (a ++ b) = data a + data b.
Proof. unfold data. rewrite filter_app, app_length. reflexivity. Qed.
Lemma pads_app a b : pads (a ++ b) = pads a + pads b.
Proof. unfold pads. rewrite filter_app, app_length. reflexivity. Qed.
Lemma data_cons c s : data (c :: s) = (if in_alphabet c then 1 else 0) + data s.
Proof. unfold data. cbn [filter]. destruct (in_alphabet c); reflexivity. Qed.
Lemma pads_cons c s : pads (c :: s) = (if N.eqb 61 c then 1 else 0) + pads s.
Proof. unfold pads. cbn [filter]. destruct (N.eqb 61 c); reflexivity. Qed.
(** enough padding after an incomplete group *)
Definition closed (q k : nat) (s : pystr) : Prop :=
  exists p z t, s = p ++ z ++ t /\ data z = 0 /\ 2 <= (q + data p) mod 4 /\ 4 <= (q + data p) mod 4 + (if data p =? 0 then k else 0) + pads z.
Lemma a2b_iff s : forall q k, q < 4 -> (q < 2 -> k = 0) -> q + k < 4 -> a2b q k s = true <-> (q + data s) mod 4 = 0 \/ closed q k s.
Proof.
  induction s as [|c s IH]; intros q k Hq Hk Hs; assert (M0 : (q + data []) mod 4 = q) by (change (data []) with 0; rewrite Nat.add_0_r; apply Nat.mod_small, Hq).
  - cbn [a2b]. rewrite Nat.eqb_eq, M0. split; [auto|]. intros [H|(p & z & t & E & _ & _ & H)]; [exact H|].
    destruct p; [|discriminate]. destruct z; [|discriminate]. rewrite M0 in H. change (data [] =? 0) with true in H. change (pads []) with 0 in H. cbv iota in H. lia.
  - cbn [a2b]. rewrite data_cons. unfold one. rewrite alphabet_iff. destruct (N.eqb_spec c 61) as [->|N61].
    + change (in_alphabet 61) with false. cbn [Nat.add]. destruct (Nat.leb_spec 2 q) as [H2|H2].
      * destruct (Nat.leb_spec 4 (q + S k)) as [H4|H4].
        -- split; [intros _|reflexivity]. right. exists [], [61%N], s. split; [reflexivity|]. split; [reflexivity|]. change (pads [61%N]) with 1. rewrite M0. change (data [] =? 0) with true. cbv iota. lia.
        -- rewrite IH by lia. apply or_iff_compat_l. split.
           ++ intros (p & z & t & -> & Dz & H3 & H5). destruct (Nat.eqb_spec (data p) 0) as [Dp|Dp].
              ** exists [], (61%N :: p ++ z), t. split; [cbn; rewrite <- app_assoc; reflexivity|]. rewrite data_cons, data_app, pads_cons, pads_app. change (in_alphabet 61) with false. rewrite M0. rewrite Dp in *. change (data [] =? 0) with true. change (q + 0) with (q + data []) in H3, H5. rewrite M0 in H3, H5. change (N.eqb 61 61) with true. cbv iota. lia.
              ** exists (61%N :: p), z, t. rewrite data_cons. change (in_alphabet 61) with false. cbn [Nat.add]. apply Nat.eqb_neq in Dp. rewrite Dp. auto.
           ++ intros (p & z & t & E & Dz & H3 & H5). destruct p as [|x p].
              ** rewrite M0 in H3, H5. change (data [] =? 0) with true in H5. cbv iota in H5. destruct z as [|x z]; [change (pads []) with 0 in H5; lia|]. injection E as <- ->.
                 exists [], z, t. rewrite data_cons in Dz. rewrite pads_cons in H5. rewrite M0. change (data [] =? 0) with true. change (N.eqb 61 61) with true in H5. change (in_alphabet 61) with false in Dz. cbv iota in *. split; [reflexivity|]. lia.
              ** injection E as <- ->. exists p, z, t. rewrite data_cons in H3, H5. change (in_alphabet 61) with false in *. cbn [Nat.add] in *. split; [reflexivity|]. split; [exact Dz|]. split; [exact H3|]. destruct (data p =? 0); lia.
      * rewrite (Hk H2) in *. rewrite IH by lia. apply or_iff_compat_l. split.
        -- intros (p & z & t & -> & Dz & H3 & H5). exists (61%N :: p), z, t. rewrite data_cons. change (in_alphabet 61) with false. cbn [Nat.add]. auto.
        -- intros (p & z & t & E & Dz & H3 & H5). destruct p as [|x p]; [rewrite M0 in H3; lia|].
           injection E as <- ->. exists p, z, t. rewrite data_cons in H3, H5. change (in_alphabet 61) with false in *. cbn [Nat.add] in *. auto.
    + destruct (in_alphabet c) eqn:A.
      * assert (Q : forall d, ((if q =? 3 then 0 else S q) + d) mod 4 = (q + (1 + d)) mod 4).
        { intro d. destruct (Nat.eqb_spec q 3) as [->|]; [replace (3 + (1 + d)) with (d + 1 * 4) by lia; rewrite Nat.mod_add by lia; reflexivity|f_equal; lia]. }
        rewrite IH by (destruct (Nat.eqb_spec q 3); lia). rewrite Q. apply or_iff_compat_l. split.
        -- intros (p & z & t & -> & Dz & H3 & H5). exists (c :: p), z, t. rewrite data_cons, A, <- Q. split; [reflexivity|]. split; [exact Dz|]. split; [exact H3|]. destruct (data p =? 0); cbn in *; lia.
        -- intros (p & z & t & E & Dz & H3 & H5). destruct p as [|x p].
           ++ rewrite M0 in H3, H5. change (data [] =? 0) with true in H5. cbv iota in H5. destruct z as [|x z]; [change (pads []) with 0 in H5; lia|]. injection E as <- ->. rewrite data_cons, A in Dz. discriminate.
           ++ injection E as <- ->. exists p, z, t. rewrite data_cons, A, <- Q in H3, H5. split; [reflexivity|]. split; [exact Dz|]. split; [exact H3|]. destruct (data p =? 0); cbn in *; lia.
      * cbn [Nat.add]. rewrite IH by assumption. apply or_iff_compat_l. assert (N6 : N.eqb 61 c = false) by (apply N.eqb_neq; congruence). split.
        -- intros (p & z & t & -> & Dz & H3 & H5). exists (c :: p), z, t. rewrite data_cons, A. auto.
        -- intros (p & z & t & E & Dz & H3 & H5). destruct p as [|x p].
           ++ destruct z as [|x z]; [rewrite M0 in H5; change (pads []) with 0 in H5; change (data [] =? 0) with true in H5; cbv iota in H5; lia|]. injection E as <- ->. rewrite data_cons, A in Dz. rewrite pads_cons, N6 in H5. exists [], z, t. auto.
           ++ injection E as <- ->. exists p, z, t. rewrite data_cons, A in H3, H5. auto.
Qed.

(** ** C98: decimal numbers *)
Definition digits_only (w : pystr) : Prop := forall c, In c w -> ascii_digit c.
(** a maybe empty exponent, worth [x] *)
Definition exponent_text (w : pystr) (x : Z) : Prop :=
  w = [] /\ x = 0%Z \/
  exists e d, (e = u "e" \/ e = u "E") /\ number_text d /\
    ((w = e ++ d \/ w = e ++ u "+" ++ d) /\ x = Z.of_N (number_of d) \/ w = e ++ u "-" ++ d /\ x = (- Z.of_N (number_of d))%Z).
(** the number [w * 10 ^ e] fits: exponents have eighteen digits *)
Definition storable (w : pystr) (e : Z) : Prop :=
  (-1999999999999999997 <= e)%Z /\
  ((forall c, In c w -> c = 48%N) /\ (e <= 999999999999999999)%Z \/
   exists z c r, w = z ++ c :: r /\ (forall x, In x z -> x = 48%N) /\ c <> 48%N /\ (e + Z.of_nat (length r) <= 999999999999999999)%Z).
(** sign, digits with or without a point, exponent *)
Definition decimal_number (s : pystr) : Prop :=
  exists sg i pt f w x, (sg = [] \/ sg = u "+" \/ sg = u "-") /\ digits_only i /\ digits_only f /\ i ++ f <> [] /\
    (pt = [] /\ f = [] \/ pt = u ".") /\ exponent_text w x /\ storable (i ++ f) (x - Z.of_nat (length f)) /\
    s = sg ++ i ++ pt ++ f ++ w.

Lemma digits_iff w : forallb is_ascii_digit w = true <-> digits_only w.
Proof. rewrite forallb_forall. split; intros H c Hc; apply digit_iff, H, Hc. Qed.
Lemma span_spec p s : s = fst (span p s) ++ snd (span p s) /\ forallb p (fst (span p s)) = true /\ match snd (span p s) with c :: _ => p c = false | [] => True end.
Proof.
  induction s as [|c s (E & P & H)]; [cbn; auto|]. cbn [span]. destruct (p c) eqn:Pc; [|cbn; auto]. destruct (span p s) as [a b]. cbn [fst snd app forallb] in *. rewrite Pc. split; [congruence|]. auto.
Qed.
Lemma span_app p a b : forallb p a = true -> match b with c :: _ => p c = false | [] => True end -> span p (a ++ b) = (a, b).
Proof.
  induction a as [|c a IH]; intros P H; [destruct b as [|c b]; [reflexivity|]; cbn; rewrite H; reflexivity|].
  cbn in *. apply andb_true_iff in P as [-> P]. rewrite IH by assumption. reflexivity.
Qed.
Lemma zeros_iff w : forallb (one 48) w = true <-> forall c, In c w -> c = 48%N.
Proof. rewrite forallb_forall. split; intros H c Hc; apply one_iff, H, Hc. Qed.
Lemma storable_iff w e : storable_digits w e = true <-> storable w e.
Proof.
  unfold storable_digits, storable, emax, etiny. rewrite andb_true_iff, Z.leb_le. apply and_iff_compat_l.
  destruct (lstrip_spec (one 48) w) as (z & E & Z & H). destruct (lstrip (one 48) w) as [|c r] eqn:L.
  - rewrite app_nil_r in E. subst z. cbn [List.length Z.of_nat Z.eqb]. rewrite Z.leb_le. split; [intro; left; split; [apply zeros_iff, Z|assumption]|].
    intros [[_ H1]|(z & c & r & -> & _ & Nc & _)]; [exact H1|]. exfalso. apply Nc. apply (proj1 (zeros_iff _) Z). apply in_app_iff. right. left. reflexivity.
  - assert (Nc : c <> 48%N) by (intros ->; discriminate). assert (Ln : Z.of_nat (length (c :: r)) = (Z.of_nat (length r) + 1)%Z) by (cbn [List.length]; lia). rewrite Ln.
    replace (Z.of_nat (length r) + 1 =? 0)%Z with false by (symmetry; apply Z.eqb_neq; lia). rewrite Z.leb_le. split.
    + intro H1. right. exists z, c, r. split; [exact E|]. split; [apply zeros_iff, Z|]. split; [exact Nc|lia].
    + intros [[Hz _]|(z' & c' & r' & E' & Hz & Nc' & H1)].
      * exfalso. apply Nc, Hz. rewrite E. apply in_app_iff. right. left. reflexivity.
      * assert (L' : lstrip (one 48) w = c' :: r').
        { rewrite E'. apply lstrip_app; [apply zeros_iff, Hz|]. destruct (one 48 c') eqn:O; [apply one_iff in O; congruence|reflexivity]. }
        rewrite L in L'. injection L' as <- <-. lia.
Qed.
Lemma exponent_iff w x : exponent_of w = Some x <-> exponent_text w x.
Proof.
  unfold exponent_of, exponent_text, nat_of_digits. change (fold_left (fun a c => 10 * a + (c - 48))%N) with (fold_left (fun a c => 10 * a + (c - 48))%N). destruct w as [|c t].
  - split; [intros [= <-]; left; auto|]. intros [[_ ->]|(e & d & He & _ & [[[E|E] _]|[E _]])]; [reflexivity|exfalso; destruct He as [->| ->]; discriminate..].
  - split.
    + destruct (one 69 c || one 101 c) eqn:C; [|discriminate]. destruct (null (sign_off t)) eqn:N; [discriminate|]. destruct (forallb is_ascii_digit (sign_off t)) eqn:D; [|discriminate]. cbn [negb andb].
      intros [= <-]. right. exists [c], (sign_off t). split; [|split].
      * apply orb_true_iff in C. rewrite !one_iff in C. destruct C as [->| ->]; [right|left]; reflexivity.
      * split; [intro E; rewrite E in N; discriminate|]. apply digits_iff, D.
      * destruct t as [|y t]; [discriminate|]. cbn [sign_off minus] in *. destruct (one 45 y) eqn:Y.
        -- apply one_iff in Y. subst y. right. split; reflexivity.
        -- left. split; [|reflexivity]. destruct (one 43 y) eqn:Y'; cbn [orb]; [apply one_iff in Y'; subst y; right; reflexivity|left; reflexivity].
    + intros [[E _]|(e & d & He & (Nd & Hd) & H)]; [discriminate|].
      assert (K : c :: t = e ++ t -> (one 69 c || one 101 c) = true) by (destruct He as [->| ->]; intros [= ->]; reflexivity).
      assert (D0 : match d with y :: _ => one 43 y = false /\ one 45 y = false | [] => False end).
      { destruct d as [|y d]; [congruence|]. specialize (Hd y (or_introl eq_refl)). unfold ascii_digit in Hd. unfold one. rewrite !N.eqb_neq. lia. }
      assert (So : sign_off d = d) by (destruct d as [|y d]; [reflexivity|]; cbn; destruct D0 as [-> ->]; reflexivity).
      assert (Mi : minus d = false) by (destruct d as [|y d]; [reflexivity|]; apply D0).
      apply digits_iff in Hd. assert (Nn : null d = false) by (destruct d; [congruence|reflexivity]).
      destruct H as [[[E|E] ->]|[E ->]]; (assert (c :: t = e ++ t) by (destruct He as [->| ->]; injection E as Ec _; rewrite Ec; reflexivity)); rewrite (K H).
      * assert (t = d) by (destruct He as [->| ->]; injection E; auto). subst t. rewrite So, Nn, Hd, Mi. reflexivity.
      * assert (t = 43%N :: d) by (destruct He as [->| ->]; injection E; auto). subst t. cbn [sign_off minus one]. change (one 43 43 || one 45 43) with true. change (one 45 43) with false. cbv iota. rewrite Nn, Hd. reflexivity.
      * assert (t = 45%N :: d) by (destruct He as [->| ->]; injection E; auto). subst t. cbn [sign_off minus one]. change (one 43 45 || one 45 45) with true. change (one 45 45) with true. cbv iota. rewrite Nn, Hd. reflexivity.
Qed.
Definition decimal_parts (t : pystr) : bool :=
  let '(i, r) := span is_ascii_digit (sign_off t) in
  let '(f, e) := match r with c :: r' => if one 46 c then span is_ascii_digit r' else ([], r) | [] => ([], []) end in
  negb (null i && null f) &&
  match exponent_of e with Some x => storable_digits (i ++ f) (x - Z.of_nat (length f)) | None => false end.
Lemma exponent_head w x : exponent_text w x -> match w with c :: _ => is_ascii_digit c = false /\ one 46 c = false | [] => True end.
Proof.
  intros [[-> _]|(e & d & [->| ->] & _ & [[[->| ->] _]|[-> _]])]; cbn; auto.
Qed.
Theorem decimal_iff t : decimal_parts t = true <-> decimal_number t.
Proof.
  unfold decimal_parts. split.
  - assert (S : exists sg, (sg = [] \/ sg = u "+" \/ sg = u "-") /\ t = sg ++ sign_off t).
    { destruct t as [|c t]; [exists []; auto|]. cbn [sign_off]. destruct (one 43 c) eqn:C; [apply one_iff in C; subst c; exists (u "+"); auto|]. destruct (one 45 c) eqn:C'; [apply one_iff in C'; subst c; exists (u "-"); auto|exists []; auto]. }
    destruct S as (sg & Hsg & E). destruct (span_spec is_ascii_digit (sign_off t)) as (E1 & D1 & _). destruct (span is_ascii_digit (sign_off t)) as [i r]. cbn [fst snd] in *.
    set (fe := match r with c :: r' => if one 46 c then span is_ascii_digit r' else ([], r) | [] => ([], []) end).
    assert (F : exists pt, (pt = [] /\ fst fe = [] \/ pt = u ".") /\ r = pt ++ fst fe ++ snd fe /\ forallb is_ascii_digit (fst fe) = true).
    { unfold fe. destruct r as [|c r']; [exists []; auto|]. destruct (one 46 c) eqn:C; [|exists []; auto]. apply one_iff in C. subst c. destruct (span_spec is_ascii_digit r') as (E2 & D2 & _). exists (u "."). split; [auto|]. split; [cbn; f_equal; exact E2|exact D2]. }
    destruct F as (pt & Hpt & Er & Df). destruct fe as [f w]. cbn [fst snd] in *. destruct (null i && null f) eqn:N; [discriminate|]. cbn [negb andb]. destruct (exponent_of w) as [x|] eqn:X; [|discriminate]. intro St.
    exists sg, i, pt, f, w, x. split; [exact Hsg|]. split; [apply digits_iff, D1|]. split; [apply digits_iff, Df|]. split; [intro C; apply app_eq_nil in C as [-> ->]; discriminate|].
    split; [exact Hpt|]. split; [apply exponent_iff, X|]. split; [apply storable_iff, St|]. rewrite <- Er, <- E1. exact E.
  - intros (sg & i & pt & f & w & x & Hsg & Hi & Hf & Ne & Hpt & Hw & St & ->). pose proof (exponent_head w x Hw) as Hh.
    assert (Hd : match i ++ pt ++ f ++ w with c :: _ => one 43 c = false /\ one 45 c = false | [] => True end).
    { destruct i as [|c i]; cbn [app].
      - destruct Hpt as [[-> ->]| ->]; [cbn in Ne; congruence|]. cbn. auto.
      - specialize (Hi c (or_introl eq_refl)). unfold ascii_digit in Hi. unfold one. rewrite !N.eqb_neq. lia. }
    assert (So : sign_off (sg ++ i ++ pt ++ f ++ w) = i ++ pt ++ f ++ w).
    { destruct Hsg as [->|[->| ->]]; [|reflexivity..]. cbn [app]. destruct (i ++ pt ++ f ++ w) as [|c r]; [reflexivity|]. cbn. destruct Hd as [-> ->]. reflexivity. }
    rewrite So. apply digits_iff in Hi, Hf. apply exponent_iff in Hw. apply storable_iff in St. rewrite span_app; [|exact Hi|].
    + destruct Hpt as [[-> ->]| ->].
      * cbn [app]. destruct w as [|c w]; [|destruct Hh as [_ ->]]; rewrite Hw, St; (destruct i; [cbn in Ne; congruence|reflexivity]).
      * change (u "." ++ f ++ w) with (46%N :: f ++ w). change (one 46 46) with true. cbv iota. rewrite span_app; [|exact Hf|destruct w as [|c w]; [exact I|apply Hh]].
        change (one 46 46) with true. cbv iota beta. rewrite Hw, St. destruct i, f; try reflexivity. cbn in Ne. congruence.
    + destruct Hpt as [[-> ->]| ->]; cbn [app]; [destruct w as [|c w]; [exact I|apply Hh]|reflexivity].
Qed.

(** ** The format tests *)
Section Tests.
  Variables (X : iso_env) (str_of : pv -> pystr) (re_compiles decimal_list : pv -> bool).
  Hypothesis str_text : forall s, str_of (VStr s) = s.
  Let E := std_env X str_of re_compiles decimal_list.
  (** [StringFormat[name](value)] is true *)
  Definition accepts (name : string) (v : pv) : Prop := exists test, string_format E (u name) = Some test /\ test v = Ok true.
  Definition refuses (name : string) (v : pv) : Prop := exists test, string_format E (u name) = Some test /\ test v = Ok false.
  Lemma accepts_at name v test : string_format E (u name) = Some test -> accepts name v <-> test v = Ok true.
  Proof. intro H. split; [intros (t & H' & R); congruence|intro R; exists test; auto]. Qed.
  Lemma refuses_at name v test : string_format E (u name) = Some test -> refuses name v <-> test v = Ok false.
  Proof. intro H. split; [intros (t & H' & R); congruence|intro R; exists test; auto]. Qed.
  Lemma caught_true {A} (r : res A) : caught r = Ok true <-> exists x, r = Ok x.
  Proof. unfold caught, catch_value. destruct r as [x|[]|]; split; try discriminate; try (intros [? ?]; discriminate); eauto. Qed.
  Lemma map_res_value {A B} (f : A -> res B) l : (forall x, (exists y, f x = Ok y) \/ f x = Raise EValue) -> (exists ys, map_res f l = Ok ys) \/ map_res f l = Raise EValue.
  Proof.
    intro H. induction l as [|x l IH]; [left; exists []; reflexivity|]. cbn [map_res]. destruct (H x) as [[y ->]| ->]; [|right; reflexivity]. cbn [bind].
    destruct IH as [[ys ->]| ->]; [left; eexists; reflexivity|right; reflexivity].
  Qed.
  Lemma ipv4_outcome s : (exists n, ipv4_text s = Ok n) \/ ipv4_text s = Raise EValue.
  Proof.
    unfold ipv4_text, v4_of_text. destruct (existsb (N.eqb 47) s); [auto|]. destruct (null s); [auto|]. cbv zeta. destruct (negb _); [auto|].
    destruct (map_res_value parse_octet (split 46%N s)) as [[ys ->]| ->]; [|left; eexists; reflexivity|right; reflexivity].
    intro w. unfold parse_octet. destruct (null w); [auto|]. destruct (negb _); [auto|]. destruct (_ <? _); [auto|]. destruct (_ && _); [auto|]. cbv zeta. destruct (_ <? _)%N; eauto.
  Qed.
  Lemma for_each_value l : for_each parse_hextet l = Ok tt \/ for_each parse_hextet l = Raise EValue.
  Proof.
    induction l as [|x l IH]; [auto|]. cbn [for_each]. assert (H : parse_hextet x = Ok tt \/ parse_hextet x = Raise EValue) by (unfold parse_hextet; destruct (negb _); [auto|]; destruct (_ <? _); [auto|]; destruct (null x); auto).
    destruct H as [-> | ->]; [exact IH|auto].
  Qed.
  Lemma v6_outcome parts : v6_parts parts = Ok tt \/ v6_parts parts = Raise EValue.
  Proof.
    unfold v6_parts. destruct (9 <? _); [auto|]. match goal with |- context [bind ?x _] => assert (H : (exists p, x = Ok p) \/ x = Raise EValue) end.
    { destruct (gaps parts) as [|i [|j l]]; [| |auto].
      - destruct (negb _); [auto|]. destruct (null _); [auto|]. destruct (null _); eauto.
      - destruct (null (hd [] parts)); [destruct (i - 1 =? 0); [|auto]|]; cbn [bind]; cbv zeta; (destruct (null (last parts [])); [destruct (_ - 1 =? 0); [|auto]|]); cbn [bind]; destruct (8 <=? _); eauto. }
    destruct H as [[[hi lo] ->]| ->]; [|auto]. cbn [bind]. destruct (for_each_value (firstn hi parts)) as [-> | ->]; [|auto]. cbn [bind]. apply for_each_value.
  Qed.
  Lemma ipv6_outcome s : ipv6_text s = Ok tt \/ ipv6_text s = Raise EValue.
  Proof.
    assert (H : forall s, v6_of_text s = Ok tt \/ v6_of_text s = Raise EValue).
    { intro t. unfold v6_of_text. destruct (null t); [auto|]. cbv zeta. destruct (_ <? 3); [auto|]. destruct (existsb _ _); [|apply v6_outcome].
      destruct (ipv4_outcome (last (split 58%N t) [])) as [[n ->]| ->]; [cbn [bind]; apply v6_outcome|auto]. }
    unfold ipv6_text. destruct (existsb (N.eqb 47) s); [auto|]. destruct (partition 37%N s) as [a [z|]]; [destruct (_ || _); auto|auto].
  Qed.

  (** *** C94 *)
  Theorem C94_ipv4 s : (accepts "ip-address-v4" (VStr s) <-> ipv4_address s) /\ (refuses "ip-address-v4" (VStr s) <-> ~ ipv4_address s).
  Proof.
    rewrite (accepts_at _ _ (std_ipv4 str_of)) by reflexivity. rewrite (refuses_at _ _ (std_ipv4 str_of)) by reflexivity. cbn [std_ipv4]. rewrite str_text, ipv4_iff. split; [apply caught_true|].
    destruct (ipv4_outcome s) as [[n ->]| ->]; cbn; split; try discriminate; try reflexivity; [intro H; destruct H; eauto|intros _ [n H]; discriminate].
  Qed.
  (** numbers: the address as an integer *)
  Theorem C94_ipv4_number z : (accepts "ip-address-v4" (VInt z) <-> (0 <= z < 2 ^ 32)%Z) /\ (refuses "ip-address-v4" (VInt z) <-> ~ (0 <= z < 2 ^ 32)%Z).
  Proof.
    rewrite (accepts_at _ _ (std_ipv4 str_of)) by reflexivity. rewrite (refuses_at _ _ (std_ipv4 str_of)) by reflexivity. cbn [std_ipv4]. unfold in_range.
    destruct (Z.leb_spec 0 z), (Z.ltb_spec z (2 ^ 32)); cbn [andb]; (split; split; intros; try discriminate; try reflexivity; try lia).
  Qed.

  (** *** C95 *)
  Theorem C95_ipv6 s : (accepts "ip-address-v6" (VStr s) <-> ipv6_zoned s) /\ (refuses "ip-address-v6" (VStr s) <-> ~ ipv6_zoned s).
  Proof.
    rewrite (accepts_at _ _ (std_ipv6 str_of)) by reflexivity. rewrite (refuses_at _ _ (std_ipv6 str_of)) by reflexivity. cbn [std_ipv6]. rewrite str_text, ipv6_iff.
    destruct (ipv6_outcome s) as [-> | ->]; cbn; split; split; intros; try discriminate; try reflexivity; congruence.
  Qed.
  Theorem C95_ip s : (accepts "ip-address" (VStr s) <-> ipv4_address s \/ ipv6_zoned s) /\ (refuses "ip-address" (VStr s) <-> ~ (ipv4_address s \/ ipv6_zoned s)).
  Proof.
    rewrite (accepts_at _ _ (format_ip E)) by reflexivity. rewrite (refuses_at _ _ (format_ip E)) by reflexivity. unfold format_ip. change (ipv4 E) with (std_ipv4 str_of). change (ipv6 E) with (std_ipv6 str_of). cbn [std_ipv4 std_ipv6]. rewrite str_text, ipv4_iff, ipv6_iff.
    destruct (ipv4_outcome s) as [[n ->]| ->]; cbn [caught catch_value bind].
    - split; split; intro H; try reflexivity; try discriminate; [left; eauto|destruct H; left; eauto].
    - destruct (ipv6_outcome s) as [-> | ->]; cbn [caught catch_value]; (split; split; intro H; try reflexivity; try discriminate; auto).
      + destruct H. auto.
      + destruct H as [[n H]|H]; discriminate.
      + intros [[n C]|C]; discriminate.
  Qed.
  Theorem C95_ipv6_number z : (accepts "ip-address-v6" (VInt z) <-> (0 <= z < 2 ^ 128)%Z) /\ (accepts "ip-address" (VInt z) <-> (0 <= z < 2 ^ 128)%Z).
  Proof.
    rewrite (accepts_at "ip-address-v6" _ (std_ipv6 str_of)) by reflexivity. rewrite (accepts_at "ip-address" _ (format_ip E)) by reflexivity. unfold format_ip. change (ipv4 E) with (std_ipv4 str_of). change (ipv6 E) with (std_ipv6 str_of). cbn [std_ipv4 std_ipv6]. unfold in_range.
    assert ((2 ^ 32 <= 2 ^ 128)%Z) by (apply Z.pow_le_mono_r; lia).
    destruct (Z.leb_spec 0 z), (Z.ltb_spec z (2 ^ 32)), (Z.ltb_spec z (2 ^ 128)); cbn [andb bind]; (split; split; intros; try discriminate; try reflexivity; try lia).
  Qed.

  (** *** C96 *)
  Theorem C96_uuid_exact s : accepts "uuid" (VStr s) <->
    let h := replace (u "-") [] (strip brace (replace (u "uuid:") [] (replace (u "urn:") [] s))) in length h = 32 /\ int16_text (to_ascii X h).
  Proof.
    rewrite (accepts_at _ _ (fun v => Ok (std_uuid X v))) by reflexivity. cbn [std_uuid]. unfold uuid_text. fold (uuid_hex s). cbv zeta. rewrite <- int16_iff, <- Nat.eqb_eq, <- andb_true_iff. split; congruence.
  Qed.
  Theorem C96_uuid_partial s : uuid_chars s -> accepts "uuid" (VStr s) <-> length (no_hyphen s) = 32.
  Proof.
    intro H. rewrite C96_uuid_exact. fold (uuid_hex s). cbv zeta. rewrite (uuid_clean s H). split; [intros [L _]; exact L|]. intro L. split; [exact L|]. rewrite hex_ascii by exact (no_hyphen_hex s H). apply hex_ok; [exact L|exact (no_hyphen_hex s H)].
  Qed.
  Theorem C96_uuid_canonical s : canonical_uuid s ->
    accepts "uuid" (VStr s) /\ accepts "uuid" (VStr (u "{" ++ s ++ u "}")) /\ accepts "uuid" (VStr (u "urn:uuid:" ++ s)).
  Proof.
    intro C. destruct (canonical_chars s C) as (H & L & N & _). split; [apply C96_uuid_partial; assumption|].
    assert (K : forall t, uuid_hex t = no_hyphen s -> accepts "uuid" (VStr t)).
    { intros t Ht. apply C96_uuid_exact. fold (uuid_hex t). cbv zeta. rewrite Ht. split; [exact L|]. rewrite hex_ascii by exact (no_hyphen_hex s H). apply hex_ok; [exact L|exact (no_hyphen_hex s H)]. }
    assert (U : forall x, (97 < x < 126 /\ x <> 98 /\ x <> 99 /\ x <> 100 /\ x <> 101 /\ x <> 102)%N -> ~ In x s) by (intros x Hx Hi; destruct (H x Hi) as [D|D]; [unfold hex_digit in D|]; lia).
    assert (Br : forall c, In c s -> brace c = false) by (intros c Hc; unfold brace, one; apply orb_false_iff; rewrite !N.eqb_neq; destruct (H c Hc) as [D|D]; [unfold hex_digit in D|]; lia).
    split; apply K; unfold uuid_hex; rewrite replace_hyphen; f_equal.
    - change (u "urn:") with (117%N :: u "rn:"). change (u "uuid:") with (117%N :: u "uid:"). assert (Nu : ~ In 117%N (u "{" ++ s ++ u "}")) by (rewrite !in_app_iff; intros [[C1|[]]|[C1|[C1|[]]]]; [discriminate|exact (U 117%N ltac:(lia) C1)|discriminate]).
      rewrite (replace_absent 117 (u "rn:")) by exact Nu. rewrite (replace_absent 117 (u "uid:")) by exact Nu. apply strip_around; [reflexivity|reflexivity|exact Br|exact N].
    - assert (A : replace (u "urn:") [] (u "urn:uuid:" ++ s) = u "uuid:" ++ replace (u "urn:") [] s) by reflexivity. rewrite A.
      assert (N1 : ~ In 117%N s) by (apply U; lia). change (u "urn:") with (117%N :: u "rn:"). rewrite (replace_absent 117 (u "rn:")) by exact N1.
      assert (B : replace (u "uuid:") [] (u "uuid:" ++ s) = replace (u "uuid:") [] s) by reflexivity. rewrite B. change (u "uuid:") with (117%N :: u "uid:"). rewrite replace_absent by exact N1. apply strip_none, Br.
  Qed.
  Theorem C96_uuid_length s : accepts "uuid" (VStr s) -> 32 <= length s.
  Proof.
    rewrite C96_uuid_exact. cbv zeta. intros [L _]. rewrite <- L. unfold replace. etransitivity; [apply replace_len|]. etransitivity; [apply strip_len|]. etransitivity; [apply replace_len|]. apply replace_len.
  Qed.
  Theorem C96_uuid_refuted : exists s1 s2 s3, Forall (fun s => accepts "uuid" (VStr s) /\ ~ canonical_uuid s) [s1; s2; s3] /\
    In 45%N s1 /\ In 95%N s2 /\ In 32%N s3.
  Proof.
    exists (u "0123456789abcdef-0123456789ABCDEF"), (u "0x_1_2_3_4_5_6_7_8_9_a_b_c_d_e_f"), (u " +0x2345678_9012345678901234567 "). split; [|split; [|split]; apply ex_iff; reflexivity].
    assert (K : forall s, uuid_text X s = true -> length s <> 36 -> accepts "uuid" (VStr s) /\ ~ canonical_uuid s).
    { intros s Hs Ls. split; [apply (accepts_at "uuid" _ (fun v => Ok (std_uuid X v)) eq_refl); cbn [std_uuid]; congruence|]. intro C. apply canonical_chars in C as (_ & _ & _ & C). contradiction. }
    repeat (apply Forall_cons; [apply K; [vm_compute; reflexivity|cbn; lia]|]). apply Forall_nil.
  Qed.

  (** *** C97 *)
  Theorem C97_byte_exact s : accepts "byte" (VStr s) <->
    (forall c, In c s -> (c < 128)%N) /\
    (data s mod 4 = 0 \/
     exists p z t, s = p ++ z ++ t /\ data z = 0 /\ (data p mod 4 = 2 /\ 2 <= pads z \/ data p mod 4 = 3 /\ 1 <= pads z)).
  Proof.
    rewrite (accepts_at _ _ (fun v => Ok (std_b64 v))) by reflexivity. cbn [std_b64]. unfold b64_text. transitivity (forallb (fun c => N.ltb c 128) s = true /\ a2b 0 0 s = true); [rewrite <- andb_true_iff; split; congruence|].
    rewrite forallb_forall. apply Morphisms_Prop.and_iff_morphism; [split; intros H c Hc; apply N.ltb_lt, H, Hc|]. rewrite a2b_iff by lia. apply or_iff_compat_l. unfold closed. cbn [Nat.add].
    split; intros (p & z & t & Es & Dz & H); exists p, z, t; (split; [exact Es|]; split; [exact Dz|]); pose proof (Nat.mod_upper_bound (data p) 4 ltac:(lia)); destruct (data p =? 0); lia.
  Qed.
  Lemma data_all d : (forall c, In c d -> In c base64_alphabet) -> data d = length d.
  Proof.
    induction d as [|c d IH]; intro H; [reflexivity|]. rewrite data_cons, IH by (intros x Hx; apply H; right; exact Hx). replace (in_alphabet c) with true by (symmetry; apply ex_iff, H; left; reflexivity). reflexivity.
  Qed.
  Lemma pads_repeat n : pads (repeat 61%N n) = n /\ data (repeat 61%N n) = 0.
  Proof. induction n as [|n [IH1 IH2]]; [split; reflexivity|]. cbn [repeat]. rewrite pads_cons, data_cons, IH1, IH2. split; reflexivity. Qed.
  Lemma alphabet_ascii c : In c base64_alphabet -> (c < 128)%N.
  Proof. intro H. assert (A : forallb (fun c => N.ltb c 128) base64_alphabet = true) by reflexivity. rewrite forallb_forall in A. apply N.ltb_lt, A, H. Qed.
  (** well-shaped texts: characters of the alphabet, then padding *)
  Theorem C97_byte_partial d n : (forall c, In c d -> In c base64_alphabet) ->
    accepts "byte" (VStr (d ++ repeat 61%N n)) <-> length d mod 4 = 0 \/ length d mod 4 = 2 /\ 2 <= n \/ length d mod 4 = 3 /\ 1 <= n.
  Proof.
    intro H. destruct (pads_repeat n) as [Pn Dn]. rewrite C97_byte_exact, data_app, Dn, Nat.add_0_r, (data_all d H). split.
    - intros [_ [H0|(p & z & t & Es & Dz & Hc)]]; [left; exact H0|]. right.
      assert (K : exists y m, z = y ++ repeat 61%N m /\ m <= n /\ (y = [] \/ p ++ y = d \/ exists t', d = p ++ y ++ t') /\ (forall c, In c y -> In c d) /\ (1 <= m -> p ++ y = d \/ exists a, p = d ++ a /\ y = [])).
      { clear Hc Dz Pn Dn H. revert d Es. induction p as [|x p IH]; intros d Es.
        - cbn [app] in Es. revert z t Es. induction d as [|x d IHd]; intros z t Es.
          + cbn [app] in Es. assert (Z : exists m, z = repeat 61%N m /\ m <= n).
            { revert z t Es. induction n as [|k IHk]; intros z t Es; [destruct z; [exists 0; auto|discriminate]|]. destruct z as [|y z]; [exists 0; split; [reflexivity|lia]|]. injection Es as <- Es. destruct (IHk z t Es) as (m & -> & Lm). exists (S m). split; [reflexivity|lia]. }
            destruct Z as (m & -> & Lm). exists [], m. split; [reflexivity|]. split; [exact Lm|]. split; [auto|]. split; [intros c []|]. intros _. left. reflexivity.
          + destruct z as [|y z]; [exists [], 0; split; [reflexivity|]; split; [lia|]; split; [auto|]; split; [intros c []|lia]|]. injection Es as <- Es.
            destruct (IHd z t Es) as (y & m & -> & Lm & H1 & H2 & H3). exists (x :: y), m. split; [reflexivity|]. split; [exact Lm|]. split; [|split].
            * right. destruct H1 as [->|[H1|(t' & H1)]]; [right; exists d; reflexivity|left; cbn in *; congruence|right; exists t'; cbn in *; congruence].
            * intros c [<-|Hc]; [left; reflexivity|right; apply H2, Hc].
            * intro Hm. destruct (H3 Hm) as [H4|(a & H4 & H5)]; [left; cbn in *; congruence|]. left. symmetry in H4. apply app_eq_nil in H4 as [-> _]. subst y. reflexivity.
        - destruct d as [|x' d].
          + cbn [app] in Es. destruct n as [|k]; [discriminate|]. injection Es as <- Es. assert (Z : exists m, z = repeat 61%N m /\ m <= k).
            { clear IH. revert k Es. induction p as [|y p IHp]; intros k Es.
              - cbn [app] in Es. revert z t Es. induction k as [|k IHk]; intros z t Es; [destruct z; [exists 0; auto|discriminate]|]. destruct z as [|y z]; [exists 0; split; [reflexivity|lia]|]. injection Es as <- Es. destruct (IHk z t Es) as (m & -> & Lm). exists (S m). split; [reflexivity|lia].
              - destruct k as [|k]; [discriminate|]. injection Es as <- Es. destruct (IHp k Es) as (m & -> & Lm). exists m. split; [reflexivity|lia]. }
            destruct Z as (m & -> & Lm). exists [], m. split; [reflexivity|]. split; [lia|]. split; [auto|]. split; [intros c []|]. intros _. right. exists (61%N :: p). auto.
          + injection Es as <- Es. destruct (IH d Es) as (y & m & -> & Lm & H1 & H2 & H3). exists y, m. split; [reflexivity|]. split; [exact Lm|]. split; [|split].
            * destruct H1 as [->|[H1|(t' & H1)]]; [auto|right; left; cbn; congruence|right; right; exists t'; cbn; congruence].
            * intros c Hc. right. apply H2, Hc.
            * intro Hm. destruct (H3 Hm) as [H4|(a & -> & ->)]; [left; cbn; congruence|right; exists a; auto]. }
      destruct K as (y & m & -> & Lm & _ & Hy & Hd). destruct (pads_repeat m) as [Pm Dm]. rewrite data_app, Dm, Nat.add_0_r in Dz.
      assert (y = []) by (destruct y as [|c y]; [reflexivity|]; rewrite data_cons in Dz; replace (in_alphabet c) with true in Dz by (symmetry; apply ex_iff, H, Hy; left; reflexivity); discriminate). subst y. cbn [app] in *. rewrite Pm in Hc.
      assert (Dp : data p = length d).
      { rewrite app_nil_r in Hd. destruct (Hd ltac:(lia)) as [->|(a & -> & _)]; [apply data_all, H|]. rewrite data_app, (data_all d H).
        rewrite <- app_assoc in Es. apply app_inv_head in Es. assert (data (repeat 61%N n) = data (a ++ repeat 61%N m ++ t)) by congruence. rewrite data_app in H0. destruct (pads_repeat n) as [_ Dn']. lia. }
      rewrite Dp in Hc. lia.
    - intro Hc. split.
      + intros c. rewrite in_app_iff. intros [Hd|Hr]; [apply alphabet_ascii, H, Hd|apply repeat_spec in Hr; subst c; lia].
      + destruct Hc as [Hc|Hc]; [left; exact Hc|right]. exists d, (repeat 61%N n), []. rewrite app_nil_r, Pn, (data_all d H). split; [reflexivity|]. split; [exact Dn|lia].
  Qed.
  Lemma sextet_in i : (i < 64)%N -> In (sextet i) base64_alphabet.
  Proof. intro H. apply nth_In. change (length base64_alphabet) with 64. lia. Qed.
  Lemma encoded_shape : forall b, Forall (fun x => (x < 256)%N) b -> exists d n, base64_encode b = d ++ repeat 61%N n /\ (forall c, In c d -> In c base64_alphabet) /\
    (length d mod 4 = 0 \/ length d mod 4 = 2 /\ 2 <= n \/ length d mod 4 = 3 /\ 1 <= n).
  Proof.
    fix IH 1. intros [|x [|y [|z r]]] F.
    - exists [], 0. split; [reflexivity|]. split; [intros c []|auto].
    - inversion F as [|? ? Hx _]; subst. exists [sextet (x / 4); sextet (x mod 4 * 16)]%N, 2. split; [reflexivity|]. split; [|right; left; split; [reflexivity|lia]].
      pose proof (N.mod_lt x 4 ltac:(lia)). assert ((x / 4 < 64)%N) by (apply N.div_lt_upper_bound; lia).
      intros c [<-|[<-|[]]]; apply sextet_in; lia.
    - inversion F as [|? ? Hx F1]; subst. inversion F1 as [|? ? Hy _]; subst. exists [sextet (x / 4); sextet (x mod 4 * 16 + y / 16); sextet (y mod 16 * 4)]%N, 1. split; [reflexivity|]. split; [|right; right; split; [reflexivity|lia]].
      pose proof (N.mod_lt x 4 ltac:(lia)). pose proof (N.mod_lt y 16 ltac:(lia)). assert ((x / 4 < 64)%N) by (apply N.div_lt_upper_bound; lia). assert ((y / 16 < 16)%N) by (apply N.div_lt_upper_bound; lia).
      intros c [<-|[<-|[<-|[]]]]; apply sextet_in; lia.
    - inversion F as [|? ? Hx F1]; subst. inversion F1 as [|? ? Hy F2]; subst. inversion F2 as [|? ? Hz Fr]; subst. destruct (IH r Fr) as (d & n & Er & Hd & Hn).
      exists ([sextet (x / 4); sextet (x mod 4 * 16 + y / 16); sextet (y mod 16 * 4 + z / 64); sextet (z mod 64)]%N ++ d), n. split; [cbn [base64_encode]; rewrite Er, <- app_assoc; reflexivity|]. split.
      + pose proof (N.mod_lt x 4 ltac:(lia)). pose proof (N.mod_lt y 16 ltac:(lia)). pose proof (N.mod_lt z 64 ltac:(lia)). assert ((x / 4 < 64)%N) by (apply N.div_lt_upper_bound; lia). assert ((y / 16 < 16)%N) by (apply N.div_lt_upper_bound; lia). assert ((z / 64 < 4)%N) by (apply N.div_lt_upper_bound; lia).
        intros c. rewrite in_app_iff. intros [[<-|[<-|[<-|[<-|[]]]]]|Hc]; [apply sextet_in; lia..|apply Hd, Hc].
      + rewrite app_length. cbn [List.length]. replace (4 + length d) with (length d + 1 * 4) by lia. rewrite Nat.mod_add by lia. exact Hn.
  Qed.
  Theorem C97_byte_encoded b : Forall (fun x => (x < 256)%N) b -> accepts "byte" (VStr (base64_encode b)).
  Proof. intro F. destruct (encoded_shape b F) as (d & n & -> & Hd & Hn). apply C97_byte_partial; assumption. Qed.
  Theorem C97_byte_refuted : exists s, accepts "byte" (VStr s) /\ forall b, Forall (fun x => (x < 256)%N) b -> s <> base64_encode b.
  Proof.
    exists (u "!Jsoned==!"). split; [apply (accepts_at "byte" _ (fun v => Ok (std_b64 v)) eq_refl); vm_compute; reflexivity|]. intros b F Eb. destruct (encoded_shape b F) as (d & n & Ed & Hd & _). rewrite Ed in Eb. destruct d as [|c d].
    - destruct n; discriminate.
    - injection Eb as <- _. specialize (Hd 33%N (or_introl eq_refl)). apply ex_iff in Hd. discriminate.
  Qed.

  (** *** C98 *)
  Theorem C98_decimal_exact s : accepts "decimal" (VStr s) <-> decimal_number (numeric_ascii X s).
  Proof.
    rewrite (accepts_at _ _ (fun v => Ok (std_decimal X decimal_list v))) by reflexivity. cbn [std_decimal]. rewrite <- decimal_iff. change (decimal_text X s) with (decimal_parts (numeric_ascii X s)). split; congruence.
  Qed.
  (** visible ASCII without underscores *)
  Definition visible (s : pystr) : Prop := forall c, In c s -> (33 <= c <= 126)%N /\ c <> 95%N.
  Lemma visible_numeric s : visible s -> numeric_ascii X s = s.
  Proof.
    intro H. unfold numeric_ascii. rewrite strip_none.
    - replace (filter (fun c => negb (one 95 c)) s) with s.
      + rewrite <- (map_id s) at 2. apply map_ext_in. intros c Hc. destruct (H c Hc) as [R _]. unfold between. replace ((1 <=? c) && (c <=? 127))%N with true; [reflexivity|]. symmetry. apply andb_true_iff. rewrite !N.leb_le. lia.
      + symmetry. induction s as [|c s IH]; [reflexivity|]. cbn [filter]. destruct (one 95 c) eqn:C; [apply one_iff in C; destruct (H c (or_introl eq_refl)); congruence|]. cbn [negb]. rewrite IH; [reflexivity|]. intros x Hx. apply H. right. exact Hx.
    - intros c Hc. destruct (H c Hc) as [R _]. unfold is_space, between, among. rewrite !orb_false_iff, !andb_false_iff, !N.leb_gt. split; [split; [lia|]|lia]. apply not_true_is_false. rewrite existsb_exists. intros (x & Hx & Ex). apply N.eqb_eq in Ex. subst x. cbn in Hx. lia.
  Qed.
  Theorem C98_decimal_partial s : visible s -> accepts "decimal" (VStr s) <-> decimal_number s.
  Proof. intro H. rewrite C98_decimal_exact, (visible_numeric s H). reflexivity. Qed.
End Tests.
Section Check.
  Variables (X : iso_env) (str_of : pv -> pystr) (re_compiles decimal_list : pv -> bool).
  Theorem C98_decimal_refuted : exists s1 s2, In 32%N s1 /\ In 95%N s2 /\
    Forall (fun s => accepts X str_of re_compiles decimal_list "decimal" (VStr s) /\ ~ decimal_number s) [s1; s2].
  Proof.
    assert (K : forall s, decimal_text X s = true -> decimal_parts s = false -> accepts X str_of re_compiles decimal_list "decimal" (VStr s) /\ ~ decimal_number s).
    { intros s H1 H2. split; [apply (accepts_at X str_of re_compiles decimal_list "decimal" _ (fun v => Ok (std_decimal X decimal_list v)) eq_refl); cbn [std_decimal]; congruence|]. rewrite <- decimal_iff. congruence. }
    exists (u " 12.50 "), (u "1__000_"). split; [apply ex_iff; reflexivity|]. split; [apply ex_iff; reflexivity|]. repeat (apply Forall_cons; [apply K; vm_compute; reflexivity|]). apply Forall_nil.
  Qed.
  (** anything but a text: never a UUID, never base64 *)
  Theorem C96_not_text v : (forall s, v <> VStr s) -> refuses X str_of re_compiles decimal_list "uuid" v /\ refuses X str_of re_compiles decimal_list "byte" v.
  Proof.
    intro H. split; eexists; (split; [reflexivity|]); (destruct v; try reflexivity; destruct (H _ eq_refl)).
  Qed.
End Check.

(** ** The schema [{"format": name}] *)
From Verif Require Import Errors Validators Keywords Spec LeafFacts KeywordFacts Master Claims ScalarFacts PropsScalar ExBase PropsFormats PropsIso PropsDuration PropsFormatKeyword.
Theorem C94_schema {node} (view : node -> res (nview node)) strx G voc X str_of rc dl n items m name v c :
  wf_view view -> (forall f, fmt G f = string_format (std_env X str_of rc dl) f) ->
  obj_at view n items -> lone voc items KwFormat m -> val_at view m (NStr (u name)) ->
  In name ["byte"; "decimal"; "ip-address"; "ip-address-v4"; "ip-address-v6"; "uuid"]%string ->
  (Accepts view strx G voc n v c <-> accepts X str_of rc dl name v) /\
  (refuses X str_of rc dl name v -> Claims.plain c -> RejectsWith view strx G voc n v c (KFormat (u name)) c).
Proof.
  intros Hwf HG Hn Hl Hm Hname. assert (T : exists test, string_format (std_env X str_of rc dl) (u name) = Some test).
  { repeat (destruct Hname as [<-|Hname]; [eexists; reflexivity|]). destruct Hname. }
  destruct T as [test T]. pose proof T as T'. rewrite <- HG in T'. destruct (C77_known view strx G voc Hwf n items m (u name) test v c Hn Hl Hm T') as (K1 & K2 & _ & K3).
  rewrite (accepts_at X str_of rc dl name v test T), (refuses_at X str_of rc dl name v test T). split; [split; assumption|exact K2].
Qed.

(** *** Cases *)
Definition std_ex : fmt_env := std_env iso_sec (str_of fmt_ex) (fun _ => true) (fun _ => false).
Definition std_table : env := Env (re_ok ex_env) (re_search ex_env) (string_format std_ex) (dec_of_str ex_env).
Example C94_some : ipv4_address (u "192.0.2.255") /\ ~ ipv4_address (u "192.0.2.256") /\ ~ ipv4_address (u "192.0.02.1") /\
  ~ ipv4_address (u "1.2.3") /\ ~ ipv4_address (u "1.2.3.4/8") /\ (forall s, str_of fmt_ex (VStr s) = s) /\
  let n := jobj [("format", jstr "ip-address-v4")]%string in
  obj_at tview n (members n) /\ lone all_keywords (members n) KwFormat (jstr "ip-address-v4") /\
  val_at tview (jstr "ip-address-v4") (NStr (u "ip-address-v4")) /\
  Accepts tview ex_strx std_table all_keywords n (VStr (u "127.0.0.1")) [u "x"] /\
  RejectsWith tview ex_strx std_table all_keywords n (VStr (u "127.0.0.300")) [u "x"] (KFormat (u "ip-address-v4")) [u "x"].
Proof.
  split; [apply ipv4_iff; eexists; vm_compute; reflexivity|].
  repeat (split; [rewrite ipv4_iff; intros [k H]; vm_compute in H; discriminate|]). split; [reflexivity|]. cbv zeta.
  split; [apply obj_members'|]. split; [lone_tac|]. split; [reflexivity|]. split; [exists 1; vm_compute; reflexivity|]. split; [discriminate|exists 1; vm_compute; reflexivity].
Qed.
Example C95_some : Forall ipv6_zoned (map u ["::"; "::1"; "1::"; "2001:db8::ff00:42:8329"; "1:2:3:4:5:6:7:8"; "::ffff:192.0.2.1"; "1:2:3:4:5:6:1.2.3.4"; "1:2:3:4:5:6:7::"; "fe80::1%eth0"]%string) /\
  Forall (fun s => ~ ipv6_zoned s) (map u [":"; ":::"; "1::2::3"; "1:2:3:4:5:6:7"; "1:2:3:4:5:6:7:8:9"; "1:2:3:4:5:6:7:8::"; "12345::"; "::g"; "1.2.3.4"; "::1.2.3.256"; "::1.2.3.4:5"; "fe80::1%"; "fe80::1%a%b"; "::/8"; "1:2:3:4:5:6:7:1.2.3.4"]%string).
Proof.
  split.
  - repeat (apply Forall_cons; [apply ipv6_iff; vm_compute; reflexivity|]). apply Forall_nil.
  - repeat (apply Forall_cons; [rewrite ipv6_iff; intro H; vm_compute in H; discriminate|]). apply Forall_nil.
Qed.
Example C96_some : canonical_uuid (u "123e4567-e89b-12d3-a456-426614174000") /\ uuid_chars (u "123e4567-e89b-12d3-a456-426614174000") /\
  uuid_chars (u "123e4567-e89b-12d3-a456-42661417400") /\ length (no_hyphen (u "123e4567-e89b-12d3-a456-42661417400")) = 31.
Proof.
  assert (K : forall w, forallb is_hex w = true -> hex_text (length w) w) by (intros w H; split; [reflexivity|]; rewrite forallb_forall in H; intros c Hc; apply hex_iff, H, Hc).
  assert (C : canonical_uuid (u "123e4567-e89b-12d3-a456-426614174000")).
  { exists (u "123e4567"), (u "e89b"), (u "12d3"), (u "a456"), (u "426614174000"). repeat (split; [match goal with |- hex_text _ ?w => exact (K w eq_refl) end|]). reflexivity. }
  split; [exact C|]. split; [apply canonical_chars, C|]. split; [|reflexivity].
  intros c Hc. assert (H : forallb (fun c => is_hex c || N.eqb c 45) (u "123e4567-e89b-12d3-a456-42661417400") = true) by reflexivity. rewrite forallb_forall in H. specialize (H c Hc). apply orb_true_iff in H as [H|H]; [left; apply hex_iff, H|right; apply N.eqb_eq, H].
Qed.
Example C97_some : base64_encode [74; 83; 79; 78]%N = u "SlNPTg==" /\ base64_encode [77; 97]%N = u "TWE=" /\ base64_encode [0; 16; 131; 255; 254; 253]%N = u "ABCD//79" /\
  Forall (fun x => (x < 256)%N) [74; 83; 79; 78; 255]%N /\ (forall c, In c (u "SlNPTg") -> In c base64_alphabet) /\
  ~ accepts iso_sec (str_of fmt_ex) (fun _ => true) (fun _ => false) "byte" (VStr (u "SlNPTg=")) /\
  ~ accepts iso_sec (str_of fmt_ex) (fun _ => true) (fun _ => false) "byte" (VStr (u "SlNPT===")).
Proof.
  do 3 (split; [reflexivity|]). split; [repeat (apply Forall_cons; [lia|]); apply Forall_nil|].
  assert (A : forall d, forallb in_alphabet d = true -> forall c, In c d -> In c base64_alphabet) by (intros d H c Hc; rewrite forallb_forall in H; apply ex_iff, (H c Hc)).
  split; [apply A; reflexivity|]. split; intro C.
  - apply (C97_byte_partial iso_sec (str_of fmt_ex) (fun _ => true) (fun _ => false) (u "SlNPTg") 1 (A (u "SlNPTg") eq_refl)) in C. change (length (u "SlNPTg") mod 4) with 2 in C. lia.
  - apply (C97_byte_partial iso_sec (str_of fmt_ex) (fun _ => true) (fun _ => false) (u "SlNPT") 3 (A (u "SlNPT") eq_refl)) in C. change (length (u "SlNPT") mod 4) with 1 in C. lia.
Qed.
Example C98_some : Forall (fun s => decimal_number s /\ visible s) (map u ["12.50"; "-1."; "+.5E-3"; "0e999999999999999999"; "7e999999999999999999"]%string) /\
  Forall (fun s => ~ decimal_number s /\ visible s) (map u ["."; "1e"; "1,5"; "--1"; "0x10"; "NaN"; "Infinity"; "1e5.0"; "0e1000000000000000000"; "10e999999999999999999"]%string).
Proof.
  assert (V : forall s, forallb (fun c => N.leb 33 c && N.leb c 126 && negb (N.eqb c 95))%N s = true -> visible s).
  { intros s H c Hc. rewrite forallb_forall in H. specialize (H c Hc). rewrite !andb_true_iff, negb_true_iff, !N.leb_le, N.eqb_neq in H. tauto. }
  split.
  - repeat (apply Forall_cons; [split; [apply decimal_iff; vm_compute; reflexivity|apply V; vm_compute; reflexivity]|]). apply Forall_nil.
  - repeat (apply Forall_cons; [split; [rewrite <- decimal_iff; intro H; vm_compute in H; discriminate|apply V; vm_compute; reflexivity]|]). apply Forall_nil.
Qed.
Print Assumptions C94_ipv4.
Print Assumptions C94_ipv4_number.
Print Assumptions C94_schema.
Print Assumptions C95_ipv6.
Print Assumptions C95_ip.
Print Assumptions C95_ipv6_number.
Print Assumptions C96_uuid_exact.
Print Assumptions C96_uuid_partial.
Print Assumptions C96_uuid_canonical.
Print Assumptions C96_uuid_length.
Print Assumptions C96_uuid_refuted.
Print Assumptions C96_not_text.
Print Assumptions C97_byte_exact.
Print Assumptions C97_byte_partial.
Print Assumptions C97_byte_encoded.
Print Assumptions C97_byte_refuted.
Print Assumptions C98_decimal_exact.
Print Assumptions C98_decimal_partial.
Print Assumptions C98_decimal_refuted.
