(** Reading documents that refer to one another. *)
From Verif Require Import PyBase PyBaseFacts PyVal OrderFacts Regex Numbers Uri Pointer PropsPointer Store Validators Heap HeapFacts PropsWrap PropsPlaces Doc DocMono DocFacts PropsQuery DocLoad DocDocument PropsAnchor PropsRef DocLibrary.
Local Open Scope nat_scope.
Local Notation length := List.length (only parsing).

(** ** What the documents say, read with their references *)
(** a value, with the document it stands in *)
Definition piece := (pv * item)%type.
(** what is seen there: an object, known by its members, or another value *)
Inductive seen := VMembers (look : pystr -> option piece) | VValue (z : piece).
Definition below_it (V : pv) (f : bool) (d : list (pystr * pv)) (k : pystr) : option piece := option_map (fun x => (V, (f, x))) (dget k d).
Definition piece_value (y : piece) : pv := snd (snd y).
Section Meaning.
  Variables (auth : pystr -> option authority) (dig : N -> option Z) (Lib : pystr -> option pv).
  (** the document and the pointer that a reference in document [V] names *)
  Definition names (V : pv) (t : pystr) (V' : pv) (p : list pystr) : Prop :=
    (exists v, local auth t v p /\ V' = V) \/ exists v k, remote auth t v k p /\ Lib k = Some V'.
  Inductive means : piece -> seen -> Prop :=
  | mn_raw V d : means (V, (true, VDict d)) (VMembers (below_it V true d))
  | mn_obj V d : dget (u "$ref") d = None -> means (V, (false, VDict d)) (VMembers (below_it V false (ddel (u "$anchor") d)))
  | mn_leaf V f x : (forall d, x <> VDict d) -> means (V, (f, x)) (VValue (V, (f, x)))
  (** the members of the target, and those beside the reference that the target lacks *)
  | mn_ref_obj V d t V' p y look : dget (u "$ref") d = Some (VStr t) -> names V t V' p -> leads V' p y -> means y (VMembers look) ->
      means (V, (false, VDict d)) (VMembers (fun k => match look k with Some z => Some z | None => if str_eqb k (u "$ref") then None else below_it V false d k end))
  | mn_ref_val V d t V' p y z : dget (u "$ref") d = Some (VStr t) -> names V t V' p -> leads V' p y -> means y (VValue z) -> means (V, (false, VDict d)) (VValue z)
  (** what a pointer into the document leads to *)
  with leads : pv -> list pystr -> piece -> Prop :=
  | ld_anchor V name q d : declares V q name -> inside V q (VDict d) -> (forall q', declares V q' name -> q' = q) -> leads V [name] (V, (false, VDict d))
  | ld_root V : (forall q, ~ declares V q []) -> leads V [[]] (V, (false, V))
  | ld_steps V p y : p <> [[]] -> (forall k q, p = [k] -> ~ declares V q k) -> passes (V, (false, V)) p y -> leads V p y
  with passes : piece -> list pystr -> piece -> Prop :=
  | ps_here x : passes x [] x
  | ps_member x look k y p z : means x (VMembers look) -> look k = Some y -> passes y p z -> passes x (k :: p) z
  | ps_elem V f l k i y p z : means_index dig k (length l) i -> nth_error l i = Some y -> passes (V, (true, y)) p z -> passes (V, (f, VList l)) (k :: p) z.
  Scheme means_ind2 := Minimality for means Sort Prop with leads_ind2 := Minimality for leads Sort Prop with passes_ind2 := Minimality for passes Sort Prop.
  Combined Scheme saying_ind from means_ind2, leads_ind2, passes_ind2.
End Meaning.

Section Reading.
  Variables (auth : pystr -> option authority) (dig : N -> option Z) (strx : heap -> addr -> pystr) (fetch : uri -> res pv).
  Variable Lib : pystr -> option pv.
  Notation Runs := (Runs auth dig strx fetch).
  Notation ev := (ev auth dig strx fetch).
  Notation state := (state auth Lib).
  Notation joined := (joined auth Lib).
  Hypothesis Dig : digits_ok dig.
  Hypothesis LibOk : forall k V, Lib k = Some V -> sound_document auth Lib V.
  Hypothesis Fetch : forall t v k p V, remote auth t v k p -> Lib k = Some V -> fetch v = Ok V.

  (** the node [a] stands for the value *)
  Definition stands_for (G : ghost) (w : world) (a : addr) (y : piece) : Prop :=
    exists s, G s = Some (fst y) /\ distinct (piece_value y) /\ forall h2, agree G w h2 -> if fst (snd y) then holds h2 a (piece_value y) else joined G h2 s a (piece_value y).
  (** after one look at its type, a node tells it for good *)
  Definition tells (G : ghost) (w : world) (a : addr) (sh : seen) : Prop :=
    match sh with
    | VMembers look => exists its, NoDup (dkeys its) /\ (forall k, match look k with Some y => exists c, dget k its = Some c /\ stands_for G w c y | None => dget k its = None end) /\
        forall G2 w2, state G2 None w2 -> later G w G2 w2 ->
          Runs (CType a) w2 w2 (Ok JObj) /\ ev (fun rec => node_items rec a) w2 w2 (Ok its) /\
          (forall k, Runs (CGet a k) w2 w2 (dict_get its k)) /\ (forall k, Runs (CHas a k) w2 w2 (Ok (dict_has its k)))
    | VValue z => jtype_of (piece_value z) <> JObj /\ exists b, stands_for G w b z /\
        forall G2 w2, state G2 None w2 -> later G w G2 w2 -> Runs (CType a) w2 w2 (Ok (jtype_of (piece_value z))) /\ target auth dig strx fetch w2 a b
    end.
  Definition seen_type (sh : seen) : jtype := match sh with VMembers _ => JObj | VValue z => jtype_of (piece_value z) end.

  Lemma stands_later G w G' w' a y : later G w G' w' -> stands_for G w a y -> stands_for G' w' a y.
  Proof.
    intros L (s & Gs & D & H). exists s. split; [exact (l_lib _ _ _ _ L _ _ Gs)|]. split; [exact D|]. intros h2 A. specialize (H h2 (l_agree _ _ _ _ L h2 A)). destruct (fst (snd y)); [exact H|]. eapply joined_more; [exact (l_lib _ _ _ _ L)|exact H].
  Qed.
  Lemma tells_later G w G' w' a sh : later G w G' w' -> tells G w a sh -> tells G' w' a sh.
  Proof.
    intros L T. destruct sh as [look|z]; cbn [tells] in *.
    - destruct T as (its & N & K & T). exists its. split; [exact N|]. split.
      + intro k. specialize (K k). destruct (look k) as [y|]; [|exact K]. destruct K as (c & Gc & S). exists c. split; [exact Gc|]. eapply stands_later; eassumption.
      + intros G2 w2 St L2. apply (T G2); [exact St|eapply later_trans; eassumption].
    - destruct T as (N & b & S & T). split; [exact N|]. exists b. split; [eapply stands_later; eassumption|]. intros G2 w2 St L2. apply (T G2); [exact St|eapply later_trans; eassumption].
  Qed.
  Lemma ready_later G w G' w' s V : later G w G' w' -> G s = Some V -> is_ready w s -> is_ready w' s.
  Proof. intros L Gs (x & Hx & Rx). exists x. split; [|exact Rx]. eapply l_ready; eassumption. Qed.
  (** an object that is not a reference tells its members *)
  Lemma object_tells G w a its look : NoDup (dkeys its) -> (forall h2, agree G w h2 -> val h2 a (PObj its)) ->
    (forall k, match look k with Some y => exists c, dget k its = Some c /\ stands_for G w c y | None => dget k its = None end) -> tells G w a (VMembers look).
  Proof.
    intros Nd Hv K. exists its. split; [exact Nd|]. split; [exact K|]. intros G2 w2 St L. pose proof (Hv (w_heap w2) (l_agree _ _ _ _ L _ (agree_self G2 w2))) as V2.
    split; [exact (runs_type auth dig strx fetch w2 a _ V2 eq_refl)|]. split; [apply ev_pure; intro rec; apply items_obj, V2|]. split; [intro k; apply runs_get_obj, V2|].
    intro k. apply ev_step, ev_pure. intro rec. apply has_obj, V2.
  Qed.


  (** ** Nodes whose meaning is settled are not going to change *)
  Lemma val_unique h a v v' : val h a v -> val h a v' -> v = v'.
  Proof. intros (n & H & E) (n' & H' & E'). rewrite H in H'. injection H' as <-. congruence. Qed.
  Lemma fixed_node G w a (P : payload -> Prop) : (exists v', ~ P v') -> (forall h2, agree G w h2 -> exists v, val h2 a v /\ P v) -> exists v, P v /\ forall h2, agree G w h2 -> val h2 a v.
  Proof.
    intros (v' & N) H. destruct (H (w_heap w) (agree_self G w)) as (v & Hv & Pv). exists v. split; [exact Pv|]. pose proof Hv as (n & Hn & En).
    assert (F : forall j, ~ pending G w j a).
    { intros j C. destruct (H (hset (w_heap w) a v')) as (v1 & (n1 & Hn1 & En1) & Pv1).
      - intros y _ Ny. rewrite hget_hset. destruct (Nat.eqb_spec a y) as [->|]; [destruct (Ny j C)|reflexivity].
      - rewrite hget_hset, Nat.eqb_refl, Hn in Hn1. injection Hn1 as <-. cbn [n_val] in En1. subst v1. contradiction. }
    intros h2 A. exists n. split; [|exact En]. rewrite <- Hn. apply A; [eapply hget_lt, Hn|exact F].
  Qed.
  Lemma forall_forall2 {A B C} (Q : C -> Prop) (R : C -> A -> B -> Prop) (c0 : C) (l : list A) (m : list B) :
    Q c0 -> (forall c, Q c -> Forall2 (R c) l m) -> Forall2 (fun x y => forall c, Q c -> R c x y) l m.
  Proof.
    intros Q0 H. pose proof (H c0 Q0) as F0. induction F0 as [|x y l m R0 F0 IH]; constructor.
    - intros c Qc. specialize (H c Qc). inversion H; assumption.
    - apply IH. intros c Qc. specialize (H c Qc). inversion H; assumption.
  Qed.
  Definition fields (G : ghost) (w : world) (V : pv) (f : bool) (its : list (pystr * addr)) (d : list (pystr * pv)) : Prop :=
    Forall2 (fun ka kx => fst ka = fst kx /\ stands_for G w (snd ka) (V, (f, snd kx))) its d.
  Lemma fields_of G w V s (f : bool) (its : list (pystr * addr)) (d : list (pystr * pv)) : G s = Some V -> (forall k x, In (k, x) d -> distinct x) ->
    (forall h2, agree G w h2 -> Forall2 (fun (ka : pystr * addr) (kx : pystr * pv) => fst ka = fst kx /\ (if f then holds h2 (snd ka) (snd kx) else joined G h2 s (snd ka) (snd kx))) its d) -> fields G w V f its d.
  Proof.
    intros Gs D H. pose proof (forall_forall2 (agree G w) (fun h2 (ka : pystr * addr) (kx : pystr * pv) => fst ka = fst kx /\ (if f then holds h2 (snd ka) (snd kx) else joined G h2 s (snd ka) (snd kx))) (w_heap w) its d (agree_self G w) H) as F.
    unfold fields. assert (D' : forall kx, In kx d -> distinct (snd kx)) by (intros [k x] I; exact (D k x I)). clear H D. induction F as [|ka kx its d H F IH]; constructor.
    - split; [exact (proj1 (H (w_heap w) (agree_self G w)))|]. exists s. split; [exact Gs|]. split; [apply D'; left; reflexivity|]. intros h2 A. exact (proj2 (H h2 A)).
    - apply IH. intros y I. apply D'. right. exact I.
  Qed.
  Lemma distinct_in d k (x : pv) : distinct (VDict d) -> In (k, x) d -> distinct x.
  Proof. intros D I. inversion D as [? _ C|?|? _ F]; subst; [exfalso; eapply C; reflexivity|]. rewrite Forall_forall in F. exact (F (k, x) I). Qed.
  Lemma stands_obj G w a V f d : stands_for G w a (V, (f, VDict d)) -> (f = false -> dget (u "$ref") d = None) ->
    exists its, (forall h2, agree G w h2 -> val h2 a (PObj its)) /\ fields G w V f its (if f then d else ddel (u "$anchor") d).
  Proof.
    intros (s & Gs & D & H) Nr. unfold piece_value in *. cbn [fst snd] in *.
    assert (X : forall h2, agree G w h2 -> exists its, val h2 a (PObj its) /\ Forall2 (fun (ka : pystr * addr) (kx : pystr * pv) => fst ka = fst kx /\ (if f then holds h2 (snd ka) (snd kx) else joined G h2 s (snd ka) (snd kx))) its (if f then d else ddel (u "$anchor") d)).
    { intros h2 A. specialize (H h2 A). destruct f.
      - inversion H as [| | | | | | |? ? its Hv F]; subst. eauto.
      - inversion H as [? ? C|? ? its _ Hv F|? ? ? ? ? ? ? ? C]; subst; [exfalso; eapply C; reflexivity|eauto|]. rewrite Nr in C by reflexivity. discriminate. }
    destruct (fixed_node G w a (fun v => exists its, v = PObj its)) as (v & (its & ->) & Fx).
    - exists PNull. intros (? & C). discriminate.
    - intros h2 A. destruct (X h2 A) as (its & Hv & _). eauto.
    - exists its. split; [exact Fx|]. eapply (fields_of G w V s); [exact Gs| |].
      + intros k x I. eapply distinct_in; [exact D|]. destruct f; [exact I|eapply In_ddel, I].
      + intros h2 A. destruct (X h2 A) as (its' & Hv & F). pose proof (val_unique _ _ _ _ Hv (Fx h2 A)) as E. injection E as ->. exact F.
  Qed.
  Lemma stands_ref G w a V d t : stands_for G w a (V, (false, VDict d)) -> dget (u "$ref") d = Some (VStr t) ->
    exists s v b e p its, G s = Some V /\ dest auth Lib G s t v e p /\ (forall h2, agree G w h2 -> val h2 a (PRef (RefData v b e p))) /\ (forall h2, agree G w h2 -> val h2 b (PObj its)) /\ fields G w V false its d.
  Proof.
    intros (s & Gs & D & H) Er. unfold piece_value in *. cbn [fst snd] in *.
    assert (X : forall h2, agree G w h2 -> exists v b e p its, dest auth Lib G s t v e p /\ val h2 a (PRef (RefData v b e p)) /\ val h2 b (PObj its) /\ Forall2 (fun ka kx => fst ka = fst kx /\ joined G h2 s (snd ka) (snd kx)) its d).
    { intros h2 A. specialize (H h2 A). inversion H as [? ? C|? ? its C|? ? b its t' v e p Er' De Hv Hb F]; subst; [exfalso; eapply C; reflexivity|congruence|]. rewrite Er in Er'. injection Er' as <-. exists v, b, e, p, its. auto. }
    destruct (fixed_node G w a (fun x => exists v b e p, x = PRef (RefData v b e p) /\ dest auth Lib G s t v e p)) as (x & (v & b & e & p & -> & De) & Fx).
    { exists PNull. intros (? & ? & ? & ? & C & _). discriminate. }
    { intros h2 A. destruct (X h2 A) as (v & b & e & p & its & De & Hv & _). exists (PRef (RefData v b e p)). split; [exact Hv|]. exists v, b, e, p. auto. }
    assert (X' : forall h2, agree G w h2 -> exists its, val h2 b (PObj its) /\ Forall2 (fun ka kx => fst ka = fst kx /\ joined G h2 s (snd ka) (snd kx)) its d).
    { intros h2 A. destruct (X h2 A) as (v' & b' & e' & p' & its & _ & Hv & Hb & F). pose proof (val_unique _ _ _ _ Hv (Fx h2 A)) as E. injection E as -> -> -> ->. eauto. }
    destruct (fixed_node G w b (fun x => exists its, x = PObj its)) as (x & (its & ->) & Fb).
    { exists PNull. intros (? & C). discriminate. }
    { intros h2 A. destruct (X' h2 A) as (its & Hb & _). eauto. }
    exists s, v, b, e, p, its. split; [exact Gs|]. split; [exact De|]. split; [exact Fx|]. split; [exact Fb|].
    eapply (fields_of G w V s false); [exact Gs|intros k x; apply distinct_in, D|].
    intros h2 A. destruct (X' h2 A) as (its' & Hb & F). pose proof (val_unique _ _ _ _ Hb (Fb h2 A)) as E. injection E as ->. exact F.
  Qed.
  Lemma stands_leaf G w a V f y : stands_for G w a (V, (f, y)) -> (forall d, y <> VDict d) -> forall h2, agree G w h2 -> holds h2 a y.
  Proof. intros (s & _ & _ & H) Nd h2 A. specialize (H h2 A). unfold piece_value in H. cbn [fst snd] in H. destruct f; [exact H|]. inversion H; subst; [assumption| |]; exfalso; eapply Nd; reflexivity. Qed.
  Lemma stands_list G w a V f l : stands_for G w a (V, (f, VList l)) -> exists els, (forall h2, agree G w h2 -> val h2 a (PArr els)) /\ Forall2 (fun c y => stands_for G w c (V, (true, y))) els l.
  Proof.
    intro S. pose proof (stands_leaf _ _ _ _ _ _ S ltac:(discriminate)) as H. destruct S as (s & Gs & D & _). unfold piece_value in D. cbn [fst snd] in *.
    assert (X : forall h2, agree G w h2 -> exists els, val h2 a (PArr els) /\ Forall2 (holds h2) els l) by (intros h2 A; specialize (H h2 A); inversion H; subst; eauto).
    destruct (fixed_node G w a (fun x => exists els, x = PArr els)) as (x & (els & ->) & Fx).
    { exists PNull. intros (? & C). discriminate. }
    { intros h2 A. destruct (X h2 A) as (els & Hv & _). eauto. }
    exists els. split; [exact Fx|].
    assert (F : Forall2 (fun c y => forall h2, agree G w h2 -> holds h2 c y) els l).
    { apply (forall_forall2 (agree G w) (fun h2 c y => holds h2 c y) (w_heap w)); [apply agree_self|]. intros h2 A. destruct (X h2 A) as (els' & Hv & F). pose proof (val_unique _ _ _ _ Hv (Fx h2 A)) as E. injection E as ->. exact F. }
    assert (Dl : Forall distinct l) by (inversion D as [? C _|? F'|? _]; subst; [exfalso; eapply C; reflexivity|exact F']).
    clear -F Dl Gs. induction F as [|c y els l H F IH]; constructor; inversion Dl; subst; [|auto]. exists s. auto.
  Qed.
  Lemma fields_nodup G w V f its d : fields G w V f its d -> NoDup (dkeys d) -> NoDup (dkeys its).
  Proof. intro F. exact (NoDup_forall2 (fun c x => stands_for G w c (V, (f, x))) _ _ F). Qed.
  Lemma fields_get G w V f its d k : fields G w V f its d -> match below_it V f d k with Some y => exists c, dget k its = Some c /\ stands_for G w c y | None => dget k its = None end.
  Proof.
    intro F. pose proof (dget_forall2 (fun c x => stands_for G w c (V, (f, x))) _ _ k F) as Q. unfold below_it. destruct (dget k d) as [x|]; cbn [option_map]; exact Q.
  Qed.
  Lemma dest_names G s V t v e p : G s = Some V -> dest auth Lib G s t v e p -> exists V', G e = Some V' /\ names auth Lib V t V' p.
  Proof. intros Gs [[L ->]|(k & V' & R & Lk & Ge)]; [exists V; split; [exact Gs|left; eauto]|exists V'; split; [exact Ge|right; eauto]]. Qed.
  Lemma names_unique V t V1 p1 V2 p2 : names auth Lib V t V1 p1 -> names auth Lib V t V2 p2 -> V1 = V2 /\ p1 = p2.
  Proof.
    intros [(v1 & (M1 & P1 & b1 & B1 & Z1) & ->)|(v1 & k1 & (M1 & P1 & (b1 & B1 & Z1) & K1) & L1)] [(v2 & (M2 & P2 & b2 & B2 & Z2) & ->)|(v2 & k2 & (M2 & P2 & (b2 & B2 & Z2) & K2) & L2)];
      rewrite M1 in M2; injection M2 as <-; rewrite P1 in P2; injection P2 as <-; rewrite B1 in B2; injection B2 as <-; try congruence; [auto|]. rewrite K1 in K2. injection K2 as <-. rewrite L1 in L2. injection L2 as <-. auto.
  Qed.

  (** ** Documents and nodes do what the documents say *)
  Definition gives (G : ghost) (w : world) (a : addr) (sh : seen) : Prop :=
    exists G1 w1, Runs (CType a) w w1 (Ok (seen_type sh)) /\ state G1 None w1 /\ onward Lib G w G1 w1 /\ tells G1 w1 a sh.
  Definition reaches (G : ghost) (w : world) (m : (forall A, call A -> M A) -> M addr) (z : piece) (R : world -> Prop) : Prop :=
    exists G1 w1 b, ev m w w1 (Ok b) /\ state G1 None w1 /\ onward Lib G w G1 w1 /\ stands_for G1 w1 b z /\ R w1 /\
      forall G2 w2, state G2 None w2 -> later G1 w1 G2 w2 -> ev m w2 w2 (Ok b).
  Lemma known_distinct G ex w s V : state G ex w -> G s = Some V -> distinct V.
  Proof. intros St Gs. destruct (st_doc _ _ _ _ _ St s V Gs) as ((_ & D & _) & _). exact D. Qed.
  Lemma root_stands G w s V x : state G None w -> G s = Some V -> nth_error (w_schemas w) s = Some x -> s_ready x = true -> stands_for G w (s_value x) (V, (false, V)).
  Proof. intros St Gs Hx Rx. exists s. split; [exact Gs|]. split; [eapply known_distinct; eassumption|]. apply (st_done _ _ _ _ _ St s V x Gs Hx Rx). Qed.
  (** a query: the load, and then the document is ready in later worlds too *)
  Lemma query_by G w s V p z : state G None w -> G s = Some V ->
    (forall G1 w1 x, state G1 None w1 -> onward Lib G w G1 w1 -> nth_error (w_schemas w1) s = Some x -> s_ready x = true ->
       reaches G1 w1 (fun rec => match p with [k] => match dget k (s_anchors x) with Some a => ret a | None => if str_eqb k [] then ret (s_value x) else follow dig rec (s_value x) p end | _ => follow dig rec (s_value x) p end) z (fun _ => True)) ->
    reaches G w (fun rec => rec addr (CQuery s p)) z (fun w1 => is_ready w1 s).
  Proof.
    intros St Gs K. destruct (load_runs auth dig strx fetch Lib Dig LibOk Fetch s V w G St Gs) as (w1 & G1 & L1 & St1 & La1 & (x & Hx & Rx)).
    destruct (K G1 w1 x St1 La1 Hx Rx) as (G2 & w2 & b & R2 & St2 & La2 & Sb & _ & Af). exists G2, w2, b. split; [|split; [exact St2|split; [eapply onward_trans; eassumption|split; [exact Sb|split]]]].
    - apply ev_step. cbn [Doc.step]. unfold query. eapply ev_bind; [exact L1|]. eapply ev_known; [apply schema_at_ok, Hx|]. exact R2.
    - eapply ready_later; [exact La2|exact (l_lib _ _ _ _ La1 _ _ Gs)|exists x; auto].
    - intros G3 w3 St3 La3. pose proof (l_ready _ _ _ _ La2 s V x (l_lib _ _ _ _ La1 _ _ Gs) Hx Rx) as Hx2. pose proof (l_ready _ _ _ _ La3 s V x (l_lib _ _ _ _ La2 _ _ (l_lib _ _ _ _ La1 _ _ Gs)) Hx2 Rx) as Hx3.
      apply ev_step. cbn [Doc.step]. unfold query. eapply ev_bind; [apply ev_pure, (load_ready w3 _ x Hx3 Rx)|]. eapply ev_known; [apply schema_at_ok, Hx3|]. exact (Af G3 w3 St3 La3).
  Qed.

  Lemma saying :
    (forall y sh, means auth dig Lib y sh -> forall G w a, state G None w -> stands_for G w a y -> gives G w a sh) /\
    (forall V p y, leads auth dig Lib V p y -> forall G w s, state G None w -> G s = Some V -> reaches G w (fun rec => rec addr (CQuery s p)) y (fun w1 => is_ready w1 s)) /\
    (forall y p z, passes auth dig Lib y p z -> forall G w a, state G None w -> stands_for G w a y -> reaches G w (fun rec => follow dig rec a p) z (fun _ => True)).
  Proof.
    apply saying_ind.
    - (* inside an array *)
      intros V d G w a St S. destruct (stands_obj _ _ _ _ _ _ S ltac:(discriminate)) as (its & Hv & F). cbv beta iota in F.
      assert (Nd : NoDup (dkeys its)) by (eapply fields_nodup; [exact F|]; destruct S as (_ & _ & D & _); apply distinct_dict, D).
      exists G, w. split; [exact (runs_type auth dig strx fetch w a _ (Hv _ (agree_self G w)) eq_refl)|]. split; [exact St|]. split; [apply onward_refl|].
      eapply object_tells; [exact Nd|exact Hv|]. intro k. apply fields_get, F.
    - (* an object *)
      intros V d Nr G w a St S. destruct (stands_obj _ _ _ _ _ _ S ltac:(auto)) as (its & Hv & F). cbv beta iota in F.
      assert (Nd : NoDup (dkeys its)) by (eapply fields_nodup; [exact F|]; apply NoDup_ddel; destruct S as (_ & _ & D & _); apply distinct_dict, D).
      exists G, w. split; [exact (runs_type auth dig strx fetch w a _ (Hv _ (agree_self G w)) eq_refl)|]. split; [exact St|]. split; [apply onward_refl|].
      eapply object_tells; [exact Nd|exact Hv|]. intro k. apply fields_get, F.
    - (* a scalar or an array *)
      intros V f y Nd G w a St S. pose proof (stands_leaf _ _ _ _ _ _ S Nd) as H. exists G, w. cbn [seen_type]. unfold piece_value. cbn [snd].
      split; [apply holds_type, H, agree_self|]. split; [exact St|]. split; [apply onward_refl|]. cbn [tells]. unfold piece_value. cbn [snd]. split; [destruct y; try discriminate; exfalso; eapply Nd; reflexivity|].
      exists a. split; [exact S|]. intros G2 w2 St2 L. split; [apply holds_type, H, (l_agree _ _ _ _ L), agree_self|constructor].
    - (* a reference to an object *)
      intros V d t V' p y look Er Na _ IHl _ IHm G w a St S. destruct (stands_ref _ _ _ _ _ _ S Er) as (s & v & b & e & p' & oits & Gs & De & Hv & Hb & F).
      destruct (dest_names _ _ _ _ _ _ _ Gs De) as (V2 & Ge & Na2). destruct (names_unique _ _ _ _ _ _ Na Na2) as [<- <-].
      destruct (IHl G w e St Ge) as (G1 & w1 & f & R1 & St1 & La1 & Sf & Rdy & Af1). destruct (IHm G1 w1 f St1 Sf) as (G2 & w2 & R2 & St2 & La2 & T2). cbn [seen_type] in R2.
      pose proof (onward_trans _ _ _ _ _ _ _ La1 La2) as La. destruct T2 as (its & Ndi & Ki & T2).
      assert (D : distinct (VDict d)) by (destruct S as (_ & _ & D & _); exact D).
      pose proof (fields_nodup _ _ _ _ _ _ F (distinct_dict _ D)) as Ndo.
      set (own' := filter (fun kx => negb (str_eqb (fst kx) (u "$ref"))) oits).
      set (all := fold_left (fun acc kx => dset (fst kx) (snd kx) acc) its (fold_left (fun acc kx => dset (fst kx) (snd kx) acc) own' [])).
      exists G2, w2. split; [|split; [exact St2|split; [exact La|]]].
      { pose proof (Hv _ (agree_self G w)) as (n & Hn & En). apply ev_step. cbn [Doc.step]. unfold node_type. eapply ev_known; [apply node_at_ok, Hn|]. rewrite En. eapply ev_bind; [exact R1|exact R2]. }
      exists all. split; [apply NoDup_update, NoDup_update; constructor|]. split.
      { intro k. unfold all. rewrite (dget_update its Ndi), (dget_update own') by (apply NoDup_filter_keys, Ndo). unfold own'. rewrite dget_filter_ne. cbn [dget]. specialize (Ki k). pose proof (fields_get _ _ _ _ _ _ k F) as Q.
        destruct (look k) as [z|]; [destruct Ki as (c & -> & Sc); eauto|]. rewrite Ki. destruct (str_eqb k (u "$ref")); [reflexivity|]. destruct (below_it V false d k) as [z|]; [|rewrite Q; reflexivity].
        destruct Q as (c & -> & Sc). exists c. split; [reflexivity|]. eapply stands_later; [exact La|eassumption]. }
      intros G3 w3 St3 La3. pose proof (later_trans _ _ _ _ _ _ La La3) as La03. pose proof (Hv _ (l_agree _ _ _ _ La03 _ (agree_self G3 w3))) as (n & Hn & En). pose proof (Hb _ (l_agree _ _ _ _ La03 _ (agree_self G3 w3))) as Hb3.
      destruct (T2 G3 w3 St3 La3) as (Tf & If & _ & _). pose proof (Af1 G3 w3 St3 (later_trans _ _ _ _ _ _ La2 La3)) as Rq.
      destruct (ready_later _ _ _ _ _ _ (later_trans _ _ _ _ _ _ La2 La3) (l_lib _ _ _ _ La1 _ _ Ge) Rdy) as (x & Hx & Rx).
      assert (RawR : Runs (CRaw a) w3 w3 (Ok (RDict all))).
      { apply ev_step. cbn [Doc.step]. unfold ref_raw. eapply ev_known; [apply node_at_ok, Hn|]. rewrite En. cbn [r_schema r_pointer r_node]. eapply ev_known; [apply schema_at_ok, Hx|]. rewrite Rx.
        eapply ev_bind; [exact Rq|]. eapply ev_bind; [exact Tf|]. eapply ev_bind; [apply ev_pure; intro rec; apply items_obj, Hb3|]. eapply ev_bind; [exact If|]. apply ev_ret. }
      split; [apply ev_step; cbn [Doc.step]; unfold node_type; eapply ev_known; [apply node_at_ok, Hn|]; rewrite En; eapply ev_bind; [exact Rq|exact Tf]|].
      split; [unfold node_items; eapply ev_known; [apply node_at_ok, Hn|]; rewrite En; eapply ev_bind; [exact RawR|apply ev_ret]|].
      split; [intro k; apply ev_step; cbn [Doc.step]; unfold node_get; eapply ev_known; [apply node_at_ok, Hn|]; rewrite En; eapply ev_bind; [exact RawR|apply ev_pure; reflexivity]|].
      intro k; apply ev_step; cbn [Doc.step]; unfold node_has; eapply ev_known; [apply node_at_ok, Hn|]; rewrite En; eapply ev_bind; [exact RawR|apply ev_ret].
    - (* a reference to something else *)
      intros V d t V' p y z Er Na _ IHl _ IHm G w a St S. destruct (stands_ref _ _ _ _ _ _ S Er) as (s & v & b & e & p' & oits & Gs & De & Hv & Hb & F).
      destruct (dest_names _ _ _ _ _ _ _ Gs De) as (V2 & Ge & Na2). destruct (names_unique _ _ _ _ _ _ Na Na2) as [<- <-].
      destruct (IHl G w e St Ge) as (G1 & w1 & f & R1 & St1 & La1 & Sf & Rdy & Af1). destruct (IHm G1 w1 f St1 Sf) as (G2 & w2 & R2 & St2 & La2 & Nf & c & Sc & T2). cbn [seen_type] in R2.
      pose proof (onward_trans _ _ _ _ _ _ _ La1 La2) as La. exists G2, w2. cbn [seen_type]. split; [|split; [exact St2|split; [exact La|]]].
      { pose proof (Hv _ (agree_self G w)) as (n & Hn & En). apply ev_step. cbn [Doc.step]. unfold node_type. eapply ev_known; [apply node_at_ok, Hn|]. rewrite En. eapply ev_bind; [exact R1|exact R2]. }
      split; [exact Nf|]. exists c. split; [exact Sc|]. intros G3 w3 St3 La3. pose proof (later_trans _ _ _ _ _ _ La La3) as La03. pose proof (Hv _ (l_agree _ _ _ _ La03 _ (agree_self G3 w3))) as (n & Hn & En).
      destruct (T2 G3 w3 St3 La3) as (Tf & Tc). pose proof (Af1 G3 w3 St3 (later_trans _ _ _ _ _ _ La2 La3)) as Rq.
      destruct (ready_later _ _ _ _ _ _ (later_trans _ _ _ _ _ _ La2 La3) (l_lib _ _ _ _ La1 _ _ Ge) Rdy) as (x & Hx & Rx).
      split; [apply ev_step; cbn [Doc.step]; unfold node_type; eapply ev_known; [apply node_at_ok, Hn|]; rewrite En; eapply ev_bind; [exact Rq|exact Tf]|].
      eapply t_next; [|exact Tc]. apply ev_step. cbn [Doc.step]. unfold ref_raw. eapply ev_known; [apply node_at_ok, Hn|]. rewrite En. cbn [r_schema r_pointer r_node]. eapply ev_known; [apply schema_at_ok, Hx|]. rewrite Rx.
      eapply ev_bind; [exact Rq|]. eapply ev_bind; [exact Tf|]. destruct (jtype_of (piece_value z)); try (apply ev_ret). congruence.
    - (* an anchor *)
      intros V name q d Dq Iq Un G w s St Gs. eapply query_by; [exact St|exact Gs|]. intros G1 w1 x St1 La1 Hx Rx. pose proof (l_lib _ _ _ _ La1 _ _ Gs) as Gs1.
      destruct (st_done _ _ _ _ _ St1 s V x Gs1 Hx Rx) as (_ & A1 & A2). destruct (A2 _ _ Dq) as [b Gb]. destruct (A1 _ _ Gb) as (q' & d' & Dq' & Iq' & Lb). pose proof (Un _ Dq') as ->. pose proof (inside_unique _ _ _ Iq _ Iq') as E. injection E as ->.
      rewrite Gb. exists G1, w1, b. split; [apply ev_ret|]. split; [exact St1|]. split; [apply onward_refl|]. split; [|split; [exact I|intros; apply ev_ret]].
      exists s. split; [exact Gs1|]. split; [exact (inside_distinct _ _ _ Iq (known_distinct _ _ _ _ _ St Gs))|exact Lb].
    - (* the root *)
      intros V Na G w s St Gs. eapply query_by; [exact St|exact Gs|]. intros G1 w1 x St1 La1 Hx Rx. pose proof (l_lib _ _ _ _ La1 _ _ Gs) as Gs1.
      destruct (st_done _ _ _ _ _ St1 s V x Gs1 Hx Rx) as (_ & A1 & _).
      assert (Gn : dget [] (s_anchors x) = None). { destruct (dget [] (s_anchors x)) as [b|] eqn:Gb; [|reflexivity]. destruct (A1 _ _ Gb) as (q & d & Dq & _). destruct (Na _ Dq). }
      rewrite Gn. cbn [str_eqb]. exists G1, w1, (s_value x). split; [apply ev_ret|]. split; [exact St1|]. split; [apply onward_refl|]. split; [eapply root_stands; eassumption|]. split; [exact I|intros; apply ev_ret].
    - (* steps from the root *)
      intros V p y Np Na _ IH G w s St Gs. eapply query_by; [exact St|exact Gs|]. intros G1 w1 x St1 La1 Hx Rx. pose proof (l_lib _ _ _ _ La1 _ _ Gs) as Gs1.
      pose proof (IH G1 w1 (s_value x) St1 (root_stands _ _ _ _ _ St1 Gs1 Hx Rx)) as R. destruct (st_done _ _ _ _ _ St1 s V x Gs1 Hx Rx) as (_ & A1 & _).
      destruct p as [|k [|k' p]]; [exact R| |exact R]. destruct (dget k (s_anchors x)) as [c|] eqn:Gc; [destruct (A1 _ _ Gc) as (q & d & Dq & _); destruct (Na _ _ eq_refl Dq)|].
      destruct (str_eqb_spec k []) as [->|]; [destruct (Np eq_refl)|exact R].
    - intros y G w a St S. exists G, w, a. split; [apply follow_nil|]. split; [exact St|]. split; [apply onward_refl|]. split; [exact S|]. split; [exact I|]. intros. apply follow_nil.
    - (* into an object *)
      intros y look k y' p z _ IHr Lk _ IHs G w a St S. destruct (IHr G w a St S) as (G1 & w1 & R1 & St1 & La1 & its & Nd & Ki & T1). specialize (Ki k). rewrite Lk in Ki. destruct Ki as (c & Gc & Sc).
      destruct (IHs G1 w1 c St1 Sc) as (G2 & w2 & b & R2 & St2 & La2 & Sb & _ & Af). exists G2, w2, b. cbn [seen_type] in R1.
      assert (Gk : forall G3 w3, state G3 None w3 -> later G1 w1 G3 w3 -> Runs (CGet a (KS k)) w3 w3 (Ok c)). { intros G3 w3 St3 La3. destruct (T1 G3 w3 St3 La3) as (_ & _ & Gg & _). specialize (Gg (KS k)). cbn [dict_get] in Gg. rewrite Gc in Gg. exact Gg. }
      split; [|split; [exact St2|split; [eapply onward_trans; eassumption|split; [exact Sb|split; [exact I|]]]]].
      + cbn [follow]. eapply ev_bind; [exact R1|]. eapply ev_bind; [exact (Gk G1 w1 St1 (later_refl _ _))|exact R2].
      + intros G3 w3 St3 La3. pose proof (later_trans _ _ _ _ _ _ La2 La3) as La13. cbn [follow]. eapply ev_bind; [exact (proj1 (T1 G3 w3 St3 La13))|]. eapply ev_bind; [exact (Gk G3 w3 St3 La13)|exact (Af G3 w3 St3 La3)].
    - (* into an array *)
      intros V f l k i y p z Mi Gi _ IHs G w a St S. destruct (stands_list _ _ _ _ _ _ S) as (els & Hv & F).
      assert (El : length els = length l) by (clear -F; induction F; cbn; congruence).
      assert (K : exists c, nth_error els i = Some c /\ stands_for G w c (V, (true, y))). { clear -F Gi. revert i Gi. induction F as [|c x els l H F IH]; intros [|i] Gi; try discriminate; cbn in *; [injection Gi as ->; eauto|apply IH, Gi]. }
      destruct K as (c & Gc & Sc). destruct (IHs G w c St Sc) as (G1 & w1 & b & R1 & St1 & La1 & Sb & _ & Af). exists G1, w1, b.
      destruct (py_int dig k) as [zz|] eqn:Ez; [|destruct Mi as (_ & [C|C]); congruence].
      assert (Ix : index els zz = Ok c) by (apply (index_spec dig els k zz Ez); exists i; rewrite El; auto).
      split; [eapply follow_arr; [exact (Hv _ (agree_self G w))|exact Ez|exact Ix|exact R1]|]. split; [exact St1|]. split; [exact La1|]. split; [exact Sb|]. split; [exact I|].
      intros G2 w2 St2 La2. eapply follow_arr; [exact (Hv _ (l_agree _ _ _ _ (later_trans _ _ _ _ _ _ La1 La2) _ (agree_self G2 w2)))|exact Ez|exact Ix|exact (Af G2 w2 St2 La2)].
  Qed.

  (** ** Any call keeps the documents in order *)
  Definition node_known (G : ghost) (w : world) (a : addr) : Prop := exists y, stands_for G w a y.
  Definition all_known (G : ghost) (w : world) (its : list (pystr * addr)) : Prop := forall k c, In (k, c) its -> node_known G w c.
  Lemma known_later G w G' w' a : later G w G' w' -> node_known G w a -> node_known G' w' a.
  Proof. intros L (y & S). exists y. eapply stands_later; eassumption. Qed.
  Lemma all_later G w G' w' its : later G w G' w' -> all_known G w its -> all_known G' w' its.
  Proof. intros L H k c I. eapply known_later; [exact L|exact (H k c I)]. Qed.
  Lemma fields_known G w V f its d : fields G w V f its d -> all_known G w its.
  Proof. intros F k c I. induction F as [|ka kx its d (_ & S) F IH]; [destruct I|]. destruct I as [->|I]; [eexists; exact S|auto]. Qed.
  Lemma node_cases G w a : node_known G w a -> exists n, hget (w_heap w) a = Some n /\
    match n_val n with
    | PArr els => forall c, In c els -> node_known G w c
    | PObj its => all_known G w its
    | PRef r => (exists V, G (r_schema r) = Some V) /\ exists its, (forall h2, agree G w h2 -> val h2 (r_node r) (PObj its)) /\ all_known G w its
    | _ => True
    end.
  Proof.
    intros ((V & (f & y)) & S). destruct y as [| | | | | |l|d].
    1-6: pose proof (stands_leaf _ _ _ _ _ _ S ltac:(discriminate) _ (agree_self G w)) as H; inversion H as [? (n & Hn & En)|? ? (n & Hn & En)|? ? (n & Hn & En)|? ? ? (n & Hn & En)|? ? ? (n & Hn & En)|? ? ? (n & Hn & En)| |]; subst; exists n; rewrite En; auto.
    - destruct (stands_list _ _ _ _ _ _ S) as (els & Hv & F). destruct (Hv _ (agree_self G w)) as (n & Hn & En). exists n. rewrite En. split; [exact Hn|]. intros c I. clear -F I. induction F as [|c' y els l H F IH]; [destruct I|]. destruct I as [->|I]; [eexists; exact H|auto].
    - assert (K : (f = false -> dget (u "$ref") d = None) \/ (f = false /\ exists t, dget (u "$ref") d = Some (VStr t))).
      { destruct f; [left; discriminate|]. destruct S as (s & _ & _ & H). specialize (H _ (agree_self G w)). unfold piece_value in H. cbn [fst snd] in H. inversion H as [? ? C|? ? its C|? ? ? ? t ? ? ? Er]; subst; [exfalso; eapply C; reflexivity|auto|eauto]. }
      destruct K as [Nr|(-> & t & Er)].
      + destruct (stands_obj _ _ _ _ _ _ S Nr) as (its & Hv & F). destruct (Hv _ (agree_self G w)) as (n & Hn & En). exists n. rewrite En. split; [exact Hn|]. eapply fields_known, F.
      + destruct (stands_ref _ _ _ _ _ _ S Er) as (s & v & b & e & p & its & Gs & De & Hv & Hb & F). destruct (Hv _ (agree_self G w)) as (n & Hn & En). 
        exists n. rewrite En. split; [exact Hn|]. cbn [r_schema r_node]. destruct (dest_names _ _ _ _ _ _ _ Gs De) as (V2 & Ge & _). split; [eauto|]. exists its. split; [exact Hb|]. eapply fields_known, F.
  Qed.

  (** from [w], the documents stay in order, and what comes out is [Q] *)
  Definition orderly {A} (G : ghost) (w : world) (m : M A) (Q : ghost -> world -> A -> Prop) : Prop :=
    forall w' r, m w = (w', r) -> r <> OutOfFuel -> exists G', state G' None w' /\ later G w G' w' /\ forall x, r = Ok x -> Q G' w' x.
  Lemma orderly_pure {A} G w (m : M A) (Q : ghost -> world -> A -> Prop) r : state G None w -> m w = (w, r) -> (forall x, r = Ok x -> Q G w x) -> orderly G w m Q.
  Proof. intros St E H w' r' E' _. rewrite E in E'. injection E' as <- <-. exists G. split; [exact St|]. split; [apply later_refl|exact H]. Qed.
  Lemma orderly_ret {A} G w (x : A) (Q : ghost -> world -> A -> Prop) : state G None w -> Q G w x -> orderly G w (ret x) Q.
  Proof. intros St H. eapply orderly_pure; [exact St|reflexivity|]. intros y [= <-]. exact H. Qed.
  Lemma orderly_raise {A} G w e (Q : ghost -> world -> A -> Prop) : state G None w -> orderly G w (raise e) Q.
  Proof. intro St. eapply orderly_pure; [exact St|reflexivity|]. discriminate. Qed.
  Lemma orderly_lift {A} G w (r : res A) (Q : ghost -> world -> A -> Prop) : state G None w -> (forall x, r = Ok x -> Q G w x) -> orderly G w (lift r) Q.
  Proof. intros St H. eapply orderly_pure; [exact St|reflexivity|exact H]. Qed.
  Lemma orderly_bind {A B} G w (m : M A) (k : A -> M B) (Q : ghost -> world -> A -> Prop) (R : ghost -> world -> B -> Prop) : orderly G w m Q -> (forall G1 w1 x, state G1 None w1 -> later G w G1 w1 -> Q G1 w1 x -> orderly G1 w1 (k x) R) -> orderly G w (mbind m k) R.
  Proof.
    intros H K w' r E Nr. unfold mbind in E. destruct (m w) as [w1 [x|e|]] eqn:Em.
    - destruct (H w1 (Ok x) Em ltac:(discriminate)) as (G1 & St1 & La1 & Q1). destruct (K G1 w1 x St1 La1 (Q1 x eq_refl) w' r E Nr) as (G2 & St2 & La2 & R2). exists G2. split; [exact St2|]. split; [eapply later_trans; eassumption|exact R2].
    - injection E as <- <-. destruct (H w1 (Raise e) Em ltac:(discriminate)) as (G1 & St1 & La1 & _). exists G1. split; [exact St1|]. split; [exact La1|discriminate].
    - injection E as <- <-. congruence.
  Qed.
  Lemma orderly_known {A B} G w (m : M A) (k : A -> M B) x (R : ghost -> world -> B -> Prop) : m w = (w, Ok x) -> orderly G w (k x) R -> orderly G w (mbind m k) R.
  Proof. intros E H w' r E' Nr. unfold mbind in E'. rewrite E in E'. exact (H w' r E' Nr). Qed.

  Definition call_known {A} (G : ghost) (w : world) (c : call A) : Prop :=
    match c with CQuery s _ => exists V, G s = Some V | CType a | CRaw a | CHas a _ | CGet a _ | CEq a _ => node_known G w a | CProcess _ _ => False end.
  Definition raw_known (G : ghost) (w : world) (x : raw) : Prop := match x with RDict d => all_known G w d | RNode f => node_known G w f end.
  Definition answer_known {A} (c : call A) (G : ghost) (w : world) : A -> Prop :=
    match c in call A return A -> Prop with CQuery _ _ | CGet _ _ => node_known G w | CRaw _ => raw_known G w | CProcess _ _ => fun _ => True | _ => fun _ => True end.

  Lemma update_known G w : forall b a, all_known G w a -> all_known G w b -> all_known G w (fold_left (fun acc kx => dset (fst kx) (snd kx) acc) b a).
  Proof.
    induction b as [|[k x] b IH]; intros a Ha Hb; [exact Ha|]. cbn [fold_left fst snd]. apply IH; [|intros k' c I; apply (Hb k' c); right; exact I].
    pose proof (Hb k x (or_introl eq_refl)) as Kx. clear -Ha Kx. intros k' c I. induction a as [|[k1 y] a IHa]; cbn [dset] in I.
    - destruct I as [[= -> ->]|[]]. exact Kx.
    - destruct (str_eqb k k1).
      + destruct I as [E|I]; [injection E as -> ->; exact Kx|apply (Ha k' c); right; exact I].
      + destruct I as [E|I]; [apply (Ha k' c); left; exact E|]. apply IHa; [intros k2 c2 I2; apply (Ha k2 c2); right; exact I2|exact I].
  Qed.
  Lemma dict_known G w its k c : all_known G w its -> dict_get its k = Ok c -> node_known G w c.
  Proof. intros H E. destruct k as [k|z]; cbn [dict_get] in E; [|discriminate]. destruct (dget k its) as [c'|] eqn:Ed; [|discriminate]. injection E as <-. apply (H k c'). apply dget_In, Ed. Qed.

  Lemma index_in l z c : index l z = Ok c -> In c l.
  Proof.
    unfold index. cbv zeta. intro E. match type of E with (if ?b then _ else _) = _ => destruct b; [discriminate|] end. match type of E with (match ?x with _ => _ end) = _ => destruct x as [c'|] eqn:En; [|discriminate] end.
    injection E as <-. eapply nth_error_In, En.
  Qed.
  Lemma items_orderly (rec : forall A, call A -> M A) : (forall a G w, state G None w -> node_known G w a -> orderly G w (rec raw (CRaw a)) (fun G' w' x => raw_known G' w' x)) ->
    forall G w a, state G None w -> node_known G w a -> orderly G w (node_items rec a) (fun G' w' x => all_known G' w' x).
  Proof.
    intros IH G w a St K. destruct (node_cases _ _ _ K) as (m & Hm & Cm). unfold node_items. eapply orderly_known; [apply node_at_ok, Hm|].
    destruct (n_val m) eqn:Em; try (apply orderly_raise, St); [apply orderly_ret; assumption|]. eapply orderly_bind; [exact (IH a G w St K)|]. intros G1 w1 x St1 La1 Kx. destruct x; [apply orderly_ret; assumption|apply orderly_raise, St1].
  Qed.
  Lemma exec_orderly n : forall A (c : call A) G w, state G None w -> call_known G w c -> orderly G w (exec auth dig strx fetch n A c) (fun G' w' x => answer_known c G' w' x).
  Proof.
    induction n as [|n IH]; intros A c G w St Kc; [intros w' r E Nr; cbn in E; injection E as <- <-; congruence|].
    assert (IHitems : forall G w a, state G None w -> node_known G w a -> orderly G w (node_items (exec auth dig strx fetch n) a) (fun G' w' x => all_known G' w' x)) by (intros; apply items_orderly; [intros; apply IH; assumption|assumption..]).
    destruct c as [s p|a|a|a k|a k|a k|s a]; cbn [exec step call_known answer_known] in *.
    - (* query *)
      destruct Kc as (V & Gs). unfold query. eapply (orderly_bind _ _ _ _ (fun G1 w1 _ => is_ready w1 s)).
      { intros w' r E Nr. assert (Ev : ev (fun rec => load rec s) w w' r).
        { exists n. intros m Hm. rewrite <- E. apply (mono_load _ _ (below_le auth dig strx fetch n m Hm)). rewrite E. exact Nr. }
        destruct (load_runs auth dig strx fetch Lib Dig LibOk Fetch s V w G St Gs) as (w1 & G1 & L1 & St1 & La1 & Rd). destruct (ev_det auth dig strx fetch _ _ _ _ _ _ Ev L1) as [-> ->]. exists G1. split; [exact St1|]. split; [exact La1|auto]. }
      intros G1 w1 _ St1 La1 (x & Hx & Rx). pose proof (l_lib _ _ _ _ La1 _ _ Gs) as Gs1. eapply orderly_known; [apply schema_at_ok, Hx|].
      assert (Fo : forall p G w a, state G None w -> node_known G w a -> orderly G w (follow dig (exec auth dig strx fetch n) a p) (fun G' w' x => node_known G' w' x)).
      { clear -IH. induction p as [|k p IHp]; intros G w a St K; cbn [follow]; [apply orderly_ret; assumption|]. eapply orderly_bind; [exact (IH _ (CType a) G w St K)|]. intros G1 w1 t St1 La1 _. pose proof (known_later _ _ _ _ _ La1 K) as K1.
        destruct t; try (apply orderly_raise, St1).
        - destruct (py_int dig k) as [z|]; [|apply orderly_raise, St1]. eapply orderly_bind; [exact (IH _ (CGet a (KI z)) G1 w1 St1 K1)|]. intros G2 w2 b St2 La2 Kb. apply IHp; assumption.
        - eapply orderly_bind; [exact (IH _ (CGet a (KS k)) G1 w1 St1 K1)|]. intros G2 w2 b St2 La2 Kb. apply IHp; assumption. }
      assert (Kr : node_known G1 w1 (s_value x)) by (eexists; exact (root_stands _ _ _ _ _ St1 Gs1 Hx Rx)).
      pose proof (Fo p G1 w1 _ St1 Kr) as Fp. destruct p as [|k [|k' p]]; [exact Fp| |exact Fp]. destruct (dget k (s_anchors x)) as [b|] eqn:Gb.
      + apply orderly_ret; [exact St1|]. destruct (st_done _ _ _ _ _ St1 s V x Gs1 Hx Rx) as (_ & A1 & _). destruct (A1 _ _ Gb) as (q & d & _ & Iq & J). exists (V, (false, VDict d)), s. split; [exact Gs1|]. split; [exact (inside_distinct _ _ _ Iq (known_distinct _ _ _ _ _ St Gs))|exact J].
      + destruct (str_eqb k []); [apply orderly_ret; assumption|exact Fp].
    - (* type *)
      destruct (node_cases _ _ _ Kc) as (m & Hm & Cm). unfold node_type. eapply orderly_known; [apply node_at_ok, Hm|]. destruct (n_val m) eqn:Em; try (apply orderly_ret; [exact St|exact I]).
      destruct Cm as (Kd & _). eapply orderly_bind; [exact (IH _ (CQuery _ _) G w St Kd)|]. intros G1 w1 f St1 La1 Kf. exact (IH _ (CType f) G1 w1 St1 Kf).
    - (* raw value of a reference *)
      destruct (node_cases _ _ _ Kc) as (m & Hm & Cm). unfold ref_raw. eapply orderly_known; [apply node_at_ok, Hm|]. destruct (n_val m) eqn:Em; try (apply orderly_raise, St).
      destruct Cm as ((V & Gs) & its & Hb & Ki). destruct (st_doc _ _ _ _ _ St _ _ Gs) as (_ & x & Hx & _). eapply orderly_known; [apply schema_at_ok, Hx|]. destruct (s_ready x).
      + eapply orderly_bind; [exact (IH _ (CQuery _ _) G w St (ex_intro _ V Gs))|]. intros G1 w1 f St1 La1 Kf. eapply orderly_bind; [exact (IH _ (CType f) G1 w1 St1 Kf)|]. intros G2 w2 t St2 La2 _. pose proof (later_trans _ _ _ _ _ _ La1 La2) as La.
        pose proof (known_later _ _ _ _ _ La2 Kf) as Kf2.
        destruct t; try (apply orderly_ret; assumption).
        eapply orderly_known; [apply items_obj, (Hb _ (l_agree _ _ _ _ La _ (agree_self G2 w2)))|].
        eapply orderly_bind; [exact (IHitems G2 w2 f St2 Kf2)|]. intros G3 w3 tgt St3 La3 Kt. apply orderly_ret; [exact St3|]. cbn [raw_known]. apply update_known; [|exact Kt]. apply update_known; [intros k c []|].
        intros k c I. apply filter_In in I as [I _]. exact (all_later _ _ _ _ _ (later_trans _ _ _ _ _ _ La La3) Ki k c I).
      + destruct (Hb _ (agree_self G w)) as (m' & Hm' & Em'). eapply orderly_known; [apply node_at_ok, Hm'|]. rewrite Em'. apply orderly_ret; assumption.
    - (* key in node *)
      destruct (node_cases _ _ _ Kc) as (m & Hm & Cm). unfold node_has. eapply orderly_known; [apply node_at_ok, Hm|]. destruct (n_val m) eqn:Em; try (apply orderly_raise, St); try (apply orderly_ret; [exact St|exact I]).
      + destruct k; [apply orderly_ret; [exact St|exact I]|apply orderly_raise, St].
      + clear Em Hm m. revert G w St Kc Cm. induction l as [|x l IHl]; intros G w St Kc Cm; cbn [any_eq]; [apply orderly_ret; [exact St|exact I]|]. eapply orderly_bind; [exact (IH _ (CEq x k) G w St (Cm x (or_introl eq_refl)))|]. intros G1 w1 b St1 La1 _.
        destruct b; [apply orderly_ret; [exact St1|exact I]|]. apply IHl; [exact St1|eapply known_later; eassumption|]. intros c I. eapply known_later; [exact La1|apply Cm; right; exact I].
      + eapply orderly_bind; [exact (IH _ (CRaw a) G w St Kc)|]. intros G1 w1 y St1 La1 Ky. destruct y as [d|f]; [apply orderly_ret; [exact St1|exact I]|]. exact (IH _ (CHas f k) G1 w1 St1 Ky).
    - (* node[key] *)
      destruct (node_cases _ _ _ Kc) as (m & Hm & Cm). unfold node_get. eapply orderly_known; [apply node_at_ok, Hm|]. destruct (n_val m) eqn:Em; try (apply orderly_raise, St).
      + destruct k as [k|z]; [apply orderly_raise, St|]. apply orderly_lift; [exact St|]. intros c E. apply Cm. eapply index_in, E.
      + apply orderly_lift; [exact St|]. intros c E. eapply dict_known; eassumption.
      + eapply orderly_bind; [exact (IH _ (CRaw a) G w St Kc)|]. intros G1 w1 y St1 La1 Ky. destruct y as [d|f].
        * apply orderly_lift; [exact St1|]. intros c E. eapply dict_known; eassumption.
        * eapply orderly_bind; [exact (IH _ (CHas f k) G1 w1 St1 Ky)|]. intros G2 w2 b St2 La2 _. destruct b; [|apply orderly_raise, St2]. exact (IH _ (CGet f k) G2 w2 St2 (known_later _ _ _ _ _ La2 Ky)).
    - (* node == key *)
      destruct (node_cases _ _ _ Kc) as (m & Hm & Cm). unfold node_eq. eapply orderly_known; [apply node_at_ok, Hm|]. destruct (n_val m) eqn:Em; try (apply orderly_raise, St); try (apply orderly_ret; [exact St|exact I]); [apply orderly_lift; [exact St|intros; exact I]|].
      eapply orderly_bind; [exact (IH _ (CRaw a) G w St Kc)|]. intros G1 w1 y St1 La1 Ky. destruct y as [d|f]; [apply orderly_ret; [exact St1|exact I]|]. exact (IH _ (CEq f k) G1 w1 St1 Ky).
    - destruct Kc.
  Qed.
End Reading.
