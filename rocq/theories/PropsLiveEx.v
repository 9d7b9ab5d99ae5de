(** C81 on concrete documents. *)
From Verif Require Import PyBase PyBaseFacts PyVal OrderFacts Regex Numbers Uri Pointer PropsPointer Store Errors Validators Keywords Heap HeapFacts PropsWrap PropsPlaces PropsUriEx Doc DocMono DocFacts PropsQuery DocLoad PropsLoad DocDocument PropsAnchor PropsRef PropsRefEdge Parametric Interrupt Validate PropsValidate Live DocLibrary DocReading PropsRemote PropsRemoteEx PropsLive ExBase.
Local Open Scope nat_scope.
Local Notation length := List.length (only parsing).

(** members that refer to the two documents of PropsRemoteEx.v *)
Definition C81_value : pv := VDict [(u "properties", VDict [
  (u "n", VDict [(u "minimum", VInt 9); (u "$ref", VStr (u "http://h/b.json#/y"))]);
  (u "m", VDict [(u "$ref", VStr (u "http://h/a.json#/defs/x"))])]); (u "required", VList [VStr (u "n")])].
Definition C81_y : list (pystr * pv) := [(u "minimum", VInt 3)].
Definition C81_look (y : piece) : res (nview piece) :=
  match y with
  | (V, (_, VInt z)) => Ok (NView (NNum (Dec z 0)) false)
  | (V, (_, VStr t)) => Ok (NView (NStr t) false)
  | (V, (_, VList l)) => Ok (NView (NArr (map (fun x => (V, (true, x))) l)) false)
  | (V, (false, VDict d)) =>
      match dget (u "$ref") d with
      | None => Ok (NView (NObj (here V false d)) false)
      | Some (VStr t) =>
          if str_eqb t (u "http://h/b.json#/y") then Ok (NView (NObj (updated (here V false (beside d)) (here ex_b false C81_y))) true)
          else Ok (NView (NObj (updated (here V false (beside d)) (here ex_a false ex_x))) true)
      | _ => Raise EOther
      end
  | _ => Raise EOther
  end.
Lemma shows_is auth dig Lib y nv nv' : shows auth dig Lib y nv -> nv = nv' -> shows auth dig Lib y nv'.
Proof. intros H <-. exact H. Qed.
Lemma C81_ref_b V d nv : dget (u "$ref") d = Some (VStr (u "http://h/b.json#/y")) -> nv = NView (NObj (updated (here V false (beside d)) (here ex_b false C81_y))) true -> shows toy ex_dig (shelf ex_shelf) (V, (false, VDict d)) nv.
Proof. intros E ->. eapply sw_ref; [exact E|apply ex_names_b|exact ex_leads_y|]. eapply shows_is; [apply sw_obj; reflexivity|reflexivity]. Qed.
Lemma C81_ref_a V d nv : dget (u "$ref") d = Some (VStr (u "http://h/a.json#/defs/x")) -> nv = NView (NObj (updated (here V false (beside d)) (here ex_a false ex_x))) true -> shows toy ex_dig (shelf ex_shelf) (V, (false, VDict d)) nv.
Proof. intros E ->. eapply sw_ref; [exact E|apply ex_names_a|exact ex_leads_x|]. eapply shows_is; [apply sw_obj; reflexivity|reflexivity]. Qed.
Lemma C81_shows y : within (shelf ex_shelf) C81_value y -> exists nv, C81_look y = Ok nv /\ shows toy ex_dig (shelf ex_shelf) y nv.
Proof.
  intros [K P]. destruct y as [V y]. cbn [fst snd] in *.
  assert (C : V = C81_value \/ V = ex_a \/ V = ex_b). { destruct K as [K|[k K]]; [auto|]. unfold shelf, ex_shelf in K. cbn [dget] in K. destruct (str_eqb _ _) in K; [injection K as <-; auto|]. destruct (str_eqb _ _) in K; [injection K as <-; auto|discriminate]. }
  clear K. destruct C as [->|[->| ->]]; apply part_listed in P; cbn in P;
    repeat (destruct P as [<-|P]; [eexists; split; [reflexivity|]; first [constructor; fail|eapply shows_is; [apply sw_obj; reflexivity|reflexivity]|apply C81_ref_b; reflexivity|apply C81_ref_a; reflexivity|eapply shows_is; [apply sw_list|reflexivity]]|]); destruct P.
Qed.
Lemma C81_sound : sound_document toy (shelf ex_shelf) C81_value.
Proof. split; [eexists; reflexivity|]. split; [apply distinctb_ok; vm_compute; reflexivity|]. sounds. Qed.
Definition C81_world : world := fst (make_schema C81_value core start_world).
Definition C81_run (v : pv) : world * res unit := live_document toy ex_dig C69_str (from ex_shelf) ex_env all_keywords 20 20 8 0 v C81_world.
Lemma C81_opened : usage toy ex_dig C69_str (from ex_shelf) (shelf ex_shelf) (Desk start_world [] []) (Desk C81_world [(0, C81_value)] []).
Proof. eapply us_act; [apply us_none|]. apply a_open; [exact C81_sound|reflexivity]. Qed.
Lemma C81_tame : tame ex_env.
Proof.
  constructor; [intros name f v H e E; cbn in H; destruct (str_eqb _ _) in H; [injection H as <-; destruct v; try discriminate; injection E as <-; intros a C; discriminate|discriminate]|intros t e [= <-] a C; discriminate].
Qed.
(** the documents are read on the way: one that is not needed is not loaded *)
Example C81_some : library toy (from ex_shelf) (shelf ex_shelf) start_world /\
  usage toy ex_dig C69_str (from ex_shelf) (shelf ex_shelf) (Desk start_world [] []) (Desk C81_world [(0, C81_value)] []) /\
  (forall k X, shelf ex_shelf k = Some X -> In k (map fst ex_shelf)) /\ (forall y, within (shelf ex_shelf) C81_value y -> exists nv, C81_look y = Ok nv /\ shows toy ex_dig (shelf ex_shelf) y nv) /\
  (forall h a x, holds h a x -> C69_str h a = u "?") /\ tame ex_env /\
  snd (C81_run (VDict [(u "n", VInt 4); (u "m", VStr (u "a"))])) = Ok tt /\ flags (fst (C81_run (VDict [(u "n", VInt 4); (u "m", VStr (u "a"))]))) = [true; true; true] /\
  snd (C81_run (VDict [(u "n", VInt 4)])) = Ok tt /\ flags (fst (C81_run (VDict [(u "n", VInt 4)]))) = [true; true; false] /\
  (exists e, snd (C81_run (VDict [(u "n", VInt 2)])) = Raise (EValid e)) /\ (exists e, snd (C81_run (VDict [(u "n", VInt 4); (u "m", VInt 5)])) = Raise (EValid e)).
Proof.
  split; [exact ex_library|]. split; [exact C81_opened|]. split.
  { intros k X H. apply dget_In in H. apply (in_map fst) in H. exact H. }
  split; [exact C81_shows|]. split; [reflexivity|]. split; [exact C81_tame|].
  split; [vm_compute; reflexivity|]. split; [vm_compute; reflexivity|]. split; [vm_compute; reflexivity|]. split; [vm_compute; reflexivity|]. split; eexists; vm_compute; reflexivity.
Qed.

(** and a history with a validation in it *)
Example C81_again : readable toy ex_dig (shelf ex_shelf) C81_value /\ exists d r, usage toy ex_dig C69_str (from ex_shelf) (shelf ex_shelf) (Desk start_world [] []) d /\ In (0, C81_value) (d_docs d) /\
  validates_to toy ex_dig C69_str (from ex_shelf) ex_env all_keywords 20 0 (VDict [(u "n", VInt 2)]) C81_world (d_world d) r.
Proof.
  split; [intros y W; destruct (C81_shows y W) as (nv & _ & H); eauto|].
  destruct C81_some as (L & _ & Ks & _ & Sy & _).
  destruct (C81 toy ex_dig C69_str (from ex_shelf) (shelf ex_shelf) ex_dig_ok start_world _ 0 C81_value (map fst ex_shelf) C81_look (fun _ => u "?") L C81_opened (or_introl eq_refl) Ks C81_shows Sy ex_env all_keywords C81_tame 20 (VDict [(u "n", VInt 2)])) as (w' & H).
  exists (Desk w' [(0, C81_value)] []). eexists. split; [|split; [left; reflexivity|exact H]]. eapply us_validate; [exact C81_opened|left; reflexivity|intros y W; destruct (C81_shows y W) as (nv & _ & Hs); eauto|exact C81_tame|exact H].
Qed.

Print Assumptions C81.
Print Assumptions C81_history.
