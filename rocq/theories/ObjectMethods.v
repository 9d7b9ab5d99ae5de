(** The methods [JsonObject] has from [collections.abc.MutableMapping]
    ([types/json_complex.py:12-52]): [get], [pop], [popitem], [clear], [update] and
    [setdefault], written from CPython 3.11's [_collections_abc.py], on top of the
    methods of the class itself ([Heap.v]). *)
From Verif Require Import PyBase PyVal Numbers Uri Heap.
From Verif Require Arrays.
Local Open Scope nat_scope.
Local Notation length := List.length (only parsing).

(** what is passed or returned: a node, or a plain value *)
Notation slot := Arrays.slot.
Notation SNode := Arrays.SNode.
Notation SRaw := Arrays.SRaw.
Inductive mcall :=
| MItem (k : pystr)                            (* obj[k] *)
| MHas (k : pystr)                             (* k in obj *)
| MKeys                                        (* list(obj) *)
| MLen                                         (* len(obj) *)
| MSet (k : pystr) (x : slot)                  (* obj[k] = x *)
| MDel (k : pystr)                             (* del obj[k] *)
| MGet (k : pystr) (x : slot)                  (* obj.get(k, x) *)
| MPop (k : pystr) (x : option slot)           (* obj.pop(k), obj.pop(k, x) *)
| MPopitem                                     (* obj.popitem() *)
| MClear                                       (* obj.clear() *)
| MUpdate (l : list (pystr * slot))            (* obj.update(mapping) *)
| MSetdefault (k : pystr) (x : slot).          (* obj.setdefault(k, x) *)
Inductive manswer :=
| RSlot (x : slot) | RPair (k : pystr) (a : addr) | RKeys (l : list pystr) | RBool (b : bool) | RSize (n : nat) | RDone | RFail (e : exn) | RNoFuel.

Definition answer {A} (f : A -> manswer) (r : res A) : manswer :=
  match r with Ok x => f x | Raise e => RFail e | OutOfFuel => RNoFuel end.
(** [obj[k] = x] ([json_complex.py:36-40]) *)
Definition set_item (h : heap) (r : addr) (k : pystr) (x : slot) : res heap :=
  match x with SNode a => obj_set_node h r k a | SRaw v => obj_set h r k v end.
(** [popitem]: the first name [iter] gives, or KeyError *)
Definition pop_item (h : heap) (r : addr) : res (heap * (pystr * addr)) :=
  ks <- obj_keys h r ;;
  match ks with
  | [] => Raise (EKey [])
  | k :: _ => a <- obj_get h r k ;; h' <- obj_del h r k ;; Ok (h', (k, a))
  end.
(** [clear]: [popitem] until it raises KeyError.  [fuel] bounds the rounds. *)
Fixpoint clear_loop (fuel : nat) (h : heap) (r : addr) : heap * manswer :=
  match fuel with
  | O => (h, RNoFuel)
  | S f =>
      match pop_item h r with
      | Ok (h', _) => clear_loop f h' r
      | Raise (EKey _) => (h, RDone)
      | Raise e => (h, RFail e)
      | OutOfFuel => (h, RNoFuel)
      end
  end.
(** [update] of a mapping *)
Fixpoint update_loop (h : heap) (r : addr) (l : list (pystr * slot)) : heap * manswer :=
  match l with
  | [] => (h, RDone)
  | (k, x) :: l' =>
      match set_item h r k x with
      | Ok h' => update_loop h' r l'
      | Raise e => (h, RFail e)
      | OutOfFuel => (h, RNoFuel)
      end
  end.
Definition obj_call (fuel : nat) (h : heap) (r : addr) (c : mcall) : heap * manswer :=
  match c with
  | MItem k => (h, answer (fun a => RSlot (SNode a)) (obj_get h r k))
  | MHas k => (h, answer RBool (obj_has h r k))
  | MKeys => (h, answer RKeys (obj_keys h r))
  | MLen => (h, answer RSize (obj_len h r))
  | MSet k x => match set_item h r k x with Ok h' => (h', RDone) | Raise e => (h, RFail e) | OutOfFuel => (h, RNoFuel) end
  | MDel k => match obj_del h r k with Ok h' => (h', RDone) | Raise e => (h, RFail e) | OutOfFuel => (h, RNoFuel) end
  | MGet k x =>
      match obj_get h r k with
      | Ok a => (h, RSlot (SNode a))
      | Raise (EKey _) => (h, RSlot x)
      | Raise e => (h, RFail e)
      | OutOfFuel => (h, RNoFuel)
      end
  | MPop k x =>
      match obj_get h r k with
      | Ok a => match obj_del h r k with Ok h' => (h', RSlot (SNode a)) | Raise e => (h, RFail e) | OutOfFuel => (h, RNoFuel) end
      | Raise (EKey n) => (h, match x with Some y => RSlot y | None => RFail (EKey n) end)
      | Raise e => (h, RFail e)
      | OutOfFuel => (h, RNoFuel)
      end
  | MPopitem =>
      match pop_item h r with
      | Ok (h', (k, a)) => (h', RPair k a)
      | Raise e => (h, RFail e)
      | OutOfFuel => (h, RNoFuel)
      end
  | MClear => clear_loop fuel h r
  | MUpdate l => update_loop h r l
  | MSetdefault k x =>
      match obj_get h r k with
      | Ok a => (h, RSlot (SNode a))
      | Raise (EKey _) => match set_item h r k x with Ok h' => (h', RSlot x) | Raise e => (h, RFail e) | OutOfFuel => (h, RNoFuel) end
      | Raise e => (h, RFail e)
      | OutOfFuel => (h, RNoFuel)
      end
  end.
(** calls one after the other on one object *)
Fixpoint obj_calls (fuel : nat) (h : heap) (r : addr) (l : list mcall) : heap * list manswer :=
  match l with
  | [] => (h, [])
  | c :: l' => let '(h1, x) := obj_call fuel h r c in let '(h2, xs) := obj_calls fuel h1 r l' in (h2, x :: xs)
  end.
