(** Model of log records: polog/core/log_item.py, polog/core/utils/exception_escaping.py and
    polog/data_structures/wrappers/fields_container/container.py. *)
From Verif Require Import Base.
From Coq Require Import ZArith.

(** Values of fields.  Simplified: times are datetimes of one kind, ordered as integers; [FNone] is None;
    [FOther] any other object. *)
Inductive fval : Type := FNone | FTime (t : Z) | FOther (o : nat).

Definition fval_eqb (a b : fval) : bool :=
  match a, b with
  | FNone, FNone => true
  | FTime x, FTime y => Z.eqb x y
  | FOther x, FOther y => Nat.eqb x y
  | _, _ => false
  end.

Section Item.
  (** [W]: everything user code (handlers, extractors) can read or change besides the record. *)
  Context {W : Type}.
  (** User code sees the world and the fields of the record; it may raise anything. Records are read-only
      (__setitem__, __delitem__ below), so it returns no new fields.  Simplified: user code neither reaches
      into record.fields nor changes the collection being iterated. *)
  Definition handler := W -> list (string * fval) -> W * Res unit.
  Definition extractor := W -> list (string * fval) -> W * Res fval.

  (** log_item.py 20: the slots; None is a slot never assigned (AttributeError on access). *)
  Record item : Type := mkItem {
    fields : option (list (string * fval));
    handlers : option (list (nat * handler));             (* the number names the handler object *)
    extra_fields : option (list (string * (nat * extractor)))
  }.
  Definition new_item : item := mkItem None None None.
  (** log_item.py 280-287, 305-319. *)
  Definition set_data (i : item) (d : list (string * fval)) : item := mkItem (Some d) (handlers i) (extra_fields i).
  Definition set_handlers (i : item) (h : list (nat * handler)) : item := mkItem (fields i) (Some h) (extra_fields i).
  Definition set_extra_fields (i : item) (e : list (string * (nat * extractor))) : item := mkItem (fields i) (handlers i) (Some e).
  (** log_item.py 321-337. *)
  Definition get_handlers (i : item) := match handlers i with Some h => h | None => [] end.
  Definition get_extra_fields (i : item) := match extra_fields i with Some e => e | None => [] end.

  (** log_item.py 36-57: __getitem__, __setitem__, __delitem__. *)
  Definition item_getitem (i : item) (k : string) : Res fval :=
    match fields i with
    | None => Err EKeyError
    | Some d => match dget String.eqb d k with Some v => Ok v | None => Err EKeyError end
    end.
  Definition item_setitem (i : item) (k : string) (v : fval) : item * Res unit := (i, Err ERewritingLog).
  Definition item_delitem (i : item) (k : string) : item * Res unit := (i, Err ERewritingLog).
  (** log_item.py 80-106: __iter__, __contains__, __len__; 234-259: items, keys, values; 271-278: get. *)
  Definition item_keys (i : item) : list string := match fields i with Some d => dkeys d | None => [] end.
  Definition item_contains (i : item) (k : string) : bool := match fields i with Some d => dmem String.eqb d k | None => false end.
  Definition item_len (i : item) : nat := match fields i with Some d => length d | None => 0 end.
  Definition item_items (i : item) : list (string * fval) := match fields i with Some d => d | None => [] end.
  Definition item_values (i : item) : list fval := match fields i with Some d => dvals d | None => [] end.
  Definition item_get (i : item) (k : string) (default : fval) : fval :=
    match fields i with
    | Some d => match dget String.eqb d k with Some v => v | None => default end
    | None => default
    end.

  (** *** Comparison.  The other operand: a record or something else. *)
  Inductive operand : Type := ORec (i : item) | OOther (o : nat).
  Definition time (i : item) : fval := item_get i "time" FNone.

  (** log_item.py 196-212: compare. *)
  Definition compare (i : item) (o : operand) (op : fval -> fval -> Res bool) (if_not : bool) : Res bool :=
    match o with
    | ORec j => match time i, time j with
                | FNone, _ => Ok if_not
                | _, FNone => Ok if_not
                | a, b => op a b
                end
    | OOther _ => Ok if_not
    end.
  (** log_item.py 214-232: compare_or_raise. *)
  Definition compare_or_raise (i : item) (o : operand) (op : fval -> fval -> Res bool) : Res bool :=
    match o with
    | ORec j => match time i, time j with
                | FNone, _ => Err ETypeError
                | _, FNone => Err ETypeError
                | a, b => op a b
                end
    | OOther _ => Err ETypeError
    end.
  (** datetime's operators; other types are compared by identity for == and not ordered (simplified). *)
  Definition ord (f : Z -> Z -> bool) (a b : fval) : Res bool :=
    match a, b with FTime x, FTime y => Ok (f x y) | _, _ => Err ETypeError end.
  (** log_item.py 108-142. *)
  Definition item_eq i o := compare i o (fun a b => Ok (fval_eqb a b)) false.
  Definition item_ne i o := compare i o (fun a b => Ok (negb (fval_eqb a b))) true.
  Definition item_lt i o := compare_or_raise i o (ord Z.ltb).
  Definition item_gt i o := compare_or_raise i o (ord (fun a b => Z.ltb b a)).
  Definition item_le i o := compare_or_raise i o (ord Z.leb).
  Definition item_ge i o := compare_or_raise i o (ord (fun a b => Z.leb b a)).
  (** log_item.py 144-149: the hash of the time; [h] is Python's hash. *)
  Definition item_hash (h : fval -> Z) (i : item) : Z := h (time i).

  (** *** Execution *)
  Inductive event : Type :=
  | EExtract (name : string) (x : nat) (seen : list (string * fval))
  | EHandle (h : nat) (seen : list (string * fval)).

  (** exception_escaping.py: the wrapped call never raises (bare except). *)
  Definition escaped {A} (r : W * Res A) : W := fst r.

  (** log_item.py 173-194: extract_extra_fields_from; [inter] is _fields_intersection. *)
  Fixpoint extract (inter : bool) (fs : list (string * (nat * extractor))) (w : W) (d : list (string * fval))
    : W * list (string * fval) * list event :=
    match fs with
    | [] => (w, d, [])
    | (n, (x, f)) :: r =>
        if negb (dmem String.eqb d n) || inter then
          match f w d with
          | (w', Ok v) => let '(w2, d2, ev) := extract inter r w' (dset String.eqb d n v) in (w2, d2, EExtract n x d :: ev)
          | (w', Err _) => let '(w2, d2, ev) := extract inter r w' d in (w2, d2, EExtract n x d :: ev)
          end
        else extract inter r w d
    end.

  (** log_item.py 159-171: call_handlers, call_one_handler. *)
  Fixpoint call_handlers (hs : list (nat * handler)) (w : W) (d : list (string * fval)) : W * list event :=
    match hs with
    | [] => (w, [])
    | (h, f) :: r => let w' := escaped (f w d) in
                     let '(w2, ev) := call_handlers r w' d in (w2, EHandle h d :: ev)
    end.

  (** log_item.py 151-157: __call__.  Reading self.fields before any set_data raises AttributeError. *)
  Definition item_call (inter : bool) (i : item) (w : W) : (W * item * list event) * Res unit :=
    match fields i with
    | None => ((w, i, []), Err EAttributeError)
    | Some d =>
        let '(w1, d1, ev1) := extract inter (get_extra_fields i) w d in
        let '(w2, ev2) := call_handlers (get_handlers i) w1 d1 in
        ((w2, mkItem (Some d1) (handlers i) (extra_fields i), ev1 ++ ev2), Ok tt)
    end.
End Item.

(** *** FieldsContainer: the two dictionaries are shared, not copied (container.py 13-15), so a container is
    read from their current contents. *)
Section Container.
  Context {V : Type}.
  (** container.py 17-28. *)
  Definition cont_iter (own defaults : list (string * V)) : list string :=
    dkeys own ++ filter (fun k => negb (dmem String.eqb own k)) (dkeys defaults).
  (** container.py 30-41. *)
  Definition cont_items (own defaults : list (string * V)) : list (string * V) :=
    own ++ filter (fun kv => negb (dmem String.eqb own (fst kv))) defaults.
  (** 'k in container': no __contains__, so Python iterates. *)
  Definition cont_in (own defaults : list (string * V)) (k : string) : bool := existsb (String.eqb k) (cont_iter own defaults).
End Container.
