(** Model of the decorator's arguments handlers= and extra_fields= : polog/loggers/auto/function_logger.py 241-326, and of
    FieldsContainer (polog/data_structures/wrappers/fields_container/container.py 13-41). *)
From Verif Require Import Base Tree_Model.
Local Open Scope string_scope.
Local Open Scope list_scope.

Section Handlers.
  Context {V : Type}.
  (** str.isidentifier (tree.py 49). *)
  Variable kc : string -> bool.
  (** SignatureMatcher.is_handler(..., raise_exception=False). *)
  Variable is_handler : V -> bool.

  (** An element of the collection: a string or any other object. *)
  Inductive element : Type := AStr (s : string) | AObj (v : V).
  Inductive harg : Type := HNone | HSeq (l : list element) | HOther.

  (** 266-272: the paths and the handlers, in order. *)
  Fixpoint classify (l : list element) : Res (list string * list V) :=
    match l with
    | [] => Ok ([], [])
    | AStr s :: r => bindR (classify r) (fun x => Ok (s :: fst x, snd x))
    | AObj v :: r => if is_handler v then bindR (classify r) (fun x => Ok (fst x, v :: snd x)) else Err EHandlerNotFound
    end.

  (** 279-282: the next name that is not in the local tree.  [names]: what the generator will give, with ' ' replaced by '_'
      (see C45); it ends with an exception. *)
  Fixpoint fresh_name (h : heap V) (r : nat) (names : list (Res string)) : Res (string * list (Res string)) :=
    match names with
    | [] => Err EIndexError
    | Err e :: _ => Err e
    | Ok n :: rest => match tree_contains kc h r (KStr n) with
                      | Err e => Err e
                      | Ok true => fresh_name h r rest
                      | Ok false => Ok (n, rest)
                      end
    end.
  (** 278-283: the loop over the handlers; the new tree accepts any value (projector.py 24, tree.py 49). *)
  Fixpoint add_local (h : heap V) (r : nat) (names : list (Res string)) (hs : list V) : heap V * Res unit :=
    match hs with
    | [] => (h, Ok tt)
    | v :: vs => match fresh_name h r names with
                 | Err e => (h, Err e)
                 | Ok (n, rest) => match tree_set kc (fun _ => true) h r (KStr n) (Some v) with
                                   | Err e => (h, Err e)
                                   | Ok h' => add_local h' r rest vs
                                   end
                 end
    end.
  (** 241-285: get_handlers; the root of the tree to use (0: the global one). *)
  Definition get_handlers (h : heap V) (a : harg) (names : list (Res string)) : heap V * Res nat :=
    match a with
    | HNone => (h, Ok 0)
    | HOther => (h, Err EValueError)
    | HSeq l => match classify l with
                | Err e => (h, Err e)
                | Ok (paths, hs) =>
                    match project kc h 0 (map KStr paths) with
                    | (h1, Err e) => (h1, Err e)
                    | (h1, Ok r) => match add_local h1 r names hs with
                                    | (h2, Err e) => (h2, Err e)
                                    | (h2, Ok _) => (h2, Ok r)
                                    end
                    end
                end
    end.
End Handlers.
Arguments element : clear implicits.
Arguments harg : clear implicits.

Section Fields.
  (** Objects of the class field (field.py 4). *)
  Variable F : Type.

  (** A key of a user's dictionary: a string or not; a value: a field or not. *)
  Inductive fvalue : Type := VField (f : F) | VNot.
  Definition udict : Type := list (pykey * fvalue).
  (** An element of the user's list or tuple. *)
  Inductive felement : Type := FDict (d : udict) | FEllipsis | FNot.
  Inductive farg : Type := FNone | FOne (d : udict) | FList (l : list felement) | FTuple (l : list felement) | FOther.

  Definition is_ellipsis (x : felement) : bool := match x with FEllipsis => true | _ => false end.

  (** container.py 13-15, or the dictionary of defaults itself: the own fields and whether the defaults are looked at. *)
  Record container : Type := mkC { own : list (string * F); with_defaults : bool }.

  (** 311-320: the inner loop. *)
  Fixpoint add_dict (pre : list (string * F)) (d : udict) : Res (list (string * F)) :=
    match d with
    | [] => Ok pre
    | (KOther, _) :: _ => Err EValueError
    | (KStr _, VNot) :: _ => Err EValueError
    | (KStr n, VField f) :: r => if dmem String.eqb pre n then Err EValueError else add_dict (dset String.eqb pre n f) r
    end.
  (** 310-320: the outer loop; an element without .items() gives AttributeError. *)
  Fixpoint add_dicts (pre : list (string * F)) (l : list felement) : Res (list (string * F)) :=
    match l with
    | [] => Ok pre
    | FDict d :: r => bindR (add_dict pre d) (fun pre' => add_dicts pre' r)
    | _ :: _ => Err EAttributeError
    end.
  (** 286-325: get_extra_fields.  The first component: the argument afterwards (300-306 remove the Ellipses from the user's own
      list; a tuple has no pop). *)
  Definition get_extra_fields (a : farg) : farg * Res container :=
    match a with
    | FNone => (FNone, Ok (mkC [] true))
    | FOther => (FOther, Err EValueError)
    | FOne d => (FOne d, bindR (add_dicts [] [FDict d]) (fun p => Ok (mkC p false)))
    | FTuple l => (FTuple l, if existsb is_ellipsis l then Err EAttributeError
                             else bindR (add_dicts [] l) (fun p => Ok (mkC p false)))
    | FList l => let l' := filter (fun x => negb (is_ellipsis x)) l in
                 (FList l', bindR (add_dicts [] l') (fun p => Ok (mkC p (existsb is_ellipsis l))))
    end.
  (** container.py 30-41: items(), with the defaults as they are now. *)
  Definition items (c : container) (defaults : list (string * F)) : list (string * F) :=
    own c ++ (if with_defaults c then filter (fun kv => negb (dmem String.eqb (own c) (fst kv))) defaults else []).
End Fields.
Arguments VNot {F}.
Arguments VField {F} f.
Arguments FDict {F} d.
Arguments FEllipsis {F}.
Arguments FNot {F}.
Arguments FNone {F}.
Arguments FOne {F} d.
Arguments FList {F} l.
Arguments FTuple {F} l.
Arguments FOther {F}.
Arguments mkC {F} own with_defaults.
Arguments own {F} c.
Arguments with_defaults {F} c.
Arguments get_extra_fields {F} a.
Arguments items {F} c defaults.
