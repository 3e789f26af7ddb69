(** Which exceptions are suppressed, and the level of errors.

    polog/core/utils/exception_is_suppressed.py, polog/core/utils/get_errors_level.py,
    polog/loggers/finalizer.py 150-178.

    Classes are numbers; a hierarchy lists the bases of every class, and bases are created before the class itself.
    Simplified: isinstance follows the bases only (no __instancecheck__, no virtual subclasses). *)
From Verif Require Import Base Handle_Model.
Local Open Scope string_scope.
Local Open Scope list_scope.

Definition hier : Type := list (list nat).
Definition bases (h : hier) (c : nat) : list nat := nth c h [].
Definition hier_ok (h : hier) : Prop := forall c b, In b (bases h c) -> b < c.

(** The classes in the mro of c, with repetitions; the fuel is the number of the class. *)
Fixpoint anc (h : hier) (fuel c : nat) : list nat :=
  match fuel with
  | 0 => [c]
  | S n => c :: flat_map (anc h n) (bases h c)
  end.
Definition issubclass (h : hier) (c d : nat) : bool := existsb (Nat.eqb d) (anc h c c).
Definition isinstance (h : hier) (e : eobj) (d : nat) : bool := issubclass h (e_cls e) d.

(** exception_is_suppressed.py 5-11. *)
Definition is_suppressed (h : hier) (c : cfg) (e : eobj) (listed : list nat) : bool :=
  if c_subcls c then existsb (isinstance h e) listed else existsb (Nat.eqb (e_cls e)) listed.

(** finalizer.py 150-178: the effect of .suppress(...) on (suppress_all, suppressed_exceptions); [ex]: Exception. *)
Fixpoint suppress_classes (h : hier) (ex : nat) (c : cfg) (vs : list val) : Res (list nat) :=
  match vs with
  | [] => Ok []
  | v :: r =>
      match v with
      | VClass d _ _ => if issubclass h d ex then bindR (suppress_classes h ex c r) (fun l => Ok (d :: l))
                        else bindR (maybe_raise c EValueError) (fun _ => suppress_classes h ex c r)
      | _ => bindR (maybe_raise c EValueError) (fun _ => suppress_classes h ex c r)
      end
  end.
Definition suppress (h : hier) (ex : nat) (c : cfg) (all : bool) (listed : list nat) (vs : list val) : Res (bool * list nat) :=
  bindR (suppress_classes h ex c vs) (fun l => Ok (match vs with [] => true | _ => all end, listed ++ l)).

(** get_errors_level.py 5-29. *)
Definition errors_level (c : cfg) (elevel level : option val) : Z :=
  match match elevel with None => Err EKeyError | Some v => level_get c v end with
  | Ok z => z
  | Err _ =>
      let two := Z.max (c_default c) (c_error c) in
      match level with
      | None => two
      | Some v => match level_get c v with Ok z => Z.max two z | Err _ => two end
      end
  end.
