(** What calls of attributes of classes mean in a program without decorators; which hierarchies of classes are considered. *)
From Verif Require Import Base DecoKind_Model.
Local Open Scope string_scope.
Local Open Scope list_scope.

Section Spec.
  Variable mro : nat -> list nat.
  Variable bodies : nat -> list (string * member).

  (** [m] is the definition of [n] that comes first in the classes [cs]. *)
  Inductive first : list nat -> string -> member -> Prop :=
  | first_here : forall c cs n m, In (n, m) (bodies c) -> first (c :: cs) n m
  | first_later : forall c cs n m, ~ In n (map fst (bodies c)) -> first cs n m -> first (c :: cs) n m.

  Definition defines (c : nat) (n : string) (m : member) : Prop := first (mro c) n m.

  (** The arguments that come before those of the caller, according to the Python language reference. *)
  Definition receiver (a : via) (m : member) : list val :=
    match m, a with
    | MFun _, OnInst _ i => [VInst i]
    | MClass _, OnInst c _ | MClass _, OnClass c => [VCls c]
    | _, _ => []
    end.
  Definition runs {P} (m : member) : option (fn P) :=
    match m with
    | MFun i | MStatic i | MClass i => Some (User i)
    | MOther i => Some (Other i)
    | MData => None
    end.

  (** Each body gives a name at most one meaning; a class comes first in its own order; the bases of a base are bases. *)
  Record hierarchy : Prop := {
    h_bodies : forall c, NoDup (map fst (bodies c));
    h_self : forall c, exists r, mro c = c :: r;
    h_trans : forall c d e, In d (mro c) -> In e (mro d) -> In e (mro c) }.

  (** A class hands on the meaning that its base gives to the name, unless a class before the base has its own. *)
  Definition agrees (n : string) : Prop := forall c before d after m,
    mro c = before ++ d :: after -> first (d :: after) n m <-> defines d n m.

  (** Single inheritance. *)
  Definition single : Prop := forall c before d after, mro c = before ++ d :: after -> mro d = d :: after.
End Spec.

(** Which classes of a program are under a class decorator, and which definitions are decorated in the body of their class. *)
Definition under_class {P} (os : list (kop P)) (c : nat) : Prop :=
  (exists ms p, In (KLog c ms p) os) \/ (exists b, In (KUnlog c b) os).
Definition in_body {P} (os : list (kop P)) (c : nat) (n : string) : Prop := exists d, In (KBody c n d) os.
