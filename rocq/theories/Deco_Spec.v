(** Stacks of decorators, independently of the registry. *)
From Verif Require Import Base Deco_Model.

Section Spec.
  Context {P : Type}.

  (** What a program does after defining function f: decorate the current version of f (Mine), which becomes the current
      version, or do something with other functions (Other). *)
  Inductive item : Type := Mine (d : deco P) | Other (o : op P).

  Fixpoint chain (g : reg P) (cur : nat) (l : list item) : reg P * nat :=
    match l with
    | [] => (g, cur)
    | Mine d :: r => let '(g', c') := apply g cur d in chain g' c' r
    | Other o :: r => chain (step g o) cur r
    end.

  (** The other actions are on objects that are not versions of f. *)
  Fixpoint apart (f : nat) (g : reg P) (cur : nat) (l : list item) : Prop :=
    match l with
    | [] => True
    | Mine d :: r => let '(g', c') := apply g cur d in apart f g' c' r
    | Other o :: r => match o with Def => True | On x _ => root g x <> f end /\ apart f (step g o) cur r
    end.

  (** The decorations of f, in the order of their application. *)
  Fixpoint mine (l : list item) : list (deco P) :=
    match l with
    | [] => []
    | Mine d :: r => d :: mine r
    | Other _ :: r => mine r
    end.

  Definition by_class (d : deco P) : Prop := match d with DMeth _ => True | _ => False end.
  Definition logging (d : deco P) : Prop := match d with DLog _ | DMeth _ => True | _ => False end.
  Definition unlogging (d : deco P) : Prop := match d with DUnlog _ => True | _ => False end.
  Definition log_layer (l : layer P) : Prop := match l with LLog _ => True | _ => False end.
End Spec.
Arguments item : clear implicits.
