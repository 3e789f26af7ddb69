(** What the delivery of a record over a changing registry is held against: the registrations as they are at
    every moment (the finite map of Tree_Spec.v). *)
From Verif Require Import Base Tree_Model Tree_Spec Deliver_Model.

Section Spec.
  Context {V : Type}.
  Variable key_checker : string -> bool.
  Variable value_checker : V -> bool.

  (** The operations among the events. *)
  Fixpoint changes (ls : list (label V)) : list (top V) :=
    match ls with [] => [] | LStep :: r => changes r | LOp o :: r => o :: changes r end.

  (** The registrations after the history [ops] and the events [ls]. *)
  Definition registered (ops : list (top V)) (ls : list (label V)) : amap V :=
    final (map_step key_checker value_checker) map_empty (ops ++ changes ls).

  (** Something is registered under [p] at every moment from after [ls1] until after [ls1 ++ ls2]. *)
  Definition stays (ops : list (top V)) (ls1 ls2 : list (label V)) (p : path) : Prop :=
    forall a b, ls2 = a ++ b -> dget path_eqb (registered ops (ls1 ++ a)) p <> None.

  (** No handler is added, removed or projected while the delivery is reading the children of a node: what holds
      when only the called handlers themselves change the registry. *)
  Fixpoint undisturbed (s : dstate V) (ls : list (label V)) : Prop :=
    match ls with
    | [] => True
    | l :: r => (match l, snd s with LOp _, GLoop _ _ _ _ _ => False | _, _ => True end) /\
                undisturbed (fst (dstep key_checker value_checker s l)) r
    end.

  Definition over (g : gen) : Prop := g = GDone \/ g = GRaise \/ g = GOdd.
End Spec.
