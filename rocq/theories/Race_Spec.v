(** What it means for calls of several threads to have an order: the same keywords one after another, in the sequential model. *)
From Verif Require Import Base Settings_Model Race_Model.
Local Open Scope string_scope.
Local Open Scope list_scope.

Section Spec.
  Variable isident : string -> bool.
  Variable class_or_callable : nat -> bool.
  Variable is_module : nat -> bool.
  Variable has_loads has_dumps loads_callable dumps_callable : nat -> bool.
  Variable debug : bool.
  Variable possible_level_name : string -> bool.

  (** One keyword, alone. *)
  Definition alone (c : cfg) (o : op) : cfg * Res unit :=
    match o with
    | OSet n v => config_set isident class_or_callable is_module has_loads has_dumps loads_callable dumps_callable debug c [(n, v)]
    | OReg true n v => config_levels possible_level_name c [(n, v)]
    | OReg false n v => let r := levels_set (lvls c) (Some n) v in (mkCfg (vals c) (changed c) (fst r), snd r)
    end.
  (** Keywords of many threads one after another: the final settings and what each was told. *)
  Fixpoint replay (c : cfg) (h : list (nat * op)) : cfg * list (nat * op * Res unit) :=
    match h with
    | [] => (c, [])
    | (t, o) :: r => (fst (replay (fst (alone c o)) r), (t, o, snd (alone c o)) :: snd (replay (fst (alone c o)) r))
    end.
  (** A whole call with nobody else about: its keywords until one is refused. *)
  Fixpoint in_turn (c : cfg) (l : list op) : cfg * Res unit :=
    match l with
    | [] => (c, Ok tt)
    | o :: r => match alone c o with (c', Ok _) => in_turn c' r | (c', Err e) => (c', Err e) end
    end.
  (** The part of thread [t]. *)
  Definition part (t : nat) (h : list (nat * op * Res unit)) : list (nat * op * Res unit) := filter (fun x => Nat.eqb (fst (fst x)) t) h.

  (** [told l r]: a call with the keywords [l] that has ended was told [r]: it stops at the first refusal. *)
  Inductive told : list op -> list (op * Res unit) -> Prop :=
  | told_end : told [] []
  | told_err : forall o l e, told (o :: l) [(o, Err e)]
  | told_ok : forall o l r, told l r -> told (o :: l) ((o, Ok tt) :: r).
End Spec.

(** The settings that have to be changed one at a time. *)
Definition families : list (list string) :=
  [["pool_size"; "max_queue_size"; "started"]; ["default_level"; "default_error_level"]; ["integration_with_logging"; "logging_off"]].
Definition together (n m : string) : Prop := n = m \/ exists f, In f families /\ In n f /\ In m f.
