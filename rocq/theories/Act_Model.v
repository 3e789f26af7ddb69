(** Model of the actions of two settings: polog/core/stores/settings/actions/decorator.py, set_log_as_built_in.py, fields_intersection.py, as
    SettingPoint.set calls them (setting_point.py 66-79, 120-125), and of the cached value in LogItem.__new__ (log_item.py 22-34). *)
From Verif Require Import Base.
Local Open Scope list_scope.

(** The values a user may assign: bools pass the check of both points (settings_store.py 162-168, 181-187), anything else is refused. *)
Inductive value : Type := VB (b : bool) | VElse.

(** decorator.py 23-25: the action runs only if the value changes. *)
Definition is_action {W : Type} (f : bool -> W -> W) (old new : bool) (w : W) : W := if Bool.eqb old new then w else f new w.

(** *** log_is_built_in *)

(** [on]: the setting; [name]: builtins.log, None if there is no such attribute.  Objects by number; 0 is polog's log. *)
Record built : Type := mkBuilt { on : bool; name : option nat }.
Definition the_log : nat := 0.
(** set_log_as_built_in.py 7-18. *)
Definition set_log (new : bool) (w : option nat) : option nat := if new then Some the_log else None.
(** setting_point.py 66-79 for this point. *)
Definition assign (s : built) (v : value) : built * Res unit :=
  match v with
  | VElse => (s, Err EValueError)
  | VB b => (mkBuilt b (is_action set_log (on s) b (name s)), Ok tt)
  end.
(** What a program does: config.set(log_is_built_in=v); builtins.log = object; del builtins.log (if it is there). *)
Inductive bop : Type := BSet (v : value) | BPut (n : nat) | BDel.
Definition bstep (s : built) (o : bop) : built :=
  match o with
  | BSet v => fst (assign s v)
  | BPut n => mkBuilt (on s) (Some n)
  | BDel => mkBuilt (on s) None
  end.
(** settings_store.py 182: False at first; builtins.log is what it was. *)
Definition before (n : option nat) : built := mkBuilt false n.

(** *** fields_intersection *)

(** What a thread does in LogItem(): nothing; it is in the first __new__ (log_item.py 22); has read the setting (31); has stored it. *)
Inductive cpc : Type := CIdle | CFirst | CRead (b : bool) | CWrote.
(** [setting]: the value of the point; [cached]: the attribute of the class; [swapped]: __new__ was replaced (33); [setter]: a thread holds
    the lock of the point and has stored the new value but not yet run the action (setting_point.py 77-78): the old and the new value. *)
Record st : Type := mkSt { setting : bool; cached : option bool; swapped : bool; setter : option (bool * bool); cpcs : nat -> cpc }.
Definition upd (f : nat -> cpc) (t : nat) (c : cpc) : nat -> cpc := fun u => if Nat.eqb u t then c else f u.
(** Steps: thread t begins to create a record, goes on; a thread assigns a value (it waits for the lock), runs the action. *)
Inductive label : Type := LNew (t : nat) | LGo (t : nat) | LSet (b : bool) | LAct.
Definition step (s : st) (l : label) : option st :=
  match l with
  | LNew t => match cpcs s t with
              | CIdle => Some (if swapped s then s else mkSt (setting s) (cached s) (swapped s) (setter s) (upd (cpcs s) t CFirst))
              | _ => None
              end
  | LGo t => match cpcs s t with
             | CIdle => None
             | CFirst => Some (mkSt (setting s) (cached s) (swapped s) (setter s) (upd (cpcs s) t (CRead (setting s))))
             | CRead b => Some (mkSt (setting s) (Some b) (swapped s) (setter s) (upd (cpcs s) t CWrote))
             | CWrote => Some (mkSt (setting s) (cached s) true (setter s) (upd (cpcs s) t CIdle))
             end
  | LSet b => match setter s with
              | Some _ => None
              | None => Some (mkSt b (cached s) (swapped s) (Some (setting s, b)) (cpcs s))
              end
  | LAct => match setter s with
            | None => None
            | Some (old, new) => Some (mkSt (setting s) (is_action (fun b _ => Some b) old new (cached s)) (swapped s) None (cpcs s))
            end
  end.
Fixpoint run (s : st) (l : list label) : option st :=
  match l with [] => Some s | x :: r => match step s x with Some s1 => run s1 r | None => None end end.
Definition start : st := mkSt false None false None (fun _ => CIdle).
