(** The actions of two settings while several threads assign them: polog/core/stores/settings/setting_point.py 66-79 and 120-125,
    actions/decorator.py 15-29, actions/integration_with_logging.py 44-55, actions/set_log_as_built_in.py 6-18, settings_store.py 243-262.
    The assignments themselves are Race_Model: an action is one more move, between lines 76 and 78 of setting_point.py, made while the lock is held.
    The filters of logging's root logger and what they do to a record are Logging_Model.  Simplified: adding a filter and removing one is one step;
    SettingsStore() was created before the threads began.  The action of fields_intersection is in Act_Model, that of pool_size in Eng_Model. *)
From Verif Require Import Base Settings_Model Race_Model Logging_Model.
Local Open Scope string_scope.
Local Open Scope list_scope.

(** [todo t]: the thread has stored the new value of a setting and not yet run the action: the setting, the old and the new value;
    [filters]: those of the root logger; [named]: builtins.log (objects by number, 0 is polog's log; None: there is no such attribute). *)
Record xst : Type := mkX { base : st; todo : nat -> option (string * pyval * pyval); filters : list filt; named : option nat }.

(** decorator.py 24: old_value != new_value, for None and bools. *)
Definition differ (a b : pyval) : bool := match a, b with VBool x, VBool y => negb (Bool.eqb x y) | VNone, VNone => false | _, _ => true end.
(** The truth of None and of bools. *)
Definition truthy (v : pyval) : bool := match v with VBool b => b | _ => false end.
(** Which action a setting has (settings_store.py 187, 212). *)
Definition act_filters (n : string) (old new : pyval) (l : list filt) : list filt :=
  if differ old new then if String.eqb n "integration_with_logging" then action l (truthy new) else l else l.
Definition act_named (n : string) (old new : pyval) (x : option nat) : option nat :=
  if differ old new then if String.eqb n "log_is_built_in" then (if eq_true new then Some 0 else None) else x else x.

Section React.
  Variable isident : string -> bool.
  Variable class_or_callable : nat -> bool.
  Variable is_module : nat -> bool.
  Variable has_loads has_dumps loads_callable dumps_callable : nat -> bool.
  Variable debug : bool.
  Variable possible_level_name : string -> bool.
  Notation mv := (move isident class_or_callable is_module has_loads has_dumps loads_callable dumps_callable debug possible_level_name).
  Notation stp := (step isident class_or_callable is_module has_loads has_dumps loads_callable dumps_callable debug possible_level_name).

  (** A move of thread [t]: the action, if it is due; else that of Race_Model; line 76 makes the action due. *)
  Definition xmove (s : xst) (t : nat) : option xst :=
    match todo s t with
    | Some (n, old, new) => Some (mkX (base s) (upd (todo s) t None) (act_filters n old new (filters s)) (act_named n old new (named s)))
    | None =>
        match mv (base s) t with
        | None => None
        | Some b =>
            Some (mkX b (upd (todo s) t (match pcs (base s) t with Conf n _ w [] _ => Some (n, val (conf (base s)) n, w) | _ => None end)) (filters s) (named s))
        end
    end.
  (** What happens: a thread begins a call of config or moves; somebody adds a filter of their own to the root logger or removes one. *)
  Inductive xlabel : Type := XCall (t : nat) (o : cop) | XMove (t : nat) | XAdd (k : nat) | XRemove (k : nat).
  Definition xstep (s : xst) (x : xlabel) : option xst :=
    match x with
    | XCall t o => match stp (base s) (LCall t o) with Some b => Some (mkX b (todo s) (filters s) (named s)) | None => None end
    | XMove t => xmove s t
    | XAdd k => Some (mkX (base s) (todo s) (add_filter (filters s) (OtherF k)) (named s))
    | XRemove k => Some (mkX (base s) (todo s) (remove_filter (filters s) (OtherF k)) (named s))
    end.
  Fixpoint xrun (s : xst) (xs : list xlabel) : option xst :=
    match xs with [] => Some s | x :: r => match xstep s x with Some s1 => xrun s1 r | None => None end end.
  (** settings_store.py 258-260: the action of integration_with_logging is run with the default value when the store is made; the root logger has the filters [us]. *)
  Definition xstart (us : list filt) : xst :=
    let s0 := start isident class_or_callable is_module has_loads has_dumps loads_callable dumps_callable debug in
    mkX s0 (fun _ => None) (act_filters "integration_with_logging" VNone (val (conf s0) "integration_with_logging") us) None.
End React.
