(** Model of polog/core/stores/settings/settings_store.py 240-260 (SettingsStore.__init__) and of setting_point.py 136-162 and 200-216
    (share_lock_object, get_lock_object, set_lock_object, set_store_object, set_name), for any number of objects SettingsStore: the points belong
    to the class, and the race of read_only_singleton.py (Single_Model) can make several objects.  Assignments and the filters of other people
    come between any two steps. *)
From Verif Require Import Base.
Local Open Scope string_scope.
Local Open Scope list_scope.

(** settings_store.py 23-238: the names of the points in the order of the table, with their shared_lock_with (35-38, 51-54, 64-67, 82-84,
    216-218, 228-230). *)
Definition table : list (string * list string) :=
  [("pool_size", ["max_queue_size"; "started"]); ("max_queue_size", ["pool_size"; "started"]); ("started", ["pool_size"; "max_queue_size"]);
   ("level", []); ("default_level", ["default_error_level"]); ("default_error_level", []); ("service_name", []);
   ("silent_internal_exceptions", []); ("max_delay_before_exit", []); ("delay_on_exit_loop_iteration_in_quants", []); ("time_quant", []);
   ("engine", []); ("json_module", []); ("smart_assert_politic", []); ("debug_mode", []); ("fields_intersection", []);
   ("unknown_fields_in_handle_logs", []); ("deduplicate_errors", []); ("log_is_built_in", []); ("full_unlog", []);
   ("suppress_by_default", []); ("suppress_exception_subclasses", []); ("integration_with_logging", ["logging_off"]);
   ("logging_off", ["integration_with_logging"]); ("traceback_cutting", [])].
(** settings_store.py 212: the only point with do_action_first_time. *)
Definition first_time (k : string) : bool := String.eqb k "integration_with_logging".

(** One access to shared state: lines 253, 254, one turn of the loop of share_lock_object (setting_point.py 142-146), the reading of
    point.value in line 259, the action in line 259, line 260. *)
Inductive step : Type :=
| SStore (k : string) (o : nat) | SName (k : string) | SShare (k m : string) | SRead (k : string) | SApply | SDone (o : nat).
(** settings_store.py 251-260 in the object [o]. *)
Definition steps (o : nat) : list step :=
  flat_map (fun p => [SStore (fst p) o; SName (fst p)]) table
  ++ flat_map (fun p => map (SShare (fst p)) (snd p)) table
  ++ flat_map (fun p => if first_time (fst p) then [SRead (fst p); SApply] else []) table
  ++ [SDone o].

Record ist : Type := mkI {
  lockof : string -> nat;              (* point.lock *)
  storeof : string -> option nat;      (* point.store *)
  nameof : string -> option string;    (* point.name *)
  integration : bool;                  (* the value of integration_with_logging *)
  register : bool;                     (* what line 259 read *)
  filters : list (option nat);         (* logging.root.filters; None is from_logging_filter_to_polog *)
  informed : list nat;                 (* the objects with points_are_informed in their own __dict__, the last one first (line 260) *)
  todo : list step }.                  (* the rest of the __init__ of the thread that has SettingsStore.lock (line 250) *)

Definition upd {A} (f : string -> A) (k : string) (a : A) : string -> A := fun j => if String.eqb j k then a else f j.
(** logging: addFilter appends a filter that is not there yet; removeFilter removes it (external, as in React_Model). *)
Definition feq (a b : option nat) : bool :=
  match a, b with None, None => true | Some x, Some y => Nat.eqb x y | _, _ => false end.
Definition add_filter (l : list (option nat)) (f : option nat) : list (option nat) := if existsb (feq f) l then l else l ++ [f].
Fixpoint remove_filter (l : list (option nat)) (f : option nat) : list (option nat) :=
  match l with [] => [] | x :: r => if feq f x then r else x :: remove_filter r f end.
(** actions/integration_with_logging.py 44-55. *)
Definition integrate (l : list (option nat)) (new : bool) : list (option nat) :=
  if new then add_filter l None else remove_filter l None.

(** setting_point.py 136-162: one turn of share_lock_object of the point [k]. *)
Definition share_one (s : ist) (k m : string) : Res (string -> nat) :=
  match nameof s k, storeof s k with
  | Some n, Some _ =>
      if String.eqb m n then Err EKeyError                                             (* lines 143-144 *)
      else if existsb (String.eqb m) (map fst table) then Ok (upd (lockof s) m (lockof s k))   (* lines 145-146 *)
      else Err EKeyError                                                               (* settings_store.py 319-320 *)
  | _, _ => Err EAttributeError
  end.
(** One step of __init__; [r] is the rest.  Line 259 calls the action with None as the old value, which differs from every value
    (actions/decorator.py 23-24). *)
Definition do_step (s : ist) (x : step) (r : list step) : Res ist :=
  match x with
  | SStore k o => Ok (mkI (lockof s) (upd (storeof s) k (Some o)) (nameof s) (integration s) (register s) (filters s) (informed s) r)
  | SName k => Ok (mkI (lockof s) (storeof s) (upd (nameof s) k (Some k)) (integration s) (register s) (filters s) (informed s) r)
  | SShare k m => bindR (share_one s k m) (fun l =>
      Ok (mkI l (storeof s) (nameof s) (integration s) (register s) (filters s) (informed s) r))
  | SRead _ => Ok (mkI (lockof s) (storeof s) (nameof s) (integration s) (integration s) (filters s) (informed s) r)
  | SApply => Ok (mkI (lockof s) (storeof s) (nameof s) (integration s) (register s) (integrate (filters s) (register s)) (informed s) r)
  | SDone o => Ok (mkI (lockof s) (storeof s) (nameof s) (integration s) (register s) (filters s) (o :: informed s) r)
  end.

(** What can happen: a thread that got the object [o] from __new__ takes SettingsStore.lock and looks at the flag of [o] (lines 250-251);
    the thread that has the lock makes a step; a thread that has a store assigns integration_with_logging (with its action, which is called if
    the value differs); somebody adds or removes a filter of their own. *)
Inductive event : Type := Make (o : nat) | Go | Assign (b : bool) | Add (f : nat) | Remove (f : nat).
Definition set_filters (s : ist) (l : list (option nat)) : ist :=
  mkI (lockof s) (storeof s) (nameof s) (integration s) (register s) l (informed s) (todo s).
(** None: this cannot happen now. *)
Definition happen (s : ist) (e : event) : option (Res ist) :=
  match e with
  | Make o => match todo s with
              | [] => Some (Ok (if existsb (Nat.eqb o) (informed s) then s
                                else mkI (lockof s) (storeof s) (nameof s) (integration s) (register s) (filters s) (informed s) (steps o)))
              | _ => None
              end
  | Go => match todo s with [] => None | x :: r => Some (do_step s x r) end
  | Assign b => match informed s with
                | [] => None
                | _ => Some (Ok (mkI (lockof s) (storeof s) (nameof s) b (register s)
                                     (if Bool.eqb (integration s) b then filters s else integrate (filters s) b) (informed s) (todo s)))
                end
  | Add f => Some (Ok (set_filters s (add_filter (filters s) (Some f))))
  | Remove f => Some (Ok (set_filters s (remove_filter (filters s) (Some f))))
  end.
Fixpoint history (s : ist) (l : list event) : option (Res ist) :=
  match l with
  | [] => Some (Ok s)
  | e :: r => match happen s e with None => None | Some (Err x) => Some (Err x) | Some (Ok s1) => history s1 r end
  end.
(** settings_store.py 206-219: the default of integration_with_logging is True; [l] are the locks made by the points (setting_point.py 41). *)
Definition start (l : string -> nat) : ist := mkI l (fun _ => None) (fun _ => None) true false [] [] [].
