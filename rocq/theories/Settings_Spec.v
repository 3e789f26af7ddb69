(** What configuration changes are accepted and what they store, as a table read off the documentation
    (settings_store.py comments, config.set docstring), independent of how points are built. *)
From Verif Require Import Base Settings_Model.

(** The number a value counts as: True is 1 and False is 0. *)
Definition number (v : pyval) : Z := match v with VInt z => z | VBool true => 1%Z | VBool false => 0%Z | _ => 0%Z end.

Section Spec.
  Variable isident : string -> bool.
  Variable class_or_callable : nat -> bool.
  (** A usable json module: a module with callable loads and dumps. *)
  Variable json_like : nat -> bool.

  Open Scope string_scope.
  Open Scope list_scope.

  (** A non-negative integer (bool counts as an integer in Python). *)
  Definition nonneg (v : pyval) : Prop := (exists b, v = VBool b) \/ (exists z, v = VInt z /\ (0 <= z)%Z).
  Definition boolean (v : pyval) : Prop := exists b, v = VBool b.
  (** Numerically zero. *)
  Definition zero (v : pyval) : Prop := v = VInt 0 \/ v = VBool false.
  Definition number_ge0 (v : pyval) : Prop := nonneg v \/ exists c i, v = VFloat c i /\ (c = FZero \/ c = FPos).
  Definition number_gt0 (v : pyval) : Prop :=
    (exists z, v = VInt z /\ (0 < z)%Z) \/ v = VBool true \/ exists i, v = VFloat FPos i.
  Definition posint (v : pyval) : Prop := (exists z, v = VInt z /\ (0 < z)%Z) \/ v = VBool true.

  Definition flags : list string :=
    ["silent_internal_exceptions"; "debug_mode"; "fields_intersection"; "unknown_fields_in_handle_logs";
     "deduplicate_errors"; "log_is_built_in"; "full_unlog"; "suppress_by_default";
     "suppress_exception_subclasses"; "integration_with_logging"; "logging_off"; "traceback_cutting"].
  Definition level_settings : list string := ["level"; "default_level"; "default_error_level"].

  (** The documented range of each setting (of what it holds, after conversion). *)
  Definition legal (n : string) (v : pyval) : Prop :=
    (In n ["pool_size"; "max_queue_size"] -> nonneg v) /\
    (In n level_settings -> nonneg v) /\
    (In n ["started"] -> boolean v) /\
    (In n flags -> boolean v) /\
    (In n ["service_name"] -> v = VNone \/ exists s, v = VStr s /\ isident s = true) /\
    (In n ["max_delay_before_exit"] -> number_ge0 v) /\
    (In n ["time_quant"] -> number_gt0 v) /\
    (In n ["delay_on_exit_loop_iteration_in_quants"] -> posint v) /\
    (In n ["json_module"] -> exists o, v = VObj o /\ json_like o = true) /\
    (In n ["smart_assert_politic"] -> exists b, v = VPolitic b) /\
    In n (["pool_size"; "max_queue_size"; "started"; "service_name"; "max_delay_before_exit"; "time_quant";
           "delay_on_exit_loop_iteration_in_quants"; "engine"; "json_module"; "smart_assert_politic"] ++ level_settings ++ flags).

  (** What setting [n] to [v] must do, given the readable values [cur] and the names registered for levels:
      [Ok w]: accepted, the setting then reads [w]; [Err e]: refused with [e]. *)
  Section Accept.
    Variable cur : string -> pyval.
    Variable level_number : string -> option pyval.

    Definition zero_b (v : pyval) : bool := match v with VInt 0 => true | VBool false => true | _ => false end.
    Definition nonneg_b (v : pyval) : bool := match v with VBool _ => true | VInt z => (0 <=? z)%Z | _ => false end.
    Definition true_b (v : pyval) : bool := match v with VBool true => true | _ => false end.
    Definition require (b : bool) (w : pyval) : Res pyval := if b then Ok w else Err EValueError.

    Definition spec_level (v : pyval) : Res pyval :=
      match v with
      | VInt z => if (0 <=? z)%Z then Ok v else Err EValueError
      | VBool _ => Err EKeyError                                (* True and False are refused as levels *)
      | VStr s => match level_number s with Some w => Ok w | None => Err EKeyError end
      | _ => Err EValueError
      end.

    Definition spec_flag (v : pyval) : Res pyval := match v with VBool _ => Ok v | _ => Err EValueError end.

    Definition table : list (string * (pyval -> Res pyval)) :=
      [ ("pool_size", fun v => require (nonneg_b v && (negb (zero_b v) || zero_b (cur "max_queue_size"))) v);
        ("max_queue_size", fun v => require (nonneg_b v && (zero_b v || negb (zero_b (cur "pool_size")))) v);
        ("started", fun v => if true_b (cur "started") then Err EDoubleSetting else require (true_b v) v);
        ("level", spec_level); ("default_level", spec_level); ("default_error_level", spec_level);
        ("service_name", fun v => match v with VNone => Ok v | VStr s => require (isident s) v | _ => Err EValueError end);
        ("max_delay_before_exit", fun v =>
           match v with VFloat FZero _ | VFloat FPos _ => Ok v | VFloat _ _ => Err EValueError | _ => require (nonneg_b v) v end);
        ("time_quant", fun v =>
           match v with VFloat FPos _ => Ok v | VFloat _ _ => Err EValueError | _ => require (nonneg_b v && negb (zero_b v)) v end);
        ("delay_on_exit_loop_iteration_in_quants", fun v => require (nonneg_b v && negb (zero_b v)) v);
        ("engine", fun v => match v with VObj o => require (class_or_callable o) v | VPolitic _ => Ok v | _ => Err EValueError end);
        ("json_module", fun v => match v with VObj o => require (json_like o) v | _ => Err EValueError end);
        ("smart_assert_politic", fun v =>
           match v with VStr s => if String.eqb s "all" then Ok (VPolitic true)
                                  else if String.eqb s "if_debug" then Ok (VPolitic false) else Err EValueError
                      | _ => Err EValueError end);
        ("integration_with_logging", fun v =>
           match v with VBool b => require (b || negb (true_b (cur "logging_off"))) v | _ => Err EValueError end);
        ("logging_off", fun v =>
           match v with VBool b => require (negb b || true_b (cur "integration_with_logging")) v | _ => Err EValueError end);
        ("silent_internal_exceptions", spec_flag); ("debug_mode", spec_flag); ("fields_intersection", spec_flag);
        ("unknown_fields_in_handle_logs", spec_flag); ("deduplicate_errors", spec_flag); ("log_is_built_in", spec_flag);
        ("full_unlog", spec_flag); ("suppress_by_default", spec_flag); ("suppress_exception_subclasses", spec_flag);
        ("traceback_cutting", spec_flag) ].

    Definition spec_set (n : string) (v : pyval) : Res pyval :=
      match dget String.eqb table n with Some f => f v | None => Err EKeyError end.
  End Accept.

  (** Level names as a history: the list of successful registrations (name, number), oldest first. *)
  Definition last_for_name (h : list (string * pyval)) (n : string) : option pyval :=
    fold_left (fun acc x => if String.eqb (fst x) n then Some (snd x) else acc) h None.
  Definition last_for_number (h : list (string * pyval)) (z : Z) : option string :=
    fold_left (fun acc x => if Z.eqb (number (snd x)) z then Some (fst x) else acc) h None.
End Spec.
