(** Model of the names of levels: NameManager.is_possible_level_name (polog/core/utils/name_manager.py 17-43) and the attributes of the manual
    loggers (loggers/handle/abstract.py 65-72).  config.levels is in Settings_Model, the attributes of the router in Call_Model. *)
From Verif Require Import Base Field_Model.
Local Open Scope string_scope.
Local Open Scope list_scope.

(** dir(flog) without the names that begin with an underscore: loggers/auto/function_logger.py 36-41 (attributes) and 121-327 (methods). *)
Definition flog_names : list string :=
  ["settings"; "engine"; "global_handlers"; "in_place_fields"; "engine_fields"; "get_base_args_dict"; "get_class_name"; "get_arg"; "log_exception_info";
   "log_normal_info"; "resolve_normal_level"; "create_log_item"; "get_handlers"; "get_extra_fields"].
(** The same for log: loggers/router.py 98, 104; handle_log and message have no such names. *)
Definition log_names : list string := ["message"; "suppress"].

Section Names.
  Variable isident : string -> bool.         (* str.isidentifier; true for the keywords of Python too *)
  (** name_manager.py 17-43.  Attributes that a program adds to these objects itself are not modelled. *)
  Definition possible_level_name (n : string) : bool :=
    if negb (isident n) then false
    else if starts_with_underscore n then false
    else if existsb (String.eqb n) (flog_names ++ log_names) then false
    else true.
End Names.

(** abstract.py 26-210, handle_log.py 18-70, message.py 14-63: the names of the loggers themselves (without those of every object). *)
Definition manual_own : list string :=
  ["_allowed_types"; "_convert_values"; "_convert_keys"; "_position_args"; "_forbidden_fields"; "_default_values"; "_settings"; "_engine"; "_in_place_fields"; "_engine_fields";
   "_all_fields_allowed"; "__init__"; "__getattribute__"; "__call__"; "_push"; "_specific_processing"; "_prepare_data"; "_kwargs_to_dict"; "_position_args_to_dict";
   "_extract_exception"; "_maybe_raise"; "_defaults_to_dict"; "_extract_function_data"; "_copy_context"; "_clean_context"; "_get_context"].
(** abstract.py 65-72: an attribute of handle_log or message: the name of a level is found first. *)
Inductive attr : Type := AtLevel (n : string) | Own (n : string).
Definition manual_attr (levels : list string) (n : string) : Res attr :=
  if existsb (String.eqb n) levels then Ok (AtLevel n)
  else if existsb (String.eqb n) manual_own then Ok (Own n)
  else Err EAttributeError.
