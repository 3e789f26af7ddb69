(** Model of the settings and of the level names:
    polog/core/stores/levels.py, polog/core/stores/settings/setting_point.py,
    polog/core/stores/settings/settings_store.py and config.set / levels / standard_levels (polog/config.py 26-69).

    Sequential: every config.set below runs to completion (the lock of setting_point.py 66 is what
    serialises them; the engine part of the model treats threads).  Actions (setting_point.py 120-125) run
    escaped and write no setting (actions/*.py), so they are left out here; the one that reloads the
    engine is modelled with the engine. *)
From Verif Require Import Base.
From Coq Require Export ZArith DecimalString.

(** How a float compares with zero; nan compares false with everything. *)
Inductive fcls : Type := FNeg | FZero | FPos | FNan.

(** Python values as far as the settings look at them.  [VObj]: any object of another type; [VPolitic]: one of
    the two functions smart_assert_politic is converted to (settings_store.py 150-153). *)
Inductive pyval : Type :=
| VNone | VBool (b : bool) | VInt (z : Z) | VFloat (c : fcls) (id : nat) | VStr (s : string)
| VPolitic (all : bool) | VObj (o : nat).

Definition is_int (v : pyval) : bool := match v with VInt _ | VBool _ => true | _ => false end.   (* isinstance(v, int) *)
Definition is_bool (v : pyval) : bool := match v with VBool _ => true | _ => false end.
Definition is_str (v : pyval) : bool := match v with VStr _ => true | _ => false end.
Definition is_float (v : pyval) : bool := match v with VFloat _ _ => true | _ => false end.
Definition bz (b : bool) : Z := if b then 1%Z else 0%Z.

(** v >= 0, v > 0, v == 0.  Other types raise TypeError in Python; every use is guarded by a type test before. *)
Definition ge0 (v : pyval) : bool :=
  match v with VInt z => (0 <=? z)%Z | VBool _ => true | VFloat FZero _ | VFloat FPos _ => true | _ => false end.
Definition gt0 (v : pyval) : bool :=
  match v with VInt z => (0 <? z)%Z | VBool b => b | VFloat FPos _ => true | _ => false end.
Definition eq0 (v : pyval) : bool :=
  match v with VInt z => (z =? 0)%Z | VBool b => negb b | VFloat FZero _ => true | _ => false end.
(** v == True / v == False for the values that can be there (bool or int). *)
Definition eq_true (v : pyval) : bool := match v with VBool b => b | VInt z => (z =? 1)%Z | _ => false end.

(** *** levels.py *)
Record levels : Type := mkLevels { lv : list (string * pyval); lv_rev : list (Z * string) }.
Definition no_levels : levels := mkLevels [] [].

Definition num (v : pyval) : Z := match v with VInt z => z | VBool b => bz b | _ => 0%Z end.

(** levels.py 14-23: Levels.set; [name] None is a key that is not a str. *)
Definition levels_set (L : levels) (name : option string) (v : pyval) : levels * Res unit :=
  match name with
  | None => (L, Err EKeyError)
  | Some n => if is_int v then (mkLevels (dset String.eqb (lv L) n v) (dset Z.eqb (lv_rev L) (num v) n), Ok tt)
              else (L, Err EValueError)
  end.

(** levels.py 26-40: Levels.get. *)
Definition levels_get (L : levels) (k : pyval) : Res pyval :=
  match k with
  | VStr s => match dget String.eqb (lv L) s with Some v => Ok v | None => Err EKeyError end
  | VInt z => if (z <? 0)%Z then Err EKeyError else Ok (VInt z)
  | _ => Err EKeyError
  end.

Definition str_of_Z (z : Z) : string := NilZero.string_of_int (Z.to_int z).

(** levels.py 43-55: get_level_name, for None and for integers (True and False included). *)
Definition get_level_name (L : levels) (k : pyval) : option string :=
  match k with
  | VNone => None
  | VInt z => Some (match dget Z.eqb (lv_rev L) z with Some n => n | None => str_of_Z z end)
  | VBool b => Some (match dget Z.eqb (lv_rev L) (bz b) with Some n => n | None => if b then "True"%string else "False"%string end)
  | _ => None                                     (* simplified: other types are not modelled *)
  end.

(** levels.py 58-65. *)
Definition get_all_names (L : levels) : list string := dkeys (lv L).

Section Settings.
  (** Facts about Python objects the checks ask for. *)
  Variable isident : string -> bool.               (* str.isidentifier *)
  Variable class_or_callable : nat -> bool.        (* inspect.isclass(x) or callable(x) *)
  Variable is_module : nat -> bool.
  Variable has_loads has_dumps loads_callable dumps_callable : nat -> bool.
  Variable debug : bool.                           (* __debug__ *)
  Variable possible_level_name : string -> bool.   (* NameManager.is_possible_level_name, name_manager.py *)

  (** setting_point.py 13-45: what a point is made of. *)
  Record point : Type := mkPoint {
    p_default : pyval;
    p_once : bool;
    p_before_start : bool;
    p_proves : list (pyval -> bool);
    p_converter : option (levels -> pyval -> Res pyval);
    p_conflicts : list (string * (pyval -> pyval -> bool))   (* new value, the other point's value; the old value is never used *)
  }.

  Definition flag (d : bool) : point := mkPoint (VBool d) false false [is_bool] None [].
  Definition on_obj (f : nat -> bool) (v : pyval) : bool := match v with VObj o => f o | _ => false end.
  (** callable(x): the two converted functions are not reachable as values a user passes, but they are callable. *)
  Definition callable (v : pyval) : bool := match v with VObj o => class_or_callable o | VPolitic _ => true | _ => false end.
  Definition level_ok (v : pyval) : bool := (is_int v && ge0 v) || is_str v.
  Definition politic_of (L : levels) (v : pyval) : Res pyval :=
    match v with
    | VStr s => if String.eqb s "all" then Ok (VPolitic true)
                else if String.eqb s "if_debug" then Ok (VPolitic false)
                else Ok VNone                      (* dict.get of another key; excluded by the checks *)
    | _ => Ok VNone
    end.

  Definition engine_obj : nat := 0.
  Definition json_obj : nat := 1.
  Definition default_quant : pyval := VFloat FPos 0.
  Definition default_delay : pyval := VFloat FPos 1.

  Open Scope string_scope.
  Open Scope list_scope.
  (** settings_store.py 23-239. *)
  Definition points : list (string * point) :=
    [ ("pool_size", mkPoint (VInt 0) false false [is_int; ge0] None
        [("max_queue_size", fun new other => eq0 new && negb (eq0 other))]);
      ("max_queue_size", mkPoint (VInt 0) false false [is_int; ge0] None
        [("pool_size", fun new other => negb (eq0 new) && eq0 other)]);
      ("started", mkPoint (VBool false) true false [is_bool; eq_true] None []);
      ("level", mkPoint (VInt 0) false false [level_ok] (Some levels_get) []);
      ("default_level", mkPoint (VInt 1) false false [level_ok] (Some levels_get) []);
      ("default_error_level", mkPoint (VInt 2) false false [level_ok] (Some levels_get) []);
      ("service_name", mkPoint VNone false false
        [(fun v => is_str v || match v with VNone => true | _ => false end);
         (fun v => match v with VStr s => isident s | _ => true end)] None []);
      ("silent_internal_exceptions", flag false);
      ("max_delay_before_exit", mkPoint default_delay false false [(fun v => is_int v || is_float v); ge0] None []);
      ("delay_on_exit_loop_iteration_in_quants", mkPoint (VInt 10) false false [is_int; gt0] None []);
      ("time_quant", mkPoint default_quant false false [(fun v => is_int v || is_float v); gt0] None []);
      ("engine", mkPoint (VObj engine_obj) false false [callable] None []);
      ("json_module", mkPoint (VObj json_obj) false false
        [on_obj is_module; on_obj has_loads; on_obj has_dumps; on_obj loads_callable; on_obj dumps_callable] None []);
      ("smart_assert_politic", mkPoint (VPolitic false) false false
        [is_str; (fun v => match v with VStr s => String.eqb s "all" || String.eqb s "if_debug" | _ => false end)]
        (Some politic_of) []);
      ("debug_mode", flag debug);
      ("fields_intersection", flag false);
      ("unknown_fields_in_handle_logs", flag true);
      ("deduplicate_errors", flag true);
      ("log_is_built_in", flag false);
      ("full_unlog", flag true);
      ("suppress_by_default", flag false);
      ("suppress_exception_subclasses", flag true);
      ("integration_with_logging", mkPoint (VBool true) false false [is_bool] None
        [("logging_off", fun new other => negb (eq_true new) && eq_true other)]);
      ("logging_off", mkPoint (VBool true) false false [is_bool] None
        [("integration_with_logging", fun new other => eq_true new && negb (eq_true other))]);
      ("traceback_cutting", flag true) ].

  (** The values, the names of the points already changed (setting_point.py 39, 78), the levels. *)
  Record cfg : Type := mkCfg { vals : list (string * pyval); changed : list string; lvls : levels }.
  Definition cfg0 : cfg := mkCfg (map (fun np => (fst np, p_default (snd np))) points) [] no_levels.

  (** settings_store.py 303-321: reading a point. *)
  Definition cfg_get (c : cfg) (n : string) : Res pyval :=
    match dget String.eqb (vals c) n with Some v => Ok v | None => Err EKeyError end.

  Definition val (c : cfg) (n : string) : pyval := match dget String.eqb (vals c) n with Some v => v | None => VNone end.

  (** setting_point.py 127-134. *)
  Definition conflicting (c : cfg) (p : point) (new : pyval) : bool :=
    existsb (fun nf => snd nf new (val c (fst nf))) (p_conflicts p).

  (** setting_point.py 50-78: SettingPoint.set, and settings_store.py 273-283, 313-321. *)
  Definition set_point (c : cfg) (n : string) (v : pyval) : cfg * Res unit :=
    match dget String.eqb points n with
    | None => (c, Err EKeyError)
    | Some p =>
        if existsb (String.eqb n) (changed c) && p_once p then (c, Err EDoubleSetting)
        else if p_before_start p && eq_true (val c "started") then (c, Err EAfterStartSetting)
        else if negb (forallb (fun f => f v) (p_proves p)) then (c, Err EValueError)
        else match (match p_converter p with None => Ok v | Some f => f (lvls c) v end) with
             | Err e => (c, Err e)
             | Ok v' => if conflicting c p v' then (c, Err EValueError)
                        else (mkCfg (dset String.eqb (vals c) n v') (n :: changed c) (lvls c), Ok tt)
             end
    end.

  (** config.py 26-39: config.set. *)
  Fixpoint config_set (c : cfg) (kw : list (string * pyval)) : cfg * Res unit :=
    match kw with
    | [] => (c, Ok tt)
    | (n, v) :: r => match set_point c n v with
                     | (c', Ok _) => config_set c' r
                     | (c', Err e) => (c', Err e)
                     end
    end.

  (** config.py 42-58: config.levels. *)
  Fixpoint config_levels (c : cfg) (kw : list (string * pyval)) : cfg * Res unit :=
    match kw with
    | [] => (c, Ok tt)
    | (n, v) :: r =>
        if negb (is_int v) then (c, Err ETypeError)
        else if negb (ge0 v) then (c, Err EValueError)
        else if negb (possible_level_name n) then (c, Err ENameError)
        else match levels_set (lvls c) (Some n) v with
             | (L, Ok _) => config_levels (mkCfg (vals c) (changed c) L) r
             | (L, Err e) => (mkCfg (vals c) (changed c) L, Err e)
             end
    end.

  (** config.py 61-69: config.standard_levels; the lower-case names are written out. *)
  Definition standard : list (string * string * Z) :=
    [("NOTSET", "notset", 0%Z); ("DEBUG", "debug", 10%Z); ("INFO", "info", 20%Z);
     ("WARNING", "warning", 30%Z); ("ERROR", "error", 40%Z); ("CRITICAL", "critical", 50%Z)].
  Definition standard_levels (c : cfg) : cfg :=
    mkCfg (vals c) (changed c)
      (fold_left (fun L x => match x with (up, low, z) =>
                    fst (levels_set (fst (levels_set L (Some up) (VInt z))) (Some low) (VInt z)) end) standard (lvls c)).

  (** What a program does to the configuration.  The engine's first write sets started=True
      (engine.py 53-63) through the same point. *)
  Inductive cop : Type := CSet (kw : list (string * pyval)) | CLevels (kw : list (string * pyval)) | CStandard.
  Definition cfg_step (c : cfg) (o : cop) : cfg :=
    match o with
    | CSet kw => fst (config_set c kw)
    | CLevels kw => fst (config_levels c kw)
    | CStandard => standard_levels c
    end.
End Settings.
