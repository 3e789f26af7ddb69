(** Model of polog/handlers/file/base_formatter.py and base_formatter_fields_extractors.py: how a record becomes a line of the log file.
    A record is read as a dictionary (see C53). Texts are sequences of characters. *)
From Verif Require Import Base Text Json_Model.
From Verif Require Settings_Model.
From Coq Require Import ZArith.
Local Open Scope string_scope.
Local Open Scope list_scope.

(** Any other object in a field, seen through what the formatter asks of it; each question may raise. *)
Record obj : Type := mkObj {
  o_text : Res string;          (* f'{x}' *)
  o_str : Res string;           (* str(x) *)
  o_truth : Res bool;           (* bool(x) *)
  o_is_true : Res bool;         (* x == True *)
  o_fixed : Res string;         (* f'{x:.8f}' *)
  o_type : string;              (* str(type(x)) *)
  o_key : Res (option Z);       (* as a dictionary key: unhashable, or the number it equals *)
  o_loads : Res json            (* json.loads(x) *)
}.
Inductive val : Type := VNone | VBool (b : bool) | VInt (z : Z) | VStr (s : string) | VObj (o : obj).

Definition text_of (v : val) : Res string :=
  match v with VNone => Ok "None" | VBool b => Ok (str_bool b) | VInt z => Ok (Settings_Model.str_of_Z z) | VStr s => Ok s | VObj o => o_text o end.
Definition str_of (v : val) : Res string :=
  match v with VNone => Ok "None" | VBool b => Ok (str_bool b) | VInt z => Ok (Settings_Model.str_of_Z z) | VStr s => Ok s | VObj o => o_str o end.
Definition truth_of (v : val) : Res bool :=
  match v with VNone => Ok false | VBool b => Ok b | VInt z => Ok (negb (Z.eqb z 0)) | VStr s => Ok (negb (String.eqb s "")) | VObj o => o_truth o end.
Definition is_true (v : val) : Res bool :=
  match v with VNone => Ok false | VBool b => Ok b | VInt z => Ok (Z.eqb z 1) | VStr _ => Ok false | VObj o => o_is_true o end.
Definition fixed_of (v : val) : Res string :=
  match v with
  | VNone => Err ETypeError
  | VBool b => Ok (if b then "1.00000000" else "0.00000000")
  | VInt z => Ok (Settings_Model.str_of_Z z ++ ".00000000")%string
  | VStr _ => Err EValueError
  | VObj o => o_fixed o
  end.
Definition type_of (v : val) : string :=
  match v with VNone => "<class 'NoneType'>" | VBool _ => "<class 'bool'>" | VInt _ => "<class 'int'>" | VStr _ => "<class 'str'>" | VObj o => o_type o end.
(** An argument of '.'.join must be a str. *)
Definition as_str (v : val) : Res string := match v with VStr s => Ok s | _ => Err ETypeError end.
Definition is_none (v : val) : bool := match v with VNone => true | _ => false end.

Definition log := list (string * val).
(** log.get(name): None for a missing field *)
Definition get (l : log) (n : string) : val := match dget String.eqb l n with Some v => v | None => VNone end.

(** number.rstrip('0.') *)
Definition zero_or_dot (c : ascii) : bool := Ascii.eqb c "0" || Ascii.eqb c ".".
(** f'{item:^width}': centred, the odd space to the right *)
Fixpoint pad (n : nat) : string := match n with 0 => "" | S n => String " " (pad n) end.
Definition centred (w : nat) (s : string) : string :=
  let total := w - String.length s in let left := Nat.div2 total in pad left ++ s ++ pad (total - left).

Section Formatter.
  Variable loads : string -> Res json.
  Variable show : json -> string.
  (** str.isspace of one character *)
  Variable sp : ascii -> bool.

  Definition loads_val (v : val) : Res json := match v with VStr s => loads s | VObj o => o_loads o | _ => Err ETypeError end.

  (** What the formatter reads outside the record: the registered levels and the setting service_name. *)
  Record env : Type := mkEnv { levels : Settings_Model.levels; service : option string }.

  Section Extractors.
    Variable e : env.
    Variable l : log.

    (** base_formatter_fields_extractors.py 17-25 *)
    Definition x_time : Res (option string) :=
      match get l "time" with VNone => Ok (Some "[----time not specified----]") | t => bindR (text_of t) (fun s => Ok (Some ("[" ++ s ++ "]")%string)) end.
    (** levels.py 43-55 *)
    Definition level_name (v : val) : Res string :=
      match v with
      | VNone => Ok "None"                               (* not reached: the caller answers first *)
      | VInt z => Ok (match dget Z.eqb (Settings_Model.lv_rev (levels e)) z with Some n => n | None => Settings_Model.str_of_Z z end)
      | VBool b => Ok (match dget Z.eqb (Settings_Model.lv_rev (levels e)) (if b then 1%Z else 0%Z) with Some n => n | None => str_bool b end)
      | VStr s => Ok s
      | VObj o => bindR (o_key o) (fun k =>
                  match k with
                  | Some z => match dget Z.eqb (Settings_Model.lv_rev (levels e)) z with Some n => Ok n | None => o_str o end
                  | None => o_str o
                  end)
      end.
    (** 27-38 *)
    Definition x_level : Res (option string) :=
      match get l "level" with VNone => Ok (Some "UNKNOWN") | v => bindR (level_name v) (fun s => Ok (Some s)) end.
    (** 40-49 *)
    Definition x_message : Res (option string) :=
      match get l "message" with VNone => Ok None | v => bindR (text_of v) (fun s => Ok (Some (quoted s))) end.
    (** 51-65 *)
    Definition x_success : Res (option string) :=
      match get l "success" with VNone => Ok (Some "UNKNOWN") | v => bindR (is_true v) (fun b => Ok (Some (if b then "SUCCESS" else "ERROR"))) end.
    (** 67-73 *)
    Definition x_auto : Res (option string) := bindR (truth_of (get l "auto")) (fun b => Ok (Some (if b then "AUTO" else "MANUAL"))).
    (** [x for x in (...) if x is not None], joined by dots *)
    Definition dotted (vs : list val) : Res string := bindR (mapR as_str (filter (fun v => negb (is_none v)) vs)) (fun ss => Ok (join "." ss)).
    Definition service_val : val := match service e with Some s => VStr s | None => VNone end.
    (** 75-98 *)
    Definition x_function : Res (option string) :=
      match get l "function" with
      | VNone => bindR (dotted [service_val; get l "module"; get l "class"])
                       (fun r => Ok (Some (if String.eqb r "" then "where: ?" else ("where: " ++ r ++ ".?")%string)))
      | f => bindR (dotted [service_val; get l "module"; get l "class"; f]) (fun r => Ok (Some ("where: " ++ r ++ "()")%string))
      end.
    (** 100-120; the try covers ValueError only *)
    Definition plain_result (v : val) : Res (option string) := bindR (str_of v) (fun s => Ok (Some ("result: " ++ s ++ " (" ++ type_of v ++ ")")%string)).
    Definition x_result : Res (option string) :=
      match dget String.eqb l "result" with
      | None => Ok None
      | Some (VStr s) => match bindR (loads s) (fun j => human show j) with
                         | Ok t => Ok (Some ("result: " ++ t)%string)
                         | Err EValueError => plain_result (VStr s)
                         | Err x => Err x
                         end
      | Some v => plain_result v
      end.
    (** 143-174 *)
    Definition json_variables_to_text (v : val) : Res (option string) :=
      if is_none v then Ok None
      else bindR (truth_of v) (fun b => if negb b then Ok None else bindR (loads_val v) (fun doc => document_to_text show doc)).
    (** 176-186 *)
    Definition x_input_variables : Res (option string) :=
      bindR (json_variables_to_text (get l "input_variables")) (fun r =>
      match r with None => Ok None | Some t => Ok (Some ("input variables: " ++ t)%string) end).
    (** 188-205; the except catches everything *)
    Definition x_local_variables : Res (option string) :=
      match get l "local_variables" with
      | VNone => Ok None
      | v => match json_variables_to_text v with
             | Ok None => Ok None
             | Ok (Some t) => Ok (Some ("local variables: " ++ t)%string)
             | Err _ => bindR (text_of v) (fun s => Ok (Some ("local variables: " ++ s)%string))
             end
      end.
    (** 207-219 *)
    Definition x_time_of_work : Res (option string) :=
      match get l "time_of_work" with
      | VNone => Ok None
      | v => bindR (fixed_of v) (fun s => Ok (Some ("time of work: " ++ rstrip zero_or_dot s ++ " sec.")%string))
      end.
    (** 221-231 *)
    Definition x_exception : Res (option string) :=
      match get l "exception_type" with
      | VNone => Ok None
      | t => match get l "exception_message" with
             | VNone => bindR (text_of t) (fun s => Ok (Some ("exception: " ++ s ++ "()")%string))
             | m => bindR (text_of t) (fun s => bindR (text_of m) (fun m => Ok (Some ("exception: " ++ s ++ "(" ++ quoted m ++ ")")%string)))
             end
      end.
    (** 248-253: one line of the traceback; lists are indexed with possible IndexError; what is not a text has no split *)
    Definition index (ws : list string) (i : nat) : Res string := match nth_error ws i with Some w => Ok w | None => Err EIndexError end.
    Definition trace_line (j : json) : Res string :=
      match j with
      | JStr s => let ws := words sp s in
                  bindR (index ws 1) (fun path => bindR (index ws 3) (fun num => bindR (index ws 5) (fun where_ =>
                  Ok (join " " (skipn 6 ws) ++ " (" ++ path ++ " line " ++ num ++ " in " ++ where_ ++ ")")%string)))
      | _ => Err EAttributeError
      end.
    (** 233-256 *)
    Definition x_traceback : Res (option string) :=
      match get l "traceback" with
      | VNone => Ok None
      | v => bindR (truth_of v) (fun b =>
             if negb b then Ok (Some "no traceback")
             else bindR (loads_val v) (fun j =>
                  if negb (jtruth j) then Ok (Some "no traceback")
                  else bindR (iterate j) (fun ls => bindR (mapR trace_line ls) (fun ts => Ok (Some ("traceback: " ++ join "; " ts)%string)))))
      end.

    (** base_formatter.py 65-85 *)
    Definition field_handlers : list (string * Res (option string)) :=
      [("time", x_time); ("level", x_level); ("success", x_success); ("auto", x_auto); ("message", x_message); ("function", x_function);
       ("time_of_work", x_time_of_work); ("input_variables", x_input_variables); ("local_variables", x_local_variables); ("result", x_result);
       ("exception", x_exception); ("traceback", x_traceback)].

    (** base_formatter.py 112-126: a failing extractor is replaced by str() of the field, and if that fails too by nothing *)
    Definition base_value (n : string) (x : Res (option string)) : option string :=
      match x with
      | Ok r => r
      | Err _ => match dget String.eqb l n with
                 | Some v => match str_of v with Ok s => Some s | Err _ => None end
                 | None => None
                 end
      end.
    Definition add_base_fields (base : list (string * string)) : list (string * string) :=
      fold_left (fun base h => match base_value (fst h) (snd h) with Some s => dset String.eqb base (fst h) s | None => base end) field_handlers base.

    (** base_formatter.py 12-18 *)
    Definition forbidden_extra_fields : list string := ["module"; "service_name"; "exception_type"; "exception_message"; "class"].
    (** 128-139 *)
    Definition add_extra_field (base : list (string * string)) (f : string * val) : Res (list (string * string)) :=
      let '(n, v) := f in
      if dmem String.eqb base n then Ok base
      else if existsb (String.eqb n) forbidden_extra_fields then Ok base
      else match v with
           | VNone => Ok base
           | VStr s => Ok (dset String.eqb base n (n ++ ": " ++ quoted s)%string)
           | _ => bindR (text_of v) (fun s => Ok (dset String.eqb base n (n ++ ": " ++ s)%string))
           end.
    Fixpoint add_extra_fields (base : list (string * string)) (fs : log) : Res (list (string * string)) :=
      match fs with [] => Ok base | f :: r => bindR (add_extra_field base f) (fun base => add_extra_fields base r) end.
    (** 102-110 *)
    Definition get_dict : Res (list (string * string)) := add_extra_fields (add_base_fields []) l.
  End Extractors.

  (** 87-100: the width of the level is fixed when the first record is formatted *)
  Definition norms (e : env) : list (string * nat) :=
    let longest := match Settings_Model.get_all_names (levels e) with [] => 2 | ns => fold_right Nat.max 0 (map String.length ns) end in
    [("level", Nat.max longest (String.length "UNKNOWN")); ("success", 7); ("auto", 6)].
  (** 148-159 *)
  Definition width_and_align (ns : list (string * nat)) (data : list (string * string)) : list (string * string) :=
    fold_left (fun data n => match dget String.eqb data (fst n) with
                             | Some item => dset String.eqb data (fst n) (centred (snd n) item)
                             | None => data
                             end) ns data.
  (** 141-146 *)
  Definition format (separator : string) (data : list (string * string)) : string := (join " | " (dvals data) ++ separator)%string.
  (** 50-63 *)
  Definition formatted (ns : list (string * nat)) (separator : string) (e : env) (l : log) : Res string :=
    bindR (get_dict e l) (fun data => Ok (format separator (width_and_align ns data))).
  (** 40-48: the state of a formatter is its table of widths, absent until the first record was formatted *)
  Definition get_formatted_string (separator : string) (st : option (list (string * nat))) (e : env) (l : log) : option (list (string * nat)) * Res string :=
    match st with
    | Some ns => (st, formatted ns separator e l)
    | None => let ns := norms e in match formatted ns separator e l with Ok s => (Some ns, Ok s) | Err x => (None, Err x) end
    end.
End Formatter.
