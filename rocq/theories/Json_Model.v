(** Model of polog/utils/json_vars.py and of the part of polog/handlers/file/base_formatter_fields_extractors.py that turns its
    documents back into text. The json module is a setting (json_module): its dumps and loads are parameters. *)
From Verif Require Import Base Text.
From Verif Require Settings_Model.
From Coq Require Import ZArith.
Local Open Scope string_scope.
Local Open Scope list_scope.

(** What json.loads gives: the text of a number is what str() gives for it, with whether it differs from zero. *)
Inductive json : Type :=
| JNull | JBool (b : bool) | JNum (text : string) (nonzero : bool) | JStr (s : string) | JArr (l : list json) | JObj (l : list (string * json)).

Definition str_bool (b : bool) : string := if b then "True" else "False".
Definition quoted (s : string) : string := """" ++ s ++ """".

(** ** json_vars.py *)
(** Python values as get_item looks at them: instances of bool, of int (not bool), of float, of str, the last three possibly of a subclass [cls], and other
    objects, seen through str() and type(x).__name__. *)
Inductive base : Type := Bbool | Bint | Bfloat | Bstr.
Inductive pv : Type :=
| PBool (b : bool) | PInt (z : Z) (cls : string) | PFloat (text : string) (nonzero : bool) (cls : string) | PStr (s : string) (cls : string) | POther (str : Res string) (type_name : string).
(** isinstance(item, one): True and False are instances of int too. *)
Definition isinstance (v : pv) (b : base) : bool :=
  match v, b with
  | PBool _, (Bbool | Bint) | PInt _ _, Bint | PFloat _ _ _, Bfloat | PStr _ _, Bstr => true
  | _, _ => false
  end.
Definition base_name (b : base) : string := match b with Bbool => "bool" | Bint => "int" | Bfloat => "float" | Bstr => "str" end.
(** json_vars.py 5 *)
Definition BASE_JSON_TYPES : list base := [Bbool; Bint; Bfloat; Bstr].
(** How the json module represents a simple value: true, a number, a text. *)
Definition native (v : pv) : json :=
  match v with
  | PBool b => JBool b
  | PInt z _ => JNum (Settings_Model.str_of_Z z) (negb (Z.eqb z 0))
  | PFloat t nz _ => JNum t nz
  | PStr s _ => JStr s
  | POther _ _ => JNull
  end.
(** json_vars.py 8-12: get_item *)
Definition get_item (v : pv) : Res json :=
  match find (isinstance v) BASE_JSON_TYPES with
  | Some b => Ok (JObj [("value", native v); ("type", JStr (base_name b))])
  | None => match v with
            | POther s t => bindR s (fun s => Ok (JObj [("value", JStr s); ("type", JStr t)]))
            | _ => Err ETypeError
            end
  end.
Fixpoint mapR {A B} (f : A -> Res B) (l : list A) : Res (list B) :=
  match l with [] => Ok [] | a :: r => bindR (f a) (fun b => bindR (mapR f r) (fun bs => Ok (b :: bs))) end.

Section Json.
  (** json.dumps and json.loads of the module in use. *)
  Variable dumps : json -> Res string.
  Variable loads : string -> Res json.
  (** str() of what json.loads gives for an array or an object. *)
  Variable show : json -> string.

  (** json_vars.py 14-29: None for no arguments. *)
  Definition json_vars (args : list pv) (kwargs : list (string * pv)) : Res (option string) :=
    if Nat.eqb (length args + length kwargs) 0 then Ok None
    else bindR (mapR get_item args) (fun a =>
         bindR (mapR (fun kv => bindR (get_item (snd kv)) (fun j => Ok (fst kv, j))) kwargs) (fun k =>
         let result := (if Nat.eqb (length a) 0 then [] else [("args", JArr a)]) in
         let result := (if Nat.eqb (length k) 0 then result else result ++ [("kwargs", JObj k)]) in
         bindR (dumps (JObj result)) (fun s => Ok (Some s)))).
  (** json_vars.py 31-35 *)
  Definition json_one_variable (v : pv) : Res string := bindR (get_item v) dumps.

  (** ** base_formatter_fields_extractors.py *)
  (** f'{j}' *)
  Definition jtext (j : json) : string :=
    match j with JNull => "None" | JBool b => str_bool b | JNum t _ => t | JStr s => s | JArr _ | JObj _ => show j end.
  Definition jtruth (j : json) : bool :=
    match j with JNull => false | JBool b => b | JNum _ nz => nz | JStr s => negb (String.eqb s "") | JArr [] | JObj [] => false | _ => true end.
  (** d.get(k): None for a missing key; what is not a dictionary has no such method. *)
  Definition jget (j : json) (k : string) : Res json :=
    match j with JObj d => Ok (match dget String.eqb d k with Some v => v | None => JNull end) | _ => Err EAttributeError end.
  Definition is_jnull (j : json) : bool := match j with JNull => true | _ => false end.
  Definition is_type_str (j : json) : bool := match j with JStr s => String.eqb s "str" | _ => false end.
  (** 122-141: json_variable_to_human_readable_text *)
  Definition human (j : json) : Res string :=
    bindR (jget j "value") (fun value => bindR (jget j "type") (fun ty =>
    Ok ((if is_type_str ty then quoted (jtext value) else jtext value) ++ " (" ++ jtext ty ++ ")")%string)).
  (** Iterating over what json.loads gave: an array gives its elements, an object its keys, a text its characters; the rest raises TypeError. *)
  Fixpoint chars (s : string) : list string := match s with "" => [] | String c r => String c "" :: chars r end.
  Definition iterate (j : json) : Res (list json) :=
    match j with
    | JArr l => Ok l
    | JObj d => Ok (map (fun kv => JStr (fst kv)) d)
    | JStr s => Ok (map JStr (chars s))
    | _ => Err ETypeError
    end.
  Definition jitems (j : json) : Res (list (string * json)) := match j with JObj d => Ok d | _ => Err EAttributeError end.
  (** 161-174: the rest of json_variables_to_text, after loading *)
  Definition document_to_text (doc : json) : Res (option string) :=
    bindR (jget doc "args") (fun args => bindR (jget doc "kwargs") (fun kwargs =>
    if is_jnull args && is_jnull kwargs then Ok None
    else bindR (if is_jnull args then Ok []
                else bindR (iterate args) (fun l => bindR (mapR human l) (fun t => Ok [join ", " t]))) (fun a =>
         bindR (if is_jnull kwargs then Ok []
                else bindR (jitems kwargs) (fun l => bindR (mapR (fun kv => bindR (human (snd kv)) (fun t => Ok (fst kv ++ " = " ++ t)%string)) l)
                     (fun t => Ok [join ", " t]))) (fun k =>
         Ok (Some (join ", " (a ++ k))))))).
End Json.
