(** The texts of objects: str() and repr() of a record (log_item.py 59-78), of the object behind log(...)
    (finalizer.py 110-122), of the settings (settings_store.py 291-301) and of one of them (setting_point.py 47-48), of the
    weak dictionary (dictionary.py 48-56), of rotation rules (abstract_rule.py 24-27) and tokens (abstract_token.py 36-40).

    A value is a string or something else; of the latter only the text that str() gives is kept.  [id] stands for the
    decimal text of id(self). *)
From Verif Require Import Base.
Local Open Scope string_scope.
Local Open Scope list_scope.

Inductive tval : Type := TStr (s : string) | TOth (text : string).

Definition quote : string := String (Ascii.Ascii false true false false false true false false) EmptyString.

(** str(value) *)
Definition str_of (v : tval) : string := match v with TStr s => s | TOth t => t end.
(** Strings in quotes, the rest as str() shows it: log_item.py 67-68, finalizer.py 114. *)
Definition shown (v : tval) : string :=
  match v with TStr s => String.append quote (String.append s quote) | TOth t => t end.

(** log_item.py 66-71, finalizer.py 114-115. *)
Definition field_text (sep : string) (kv : string * tval) : string := fst kv ++ sep ++ shown (snd kv).
Definition fields_text (sep : string) (fs : list (string * tval)) : string := String.concat ", " (map (field_text sep) fs).

(** log_item.py 59-72; None: the attribute was never set. *)
Definition item_str (id : string) (fields : option (list (string * tval))) : string :=
  match fields with
  | None | Some [] => ("<log item #" ++ id ++ " (empty)>")%string
  | Some fs => ("<log item #" ++ id ++ " with content: " ++ fields_text " = " fs ++ ">")%string
  end.
(** log_item.py 74-78. *)
Definition item_repr (id : string) (fields : option (list (string * tval))) : string := item_str id fields.

(** finalizer.py 110-116; [cls]: the name of the type. *)
Definition fin_repr (cls : string) (data : list (string * tval)) : string := (cls ++ "(" ++ fields_text "=" data ++ ")")%string.
(** finalizer.py 118-122. *)
Definition fin_str (cls : string) (data : list (string * tval)) : string := ("<A " ++ fin_repr cls data ++ " object, don't use it!>")%string.

(** settings_store.py 291-301.  The comparison in 297-298 was meant as an assignment; it does nothing, so strings are not
    quoted. *)
Definition store_str (points : list (string * tval)) : string :=
  ("<SettingStore object with data: " ++ String.concat ", " (map (fun kv => fst kv ++ " = " ++ str_of (snd kv)) points) ++ ">")%string.

(** setting_point.py 47-48. *)
Definition point_str (name : string) (v : tval) (id : string) : string :=
  ("<SettingPoint object " ++ quote ++ name ++ quote ++ " with value " ++ str_of v ++ ", #" ++ id ++ ">")%string.

(** dictionary.py 48-56; an entry: the text of the key, the value, the text of the weak reference to the value. *)
Definition weak_item (e : string * tval * string) : string :=
  match e with
  | (k, TOth t, _) => (k ++ ": " ++ t)%string
  | (_, TStr _, ref) => (quote ++ ref ++ quote)%string
  end.
Definition weak_str (cls : string) (entries : list (string * tval * string)) : string :=
  let data := String.concat ", " (map weak_item entries) in
  if String.eqb data "" then ("<" ++ cls ++ " object (empty)>")%string
  else ("<" ++ cls ++ " object with data: {" ++ data ++ "}>")%string.

(** abstract_rule.py 24-27. *)
Definition rule_repr (cls source : string) : string := (cls ++ "(" ++ quote ++ source ++ quote ++ ")")%string.
(** abstract_token.py 36-40. *)
Definition token_repr (cls : string) (content : tval) : string := (cls ++ "(" ++ shown content ++ ")")%string.
