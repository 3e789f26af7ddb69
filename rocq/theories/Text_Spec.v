(** What makes a text readable. *)
From Verif Require Import Base Text_Model.

(** The character [c] does not occur in [s]. *)
Fixpoint without (c : Ascii.ascii) (s : string) : Prop :=
  match s with EmptyString => True | String x r => x <> c /\ without c r end.

Definition c_quote : Ascii.ascii := """"%char.
Definition c_comma : Ascii.ascii := ","%char.
Definition c_space : Ascii.ascii := " "%char.
Definition c_equal : Ascii.ascii := "="%char.
Definition c_paren : Ascii.ascii := "("%char.

(** Names: no space, no "=".  Values: strings without quotes; other values whose text has neither quotes nor commas. *)
Definition clear_name (k : string) : Prop := without c_space k /\ without c_equal k.
Definition clear_value (v : tval) : Prop :=
  match v with TStr s => without c_quote s | TOth t => without c_quote t /\ without c_comma t end.
Definition clear (fs : list (string * tval)) : Prop := Forall (fun kv => clear_name (fst kv) /\ clear_value (snd kv)) fs.
