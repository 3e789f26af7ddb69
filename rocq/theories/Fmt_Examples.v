(** * C61: concrete lines, and the promises that do not hold *)
From Verif Require Import Base Text Json_Model Fmt_Model Fmt_Spec Fmt_Proofs Fmt_Line Fmt_Props.
From Verif Require Settings_Model.
From Coq Require Import ZArith.
Local Open Scope string_scope.
Local Open Scope list_scope.

Definition sp_ex (c : ascii) : bool := Ascii.eqb c " " || Ascii.eqb c (ascii_of_nat 10).
Definition show_ex (j : json) : string := "...".
(** A json module that knows a few documents. *)
Definition frame_ex : frame := mkFrame "/app/m.py" "3" "f" "return 1 / 0".
Definition trace_text (f : frame) : string :=
  "  File " ++ quoted (f_path f) ++ ", line " ++ f_num f ++ ", in " ++ f_name f ++ nl ++ "    " ++ f_source f ++ nl.
Definition loads_ex (s : string) : Res json :=
  if String.eqb s "INPUT" then Ok (JObj [("args", JArr [JObj [("value", JNum "1" true); ("type", JStr "int")]]);
                                         ("kwargs", JObj [("k", JObj [("value", JStr "v"); ("type", JStr "str")])])])
  else if String.eqb s "RESULT" then Ok (JObj [("value", JBool true); ("type", JStr "bool")])
  else if String.eqb s "TRACE" then Ok (JArr [JStr (trace_text frame_ex)])
  else if String.eqb s "SPACED" then Ok (JArr [JStr (trace_text (mkFrame "/my app/m.py" "3" "f" "return 1 / 0"))])
  else Err EValueError.
Definition date (t : string) : val := VObj (mkObj (Ok t) (Ok t) (Ok true) (Ok false) (Err EValueError) "<class 'datetime.datetime'>" (Ok None) (Err ETypeError)).
Definition secs (t : string) : val := VObj (mkObj (Ok t) (Ok t) (Ok true) (Ok false) (Ok t) "<class 'float'>" (Ok None) (Err ETypeError)).
Definition levels_ex : Settings_Model.levels := Settings_Model.mkLevels [("INFO", Settings_Model.VInt 20)] [(20%Z, "INFO")].
Definition env_ex : env := mkEnv levels_ex (Some "base").

Definition record_ex : log :=
  [("level", VInt 20); ("auto", VBool true); ("time", date "2026-01-02"); ("function", VStr "f"); ("module", VStr "m"); ("message", VStr "hi"); ("success", VBool false);
   ("time_of_work", secs "0.50000000"); ("input_variables", VStr "INPUT"); ("result", VStr "RESULT"); ("exception_type", VStr "ValueError"); ("exception_message", VStr "no");
   ("traceback", VStr "TRACE"); ("user", VStr "bob"); ("ip", VNone); ("n", VInt 5)].
Definition entry_ex : entry :=
  mkEntry (Some "2026-01-02") (Some 20%Z) (Some false) true (Some "hi") (Some "base") (Some "m") None (Some "f") (Some "0.50000000")
    (Some ([mkVar "1" "int"], [("k", mkVar "v" "str")])) None (Some (mkVar "True" "bool")) (Some ("ValueError", Some "no")) (Some [frame_ex])
    [("user", XStr "bob"); ("n", XText "5")].
(** The hypotheses of C61_line hold for this record ... *)
Example ex_carries : carries loads_ex show_ex sp_ex env_ex record_ex entry_ex.
Proof.
  constructor; try reflexivity; try solve [cbn; intuition (congruence || discriminate)].
  - repeat constructor; cbn; intuition discriminate.
  - exists "INPUT". eexists. split; [reflexivity|]. split; [discriminate|]. split; [reflexivity|]. eexists. split; [reflexivity|].
    split; [left; discriminate|]. split; eexists; (split; [reflexivity|]); repeat constructor; cbn; eexists _, _; repeat split; reflexivity.
  - left. exists "RESULT". eexists. split; [reflexivity|]. split; [reflexivity|]. eexists _, _; repeat split; reflexivity.
  - split; [reflexivity|]. intros t m H. injection H as <- <-. reflexivity.
  - left. exists "TRACE". eexists. split; [reflexivity|]. split; [discriminate|]. split; [reflexivity|]. constructor; [|constructor]. split; [reflexivity|]. cbn. repeat split; discriminate.
  - repeat first [apply CE_nil
      | apply CE_standard; [unfold standard; cbn; tauto|]
      | apply CE_str; [unfold standard; cbn; intuition discriminate|]
      | apply CE_none; [unfold standard; cbn; intuition discriminate|]
      | apply CE_text; [unfold standard; cbn; intuition discriminate|reflexivity|]].
Qed.
(** ... and this is its line. *)
Example ex_line : answer loads_ex show_ex sp_ex nl [] (env_ex, record_ex) = Ok (
  "[2026-01-02] |  INFO   |  ERROR  |  AUTO  | ""hi"" | where: base.m.f() | time of work: 0.5 sec. | input variables: 1 (int), k = ""v"" (str) | result: True (bool) | " ++
  "exception: ValueError(""no"") | traceback: return 1 / 0 (""/app/m.py"", line 3, in f) | user: ""bob"" | n: 5" ++ nl)%string.
Proof. vm_compute. reflexivity. Qed.
Example ex_empty : answer loads_ex show_ex sp_ex nl [] (mkEnv Settings_Model.no_levels None, []) = Ok ("[----time not specified----] | UNKNOWN | UNKNOWN | MANUAL | where: ?" ++ nl)%string.
Proof. vm_compute. reflexivity. Qed.
(** A result put into the record by the program itself, and a traceback with nothing in it. *)
Definition record_plain : log := [("message", VStr "hi"); ("result", VBool true); ("traceback", VStr "")].
Definition entry_plain : entry := mkEntry None None None false (Some "hi") (Some "base") None None None None None None (Some (mkVar "True" "<class 'bool'>")) None (Some []) [].
Example ex_carries_plain : carries loads_ex show_ex sp_ex env_ex record_plain entry_plain.
Proof.
  constructor; try reflexivity; try solve [cbn; intuition (congruence || discriminate)].
  - repeat constructor; cbn; intuition discriminate.
  - right. eexists. split; reflexivity.
  - repeat first [apply CE_nil | apply CE_standard; [unfold standard; cbn; tauto|]].
Qed.
Example ex_line_plain : answer loads_ex show_ex sp_ex nl [] (env_ex, record_plain) =
  Ok ("[----time not specified----] | UNKNOWN | UNKNOWN | MANUAL | ""hi"" | where: base.? | result: True (<class 'bool'>) | no traceback" ++ nl)%string.
Proof. vm_compute. reflexivity. Qed.
(** A field that its extractor cannot read is written as it is. *)
Example ex_fallback : answer loads_ex show_ex sp_ex nl [] (env_ex, [("time_of_work", VStr "long"); ("result", VStr "5")]) =
  Ok ("[----time not specified----] | UNKNOWN | UNKNOWN | MANUAL | where: base.? | long | result: 5 (<class 'str'>)" ++ nl)%string.
Proof. vm_compute. reflexivity. Qed.

(** One record is not always one line. *)
Theorem C61_one_line_refuted : exists l a b, a <> "" /\ b <> "" /\ answer loads_ex show_ex sp_ex nl [] (env_ex, l) = Ok (a ++ nl ++ b ++ nl)%string.
Proof.
  exists [("message", VStr ("one" ++ nl ++ "two"))]. exists ("[----time not specified----] | UNKNOWN | UNKNOWN | MANUAL | ""one"), ("two"" | where: base.?").
  split; [discriminate|]. split; [discriminate|]. vm_compute. reflexivity.
Qed.
(** The line does not determine the record, not even up to the order and the number of its fields. *)
Theorem C61_unambiguous_refuted : exists l1 l2, length l1 <> length l2 /\
  answer loads_ex show_ex sp_ex nl [] (env_ex, l1) = answer loads_ex show_ex sp_ex nl [] (env_ex, l2).
Proof.
  exists [("a", VStr "x"" | b: ""y")], [("a", VStr "x"); ("b", VStr "y")]. split; [cbn; discriminate|]. vm_compute. reflexivity.
Qed.
(** A custom field may be called 'exception'; beside a real exception it is not shown. *)
Theorem C61_custom_shown_refuted : exists l1 l2, dget String.eqb l1 "exception" = Some (VStr "important") /\ dget String.eqb l2 "exception" = None /\
  answer loads_ex show_ex sp_ex nl [] (env_ex, l1) = answer loads_ex show_ex sp_ex nl [] (env_ex, l2).
Proof.
  exists [("exception_type", VStr "E"); ("exception", VStr "important")], [("exception_type", VStr "E")]. split; [reflexivity|]. split; [reflexivity|]. vm_compute. reflexivity.
Qed.
(** Empty local variables (what is recorded when they cannot be collected) are not left out: they appear at the end, in the raw form. *)
Theorem C61_empty_left_out_refuted : exists l, get l "local_variables" = VStr "" /\
  answer loads_ex show_ex sp_ex nl [] (env_ex, l) = Ok ("[----time not specified----] | UNKNOWN | UNKNOWN | MANUAL | where: base.? | local_variables: """"" ++ nl)%string.
Proof. exists [("local_variables", VStr "")]. split; [reflexivity|]. vm_compute. reflexivity. Qed.
(** A blank in the path of a source file garbles the traceback. *)
Theorem C61_traceback_refuted : exists l, get l "traceback" = VStr "SPACED" /\
  answer loads_ex show_ex sp_ex nl [] (env_ex, l) =
  Ok ("[----time not specified----] | UNKNOWN | UNKNOWN | MANUAL | where: base.? | traceback: f return 1 / 0 (""/my line line in in)" ++ nl)%string.
Proof. exists [("traceback", VStr "SPACED")]. split; [reflexivity|]. vm_compute. reflexivity. Qed.
(** A level registered after the first record does not widen the column. *)
Definition later_levels : Settings_Model.levels := Settings_Model.mkLevels [("INFO", Settings_Model.VInt 20); ("EMERGENCY", Settings_Model.VInt 60)] [(20%Z, "INFO"); (60%Z, "EMERGENCY")].
Theorem C61_aligned_refuted : exists hs c1 c2 s1 s2,
  answer loads_ex show_ex sp_ex nl hs (mkEnv later_levels (Some "base"), c1) = Ok s1 /\ answer loads_ex show_ex sp_ex nl hs (mkEnv later_levels (Some "base"), c2) = Ok s2 /\
  get c1 "time" = get c2 "time" /\ s1 = ("[----time not specified----] |  INFO   | UNKNOWN | MANUAL | where: base.?" ++ nl)%string /\
  s2 = ("[----time not specified----] | EMERGENCY | UNKNOWN | MANUAL | where: base.?" ++ nl)%string.
Proof.
  exists [(env_ex, [])], [("level", VInt 20)], [("level", VInt 60)]. eexists _, _. split; [vm_compute; reflexivity|]. split; [vm_compute; reflexivity|].
  split; [reflexivity|]. split; vm_compute; reflexivity.
Qed.
Print Assumptions C61_one_line_refuted.
Print Assumptions C61_unambiguous_refuted.
Print Assumptions C61_custom_shown_refuted.
Print Assumptions C61_empty_left_out_refuted.
Print Assumptions C61_traceback_refuted.
Print Assumptions C61_aligned_refuted.
