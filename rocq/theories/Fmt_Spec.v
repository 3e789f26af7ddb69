(** What a line of the log file should say, for a record given by its meaning and not by the Python values in it. *)
From Verif Require Import Base Text Json_Model Fmt_Model Numeral.
From Verif Require Settings_Model.
From Coq Require Import ZArith.
Local Open Scope string_scope.
Local Open Scope list_scope.

Definition nl : string := String (ascii_of_nat 10) "".
Definition somes {A} (l : list (option A)) : list A := flat_map (fun o => match o with Some a => [a] | None => [] end) l.

(** A variable: its text and the name of its type; texts stand in quotation marks. *)
Record var : Type := mkVar { v_text : string; v_type : string }.
Definition var_text (x : var) : string := (if String.eqb (v_type x) "str" then quoted (v_text x) else v_text x) ++ " (" ++ v_type x ++ ")".
Definition vars_text (args : list var) (kwargs : list (string * var)) : string :=
  join ", " (map var_text args ++ map (fun kx => fst kx ++ " = " ++ var_text (snd kx))%string kwargs).
(** A level of the call stack. *)
Record frame : Type := mkFrame { f_path : string; f_num : string; f_name : string; f_source : string }.

(** A custom field holds a text or something else that can be written as a text. *)
Inductive extra : Type := XStr (s : string) | XText (t : string).
Definition extra_text (x : string * extra) : string := fst x ++ ": " ++ match snd x with XStr s => quoted s | XText t => t end.

Record entry : Type := mkEntry {
  e_time : option string; e_level : option Z; e_success : option bool; e_auto : bool; e_message : option string;
  e_service : option string; e_module : option string; e_class : option string; e_function : option string;
  e_work : option string;                                    (* the duration with eight decimals *)
  e_inputs : option (list var * list (string * var)); e_locals : option (list var * list (string * var)); e_result : option var;
  e_exception : option (string * option string); e_trace : option (list frame); e_extra : list (string * extra)
}.

(** The documented pieces of a line. *)
Definition time_piece (e : entry) : string := match e_time e with Some t => "[" ++ t ++ "]" | None => "[----time not specified----]" end.
(** The name of the level, or its number in decimal. *)
Definition level_text (names : Z -> option string) (e : entry) (p : string) : Prop :=
  match e_level e with None => p = "UNKNOWN" | Some z => match names z with Some n => p = n | None => decimal p z end end.
Definition success_piece (e : entry) : string := match e_success e with None => "UNKNOWN" | Some true => "SUCCESS" | Some false => "ERROR" end.
Definition auto_piece (e : entry) : string := if e_auto e then "AUTO" else "MANUAL".
Definition where_piece (e : entry) : string :=
  let place := somes [e_service e; e_module e; e_class e] in
  match e_function e with
  | Some f => "where: " ++ join "." (place ++ [f]) ++ "()"
  | None => match place with [] => "where: ?" | _ => "where: " ++ join "." place ++ ".?" end
  end.
Definition frame_text (sp : ascii -> bool) (f : frame) : string :=
  join " " (words sp (f_source f)) ++ " (" ++ quoted (f_path f) ++ ", line " ++ f_num f ++ ", in " ++ f_name f ++ ")".
(** The duration, without the zeros and the point at its end. *)
Definition idle (c : ascii) : bool := match c with "0"%char | "."%char => true | _ => false end.
Fixpoint drop_idle (l : list ascii) : list ascii := match l with [] => [] | c :: r => if idle c then drop_idle r else l end.
Definition trimmed (w : string) : string := string_of_list_ascii (rev (drop_idle (rev (list_ascii_of_string w)))).
Definition later_pieces (sp : ascii -> bool) (e : entry) : list string :=
  somes [option_map quoted (e_message e);
         Some (where_piece e);
         option_map (fun w => "time of work: " ++ trimmed w ++ " sec.")%string (e_work e);
         option_map (fun v => "input variables: " ++ vars_text (fst v) (snd v))%string (e_inputs e);
         option_map (fun v => "local variables: " ++ vars_text (fst v) (snd v))%string (e_locals e);
         option_map (fun x => "result: " ++ var_text x)%string (e_result e);
         option_map (fun x => "exception: " ++ fst x ++ "(" ++ match snd x with Some m => quoted m | None => "" end ++ ")")%string (e_exception e);
         option_map (fun t => match t with [] => "no traceback" | _ => "traceback: " ++ join "; " (map (frame_text sp) t) end)%string (e_trace e)]
  ++ map extra_text (e_extra e).

(** [n] spaces. *)
Definition blanks (n : nat) : string := string_of_list_ascii (repeat " "%char n).
(** [c] is [s] in the middle of a column of width [w], the odd space to the right. *)
Definition in_column (w : nat) (s c : string) : Prop :=
  exists a b, c = (blanks a ++ s ++ blanks b)%string /\ a + String.length s + b = Nat.max w (String.length s) /\ a <= b <= S a.

(** The line. *)
Definition line (names : Z -> option string) (sp : ascii -> bool) (w : nat) (separator : string) (e : entry) (text : string) : Prop :=
  exists n l s a, level_text names e n /\ in_column w n l /\ in_column 7 (success_piece e) s /\ in_column 6 (auto_piece e) a /\
    text = (join " | " (time_piece e :: l :: s :: a :: later_pieces sp e) ++ separator)%string.

(** How the fields of a record carry this meaning. *)
Definition names_of (L : Settings_Model.levels) (z : Z) : option string := dget Z.eqb (Settings_Model.lv_rev L) z.
(** The width of the level column: the longest registered name, at least that of UNKNOWN. *)
Definition column (L : Settings_Model.levels) (w : nat) : Prop :=
  7 <= w /\ (forall n, In n (dkeys (Settings_Model.lv L)) -> String.length n <= w) /\
  (w = 7 \/ exists n, In n (dkeys (Settings_Model.lv L)) /\ String.length n = w).

Definition carries_var (show : json -> string) (j : json) (x : var) : Prop :=
  exists d v, j = JObj d /\ dget String.eqb d "value" = Some v /\ jtext show v = v_text x /\ dget String.eqb d "type" = Some (JStr (v_type x)).
Definition carries_vars (show : json -> string) (doc : json) (args : list var) (kwargs : list (string * var)) : Prop :=
  exists d, doc = JObj d /\ (args <> [] \/ kwargs <> []) /\
    match args with
    | [] => dget String.eqb d "args" = None
    | _ => exists l, dget String.eqb d "args" = Some (JArr l) /\ Forall2 (carries_var show) l args
    end /\
    match kwargs with
    | [] => dget String.eqb d "kwargs" = None
    | _ => exists l, dget String.eqb d "kwargs" = Some (JObj l) /\ Forall2 (fun kj kx => fst kj = fst kx /\ carries_var show (snd kj) (snd kx)) l kwargs
    end.
(** A line of traceback.format_tb; neither the path nor the names contain white space. *)
Definition carries_frame (sp : ascii -> bool) (j : json) (f : frame) : Prop :=
  j = JStr ("  File " ++ quoted (f_path f) ++ ", line " ++ f_num f ++ ", in " ++ f_name f ++ nl ++ "    " ++ f_source f ++ nl) /\
  dense sp (f_path f) /\ dense sp (f_num f) /\ dense sp (f_name f) /\ f_name f <> "".

(** A result that the program put into the record itself and that is no json text: its text and its type as Python shows them (str_of_Z: in decimal, Numeral.str_decimal). *)
Definition carries_plain (loads : string -> Res json) (v : val) (x : var) : Prop :=
  match v with
  | VNone => x = mkVar "None" "<class 'NoneType'>"
  | VBool b => x = mkVar (if b then "True" else "False") "<class 'bool'>"
  | VInt z => x = mkVar (Settings_Model.str_of_Z z) "<class 'int'>"
  | VStr s => loads s = Err EValueError /\ x = mkVar s "<class 'str'>"
  | VObj o => o_str o = Ok (v_text x) /\ o_type o = v_type x /\ v_type x <> "str"
  end.
(** A json document with nothing in it. *)
Definition nothing (j : json) : Prop := j = JNull \/ j = JBool false \/ (exists t, j = JNum t false) \/ j = JStr "" \/ j = JArr [] \/ j = JObj [].

Definition opt_str (o : option string) : val := match o with Some s => VStr s | None => VNone end.
(** The names the formatter gives a meaning of its own. *)
Definition standard (n : string) : Prop :=
  In n ["time"; "level"; "success"; "auto"; "message"; "function"; "time_of_work"; "input_variables"; "local_variables"; "result"; "traceback";
        "module"; "service_name"; "exception_type"; "exception_message"; "class"].
(** A value that is not a text itself but can be written as one. *)
Definition writes (v : val) (t : string) : Prop :=
  match v with
  | VBool b => t = if b then "True" else "False"
  | VInt z => t = Settings_Model.str_of_Z z
  | VObj o => o_text o = Ok t
  | VNone | VStr _ => False
  end.
(** A duration that the format of eight decimals takes. *)
Definition eight_decimals (v : val) (t : string) : Prop :=
  match v with
  | VBool b => t = if b then "1.00000000" else "0.00000000"
  | VInt z => t = (Settings_Model.str_of_Z z ++ ".00000000")%string
  | VObj o => o_fixed o = Ok t
  | VNone | VStr _ => False
  end.
Inductive carries_extras : log -> list (string * extra) -> Prop :=
| CE_nil : carries_extras [] []
| CE_standard n v l x : standard n -> carries_extras l x -> carries_extras ((n, v) :: l) x
| CE_none n l x : ~ standard n -> carries_extras l x -> carries_extras ((n, VNone) :: l) x
| CE_str n s l x : ~ standard n -> carries_extras l x -> carries_extras ((n, VStr s) :: l) ((n, XStr s) :: x)
| CE_text n v t l x : ~ standard n -> writes v t -> carries_extras l x -> carries_extras ((n, v) :: l) ((n, XText t) :: x).

Section Carries.
  Variable loads : string -> Res json.
  Variable show : json -> string.
  Variable sp : ascii -> bool.

  Record carries (E : env) (l : log) (e : entry) : Prop := mkCarries {
    c_keys : NoDup (dkeys l);
    c_no_exception : ~ In "exception" (dkeys l);
    c_time : match e_time e with Some t => writes (get l "time") t \/ get l "time" = VStr t | None => get l "time" = VNone end;
    c_level : get l "level" = match e_level e with Some z => VInt z | None => VNone end;
    c_success : get l "success" = match e_success e with Some b => VBool b | None => VNone end;
    c_auto : get l "auto" = VBool (e_auto e) \/ (e_auto e = false /\ get l "auto" = VNone);
    c_message : get l "message" = opt_str (e_message e);
    c_service : service E = e_service e;
    c_module : get l "module" = opt_str (e_module e);
    c_class : get l "class" = opt_str (e_class e);
    c_place : e_service e <> Some "" /\ e_module e <> Some "" /\ e_class e <> Some "";
    c_function : get l "function" = opt_str (e_function e);
    c_work : match e_work e with Some t => eight_decimals (get l "time_of_work") t | None => get l "time_of_work" = VNone end;
    c_inputs : match e_inputs e with
               | Some (a, k) => exists s doc, get l "input_variables" = VStr s /\ s <> "" /\ loads s = Ok doc /\ carries_vars show doc a k
               | None => get l "input_variables" = VNone
               end;
    c_locals : match e_locals e with
               | Some (a, k) => exists s doc, get l "local_variables" = VStr s /\ s <> "" /\ loads s = Ok doc /\ carries_vars show doc a k
               | None => get l "local_variables" = VNone
               end;
    c_result : match e_result e with
               | Some x => (exists s j, get l "result" = VStr s /\ loads s = Ok j /\ carries_var show j x) \/
                           (exists v, dget String.eqb l "result" = Some v /\ carries_plain loads v x)
               | None => ~ In "result" (dkeys l)
               end;
    c_exception : get l "exception_type" = opt_str (option_map fst (e_exception e)) /\
                  (forall t m, e_exception e = Some (t, m) -> get l "exception_message" = opt_str m);
    c_trace : match e_trace e with
              | Some fs => (exists s js, get l "traceback" = VStr s /\ s <> "" /\ loads s = Ok (JArr js) /\ Forall2 (carries_frame sp) js fs) \/
                           (fs = [] /\ (get l "traceback" = VStr "" \/ exists s j, get l "traceback" = VStr s /\ loads s = Ok j /\ nothing j))
              | None => get l "traceback" = VNone
              end;
    c_extra : carries_extras l (e_extra e)
  }.
End Carries.
