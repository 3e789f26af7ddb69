(** Model of polog/handlers/smtp/sender.py: the arguments of the e-mail handler, the letter it makes of a record, and its repr.
    The sending itself is Smtp_Model.  The letter is a record of what is given to email.mime.text.MIMEText and to its headers; how that
    library encodes them is not modelled. *)
From Coq Require Import ZArith.
From Verif Require Import Base Text Sig_Model.
Local Open Scope string_scope.
Local Open Scope list_scope.

(** An argument of the constructor: the checks distinguish None, str, bool, int and the rest; [AObj id o] is any other object, of the
    signature [o] (Sig_Model). *)
Inductive arg : Type := ANone | AStr (s : string) | ABool (b : bool) | AInt (z : Z) | AObj (id : nat) (o : obj).

Section Mail.
  Variable isident : string -> bool.        (* str.isidentifier *)

  (** isinstance(x, str), isinstance(x, bool); isinstance(x, int), which holds for bools too. *)
  Definition is_str (a : arg) : bool := match a with AStr _ => true | _ => false end.
  Definition is_bool (a : arg) : bool := match a with ABool _ => true | _ => false end.
  Definition is_int (a : arg) : bool := match a with ABool _ | AInt _ => true | _ => false end.
  (** x is None or SignatureMatcher.is_handler(x) *)
  Definition none_or_handler (a : arg) : Res bool :=
    match a with
    | ANone => Ok true
    | AObj _ o => is_handler isident o true
    | _ => is_handler isident NotCallable true
    end.

  (** base.py 17-21 and sender.py 15-24: the two tables of checks. *)
  Definition base_proves : list (string * (arg -> Res bool)) :=
    [("only_errors", fun a => Ok (is_bool a)); ("filter", none_or_handler); ("alt", none_or_handler)].
  Definition input_proves : list (string * (arg -> Res bool)) :=
    [("email_from", fun a => Ok (is_str a)); ("password", fun a => Ok (is_str a)); ("email_to", fun a => Ok (is_str a));
     ("port", fun a => Ok (is_int a)); ("smtp_server", fun a => Ok (is_str a));
     ("text_assembler", none_or_handler); ("subject_assembler", none_or_handler); ("is_html", fun a => Ok (is_bool a))].
  (** base.py 92-107: do_input_proves; the subclass's table overwrites the base's. *)
  Definition proves : list (string * (arg -> Res bool)) :=
    fold_left (fun d kv => dset String.eqb d (fst kv) (snd kv)) input_proves base_proves.
  Fixpoint do_input_proves (kw : list (string * arg)) : Res unit :=
    match kw with
    | [] => Ok tt
    | (k, a) :: r =>
        match dget String.eqb proves k with
        | None => do_input_proves r
        | Some prove => bindR (prove a) (fun b => if b then do_input_proves r else Err EValueError)
        end
    end.

  (** sender.py 26: the arguments, with the defaults filled in. *)
  Record given : Type := mkGiven { g_from : arg; g_password : arg; g_server : arg; g_to : arg; g_port : arg; g_text : arg; g_subject : arg;
                                   g_errors : arg; g_filter : arg; g_alt : arg; g_html : arg }.
  (** base.py 28-31 and sender.py 47-56: the attributes of the object. *)
  Record sender : Type := mkSender { s_from : arg; s_password : arg; s_to : arg; s_port : arg; s_server : arg; s_text : arg; s_subject : arg;
                                     s_html : arg; s_errors : arg; s_filter : arg; s_alt : arg }.
  Definition make (g : given) : Res sender :=
    bindR (do_input_proves [("only_errors", g_errors g); ("filter", g_filter g); ("alt", g_alt g)]) (fun _ =>
    bindR (do_input_proves [("email_from", g_from g); ("password", g_password g); ("email_to", g_to g); ("port", g_port g);
                            ("smtp_server", g_server g); ("text_assembler", g_text g); ("subject_assembler", g_subject g); ("is_html", g_html g)]) (fun _ =>
    Ok (mkSender (g_from g) (g_password g) (g_to g) (g_port g) (g_server g) (g_text g) (g_subject g) (g_html g) (g_errors g) (g_filter g) (g_alt g)))).

  (** sender.py 58-59: __repr__; [show] is str() of an argument. *)
  Variable show : arg -> string.
  Definition repr (s : sender) : string :=
    ("SMTP_sender(email_from=""" ++ show (s_from s) ++ """, password=<HIDDEN>, smtp_server=""" ++ show (s_server s) ++ """, email_to=""" ++ show (s_to s) ++
     """, port=" ++ show (s_port s) ++ ", text_assembler=" ++ show (s_text s) ++ ", subject_assembler=" ++ show (s_subject s) ++ ", alt=" ++ show (s_alt s) ++ ")")%string.

  (** The values of the fields of a record. *)
  Variable V : Type.
  Variable truthy is_none : V -> bool.      (* bool(value); value is None *)
  Variable text_of : V -> Res string.       (* str(value) *)
  (** What an assembler returns: a text or anything else. *)
  Inductive made : Type := MText (s : string) | MOther (id : nat).
  (** The assemblers by their identity, called with the record. *)
  Variable W : Type.                        (* the world of user code *)
  Variable run : nat -> W -> list (string * V) -> W * Res made.
  Variable bad_text : exn.                  (* raised by MIMEText for something that is not a str *)

  Definition callable (a : arg) : option nat := match a with AObj i (Callable _) | AObj i Unreadable => Some i | _ => None end.

  (** sender.py 91-101: get_standart_text. *)
  Fixpoint elements (l : list (string * V)) : Res (list string) :=
    match l with
    | [] => Ok []
    | (k, v) :: r => bindR (text_of v) (fun t => bindR (elements r) (fun e => Ok ((k ++ " = " ++ t)%string :: e)))
    end.
  Definition newline : string := String (ascii_of_nat 10) "".
  Definition get_standart_text (l : list (string * V)) : Res string :=
    bindR (elements l) (fun e =>
    let text := join newline e in
    Ok (if String.eqb text "" then "Empty message from the Polog." else ("Message from the Polog:" ++ newline ++ newline ++ text)%string)).
  (** 112-122: get_standart_subject. *)
  Definition get_standart_subject (l : list (string * V)) : string :=
    match dget String.eqb l "success" with
    | None => "Message from the Polog"
    | Some v => if truthy v then "Success message from the Polog" else if is_none v then "Message from the Polog" else "Error message from the Polog"
    end.
  (** 82-89: get_text; 103-110: get_subject. *)
  Definition get_text (s : sender) (w : W) (l : list (string * V)) : W * Res made :=
    match callable (s_text s) with
    | Some i => run i w l
    | None => (w, bindR (get_standart_text l) (fun t => Ok (MText t)))
    end.
  Definition get_subject (s : sender) (w : W) (l : list (string * V)) : W * Res made :=
    match callable (s_subject s) with
    | Some i => run i w l
    | None => (w, Ok (MText (get_standart_subject l)))
    end.
  (** The letter: the text, is it html, and the three headers. *)
  Record letter : Type := mkLetter { l_text : string; l_html : bool; l_subject : made; l_from : arg; l_to : arg }.
  (** 68-80: get_content.  [if self.is_html] of a bool. *)
  Definition get_content (s : sender) (w : W) (l : list (string * V)) : W * Res letter :=
    let '(w1, t) := get_text s w l in
    match t with
    | Err e => (w1, Err e)
    | Ok (MOther _) => (w1, Err bad_text)
    | Ok (MText text) =>
        let '(w2, h) := get_subject s w1 l in
        match h with
        | Err e => (w2, Err e)
        | Ok h => (w2, Ok (mkLetter text match s_html s with ABool b => b | _ => false end h (s_from s) (s_to s)))
        end
    end.
End Mail.
