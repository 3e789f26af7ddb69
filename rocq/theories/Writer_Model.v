(** Model of the construction of the file handler: polog/handlers/file/writer.py 18-32 and 67-82, file_dependency_wrapper.py 14-64,
    locks/double_lock.py 14-18 and 61-76, locks/file_lock.py 14-25; what it does to the files.  The reading of the rotation command and of
    lock_type is Rot_Model, the writing of records File_Model.  Not modelled: other classes passed as file_wrapper, base_formatter or
    rotator; an attribute of a file object that cannot be read. *)
From Coq Require Import ZArith.
From Verif Require Import Base Text Sig_Model Rot_Model.
From Verif Require Mail_Model.
Local Open Scope string_scope.
Local Open Scope list_scope.

(** An argument with a check (Mail_Model): None, str, bool, int or an object with a signature. *)
Notation arg := Mail_Model.arg.
(** A file argument: a string, or an object by number with its attributes read, write, close; anything else is an object without them. *)
Inductive meth : Type := Missing | Uncallable | Good.
Inductive farg : Type := FName (s : string) | FObj (id : nat) (read write close : meth).

(** The files by name, with their text. *)
Definition files : Type := list (string * string).

Section Writer.
  Variable isident : string -> bool.            (* str.isidentifier *)
  Variable sp : ascii -> bool.                  (* str.isspace *)
  Variable int_of : string -> option Z.         (* int(text) *)
  Variable cannot : string -> option exn.       (* the error of open() for this name, if the system refuses it *)

  (** base.py 17-21 and writer.py 18-23: the checks. *)
  Definition none_or_str (a : arg) : bool := match a with Mail_Model.ANone => true | _ => Mail_Model.is_str a end.
  Definition proves : list (string * (arg -> Res bool)) :=
    [("only_errors", fun a => Ok (Mail_Model.is_bool a)); ("filter", Mail_Model.none_or_handler isident); ("alt", Mail_Model.none_or_handler isident);
     ("forced_flush", fun a => Ok (Mail_Model.is_bool a)); ("separator", fun a => Ok (Mail_Model.is_str a));
     ("formatter", Mail_Model.none_or_handler isident); ("rotation", fun a => Ok (none_or_str a))].
  (** base.py 92-107: do_input_proves. *)
  Fixpoint do_input_proves (kw : list (string * arg)) : Res unit :=
    match kw with
    | [] => Ok tt
    | (k, a) :: r =>
        match dget String.eqb proves k with
        | None => do_input_proves r
        | Some prove => bindR (prove a) (fun b => if b then do_input_proves r else Err EValueError)
        end
    end.

  (** open(name, 'a') and open(name, 'w'). *)
  Definition open_a (fs : files) (n : string) : files * Res unit :=
    match cannot n with
    | Some e => (fs, Err e)
    | None => (if dmem String.eqb fs n then fs else dset String.eqb fs n "", Ok tt)
    end.
  Definition open_w (fs : files) (n : string) : files * Res unit :=
    match cannot n with
    | Some e => (fs, Err e)
    | None => (dset String.eqb fs n "", Ok tt)
    end.

  (** file_dependency_wrapper.py 27-44: is_file_object; 46-64: get_file_object. *)
  Definition is_file_object (f : farg) : bool :=
    match f with FObj _ Good Good Good => true | _ => false end.
  Inductive target : Type := TStdout | TObj (id : nat) | TName (s : string).
  Definition get_file_object (fs : files) (l : list farg) : files * Res target :=
    match l with
    | [] => (fs, Ok TStdout)
    | [f] =>
        if is_file_object f then (fs, Ok match f with FObj i _ _ _ => TObj i | FName s => TName s end)
        else match f with
             | FName s => match open_a fs s with (fs1, Ok _) => (fs1, Ok (TName s)) | (fs1, Err e) => (fs1, Err e) end
             | FObj _ _ _ _ => (fs, Err EValueError)
             end
    | _ => (fs, Err EValueError)
    end.
  (** 24: self.filename. *)
  Definition filename (t : target) : option string := match t with TName s => Some s | _ => None end.

  (** double_lock.py 14-18, 61-76 and file_lock.py 21-25: (the thread lock is on, the name of the lock file). *)
  Definition double_lock (fs : files) (name : option string) (a : lock_arg) : files * Res (bool * option string) :=
    match get_lock_types sp a with
    | Err e => (fs, Err e)
    | Ok types =>
        let thread := existsb (String.eqb "thread") types in
        let name := if existsb (String.eqb "file") types then name else None in
        match name with
        | None | Some "" => (fs, Ok (thread, None))
        | Some n => let lock := (n ++ ".lock")%string in
                    match open_w fs lock with
                    | (fs1, Ok _) => (fs1, Ok (thread, Some lock))
                    | (fs1, Err e) => (fs1, Err e)
                    end
        end
    end.

  (** writer.py 25: the arguments, with the defaults filled in. *)
  Record given : Type := mkGiven { g_files : list farg; g_formatter : arg; g_rotation : arg; g_flush : arg; g_separator : arg;
                                   g_errors : arg; g_filter : arg; g_alt : arg; g_lock : lock_arg }.
  Definition defaults : given :=
    mkGiven [] Mail_Model.ANone Mail_Model.ANone (Mail_Model.ABool true) (Mail_Model.AStr (String (ascii_of_nat 10) "")) (Mail_Model.ABool false)
            Mail_Model.ANone Mail_Model.ANone (LStr "thread").
  (** writer.py 28-32: the object. *)
  Inductive formatter : Type := FUser (id : nat) | FBase (separator : arg).
  Record writer : Type := mkWriter { w_target : target; w_thread_lock : bool; w_lock_file : option string; w_flush : arg; w_formatter : formatter;
                                     w_limits : list Z; w_to : string; w_errors : arg; w_filter : arg; w_alt : arg }.

  (** 67-76: get_formatter. *)
  Definition get_formatter (g : given) : formatter :=
    match Mail_Model.callable (g_formatter g) with Some i => FUser i | None => FBase (g_separator g) end.
  (** 25-32: __init__; the rotation command as Rotator takes it. *)
  Definition source (a : arg) : option string := match a with Mail_Model.AStr s => Some s | _ => None end.
  Definition make (fs : files) (g : given) : files * Res writer :=
    match do_input_proves [("only_errors", g_errors g); ("filter", g_filter g); ("alt", g_alt g)] with
    | Err e => (fs, Err e)
    | Ok _ =>
    match do_input_proves [("forced_flush", g_flush g); ("separator", g_separator g); ("formatter", g_formatter g); ("rotation", g_rotation g)] with
    | Err e => (fs, Err e)
    | Ok _ =>
    match get_file_object fs (g_files g) with
    | (fs1, Err e) => (fs1, Err e)
    | (fs1, Ok t) =>
    match double_lock fs1 (filename t) (g_lock g) with
    | (fs2, Err e) => (fs2, Err e)
    | (fs2, Ok (thread, lock)) =>
    match rotator_init sp int_of (source (g_rotation g)) (match filename t with Some _ => true | None => false end) with
    | Err e => (fs2, Err e)
    | Ok (limits, to) =>
        (fs2, Ok (mkWriter t thread lock (g_flush g) (get_formatter g) limits to (g_errors g) (g_filter g) (g_alt g)))
    end end end end end.
End Writer.
