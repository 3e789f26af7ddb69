(** Model of polog/core/stores/settings/actions/integration_with_logging.py together with the part of the standard module logging it hangs on:
    Logger.handle and Filterer.filter / addFilter / removeFilter. The record is passed on to simple_handle_log = BaseLogger(all_fields_allowed=True),
    modelled in Handle_Model.v. *)
From Verif Require Import Base Handle_Model.
Local Open Scope string_scope.
Local Open Scope list_scope.

(** record.exc_info: None; something false that is not None (exc_info=False); (None, None, None), which logging stores for exc_info=True outside of
    an except block; a real exception: its class name, str() and the dumped traceback (these call user code and may raise). *)
Inductive excinfo : Type := NoExc | FalseExc | EmptyExc | Exc (name : string) (text trace : Res string).
(** A logging.LogRecord. *)
Record lrec : Type := mkL {
  created : val;                     (* datetime.fromtimestamp(record.created) *)
  msg : option (Res string);         (* None: record.msg is false; else record.getMessage(), which raises if the arguments do not fit *)
  levelno : Z;
  lmodule : string; lineno : Z; funcName : string; pathname : string;
  exc_info : excinfo;
  thread_text : string; process_text : string }.

Section Integration.
  (** str.isidentifier *)
  Variable isident : string -> bool.

  (** integration_with_logging.py 17-39: the keyword arguments for simple_handle_log. *)
  Definition copy (r : lrec) : Res fields :=
    bindR (match msg r with None => Ok [] | Some (Ok s) => Ok [("message", VStr s)] | Some (Err e) => Err e end) (fun m =>
    bindR (match exc_info r with
           | NoExc => Ok []
           | FalseExc => Err ETypeError                      (* False[0] *)
           | EmptyExc => Err EAttributeError                 (* None.__name__ *)
           | Exc n t b => bindR b (fun b => bindR t (fun t => Ok [("exception_type", VStr n); ("traceback", VStr b); ("exception_message", VStr t)]))
           end) (fun x =>
    Ok ([("time", created r)] ++ m ++
        [("level", VInt (levelno r)); ("success", VBool (negb (30 <=? levelno r)%Z)); ("module", VStr (lmodule r)); ("line_number", VInt (lineno r))] ++
        (if isident (funcName r) then [("function", VStr (funcName r))] else []) ++ [("path_to_code", VStr (pathname r))] ++ x ++
        [("thread", VStr (thread_text r)); ("process", VStr (process_text r)); ("from_logging", VBool true)]))).

  (** 8-42: what the filter does: the record written by Polog, if any, and the answer. *)
  Definition polog_filter (c : cfg) (w : env) (unlogged logging_off : bool) (r : lrec) : Res (option fields * bool) :=
    bindR (copy r) (fun d => bindR (handle c w true unlogged [] d) (fun o => Ok (o, negb logging_off))).

  (** The filters of the root logger: Polog's, and others (numbered; what they say about the record is [says]). *)
  Inductive filt : Type := PologF | OtherF (n : nat).
  Definition filt_eqb (a b : filt) : bool := match a, b with PologF, PologF => true | OtherF n, OtherF m => Nat.eqb n m | _, _ => false end.
  (** logging/__init__.py, Filterer.addFilter and removeFilter *)
  Definition add_filter (l : list filt) (f : filt) : list filt := if existsb (filt_eqb f) l then l else l ++ [f].
  Fixpoint remove_first (l : list filt) (f : filt) : list filt := match l with [] => [] | x :: r => if filt_eqb f x then r else x :: remove_first r f end.
  Definition remove_filter (l : list filt) (f : filt) : list filt := if existsb (filt_eqb f) l then remove_first l f else l.
  (** 44-55 *)
  Definition action (l : list filt) (new_value : bool) : list filt := if new_value then add_filter l PologF else remove_filter l PologF.

  (** Filterer.filter: in order, up to the first one that says no. The result: Polog's records, and whether the record goes on to the
      handlers of logging. An exception goes to whoever called logging. *)
  Fixpoint run_filters (c : cfg) (w : env) (unlogged off : bool) (says : nat -> bool) (r : lrec) (l : list filt) : list fields * Res bool :=
    match l with
    | [] => ([], Ok true)
    | OtherF n :: q => if says n then run_filters c w unlogged off says r q else ([], Ok false)
    | PologF :: q =>
        match polog_filter c w unlogged off r with
        | Err e => ([], Err e)
        | Ok (o, b) =>
            let own := match o with Some f => [f] | None => [] end in
            if b then let (l2, res) := run_filters c w unlogged off says r q in (own ++ l2, res) else (own, Ok false)
        end
    end.
  (** Logger.handle: a logger asks only its own filters; records of other loggers reach root's handlers by callHandlers, not its filters.
      [on_root]: the record was made by the root logger; [own]: the filters of the other logger. *)
  Definition emit (c : cfg) (w : env) (unlogged off : bool) (says : nat -> bool) (root own : list filt) (on_root : bool) (r : lrec) : list fields * Res bool :=
    run_filters c w unlogged off says r (if on_root then root else own).
End Integration.
