(** Model of polog/core/utils/get_traceback.py and cut_traceback.py, and of their use on an exception that passes through functions with and
    without logging.  A traceback is the list of its frames, the outermost first (tb_next is the tail); Python puts a frame in front when
    the exception comes to it, and does not when a bare raise sends it on. *)
From Verif Require Import Base.
Local Open Scope string_scope.
Local Open Scope list_scope.

Section Trace.
  Variable F : Type.                               (* frames *)
  Variable format_tb : list F -> Res (list string). (* traceback.format_tb *)
  Variable dumps : list string -> Res string.      (* json_module.dumps *)
  Variable dump_vars : F -> Res (option string).   (* json_vars( **frame.f_locals); None if there are no variables *)

  (** get_traceback.py 10-22; [tb]: sys.exc_info()[2], the empty list if nothing is being handled (format_tb(None) gives []). *)
  Definition get_traceback (cut : nat) (tb : list F) : Res string :=
    match bindR (format_tb tb) (fun l => dumps (skipn cut l)) with
    | Ok j => Ok j
    | Err _ => dumps []
    end.
  (** 24-37: the frame after the first one; if there is none, the first. *)
  Definition get_locals (tb : list F) : option string :=
    match tb with
    | [] => Some ""                                 (* AttributeError on None *)
    | [f] | _ :: f :: _ => match dump_vars f with Ok r => r | Err _ => Some "" end
    end.
  (** cut_traceback.py 6-12; [cuts]: the setting traceback_cutting is on and _testcapi exists. *)
  Definition cut_traceback (cuts : bool) (tb : list F) : list F := if cuts then tl tb else tb.

  (** What the exception passes, from the inside to the outside: a function; a function with the decorator, whose wrapper has the frame
      [w] (function_logger.py 86-102); a function that catches it, calls log(exception=...) and raises it again. *)
  Inductive layer : Type := Plain (f : F) | Logged (f w : F) | Manual (f : F).
  (** What is put into a record (function_logger.py 180-181; abstract.py 192-197, where '' and None are left out). *)
  Record rec : Type := mkRec { r_traceback : Res string; r_locals : option string }.
  Definition cross (cuts : bool) (tb : list F) (l : layer) : list F * list rec :=
    match l with
    | Plain f => (f :: tb, [])
    | Logged f w => let tb1 := w :: f :: tb in
                    (cut_traceback cuts tb1, [mkRec (get_traceback 1 tb1) (get_locals tb1)])
    | Manual f => let tb1 := f :: tb in
                  (tb1, [mkRec (get_traceback 0 tb1) (match get_locals tb1 with Some t => if String.eqb t "" then None else Some t | None => None end)])
    end.
  Fixpoint unwind (cuts : bool) (tb : list F) (ls : list layer) : list F * list rec :=
    match ls with
    | [] => (tb, [])
    | l :: r => let '(tb1, e1) := cross cuts tb l in let '(tb2, e2) := unwind cuts tb1 r in (tb2, e1 ++ e2)
    end.

  (** log(exception=e) anywhere: the traceback is that of the exception being handled, not of [e] (abstract.py 194, get_traceback.py 16). *)
  Definition manual_traceback (e_tb : list F) (handled : option (list F)) : Res string :=
    get_traceback 0 match handled with Some tb => tb | None => [] end.
End Trace.
