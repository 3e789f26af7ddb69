(** Model of polog/core/utils/time_limit.py: a limit of time by a timer thread that interrupts the main thread.
    The wrapped function runs in the main thread.  Time itself is not modelled: a timer that waits may go off at any moment. *)
From Coq Require Import ZArith.
From Verif Require Import Base Sig_Model.
Local Open Scope list_scope.

(** Exceptions: KeyboardInterrupt, the TimeoutError of the wrapper, anything else. *)
Inductive exc : Type := XInterrupt | XTimeout | XOther (n : nat).
Section Limit.
  Variable V : Type.
  Inductive outcome : Type := Ret (v : V) | Raise (x : exc).
  (** The wrapped function: a number of steps; before each one the interpreter looks for a pending interrupt, and if there is one the
      function goes on as [hit] (it may catch KeyboardInterrupt), otherwise as [next]. *)
  Inductive body : Type := Done (o : outcome) | Work (next hit : body).

  (** The timer: not started; waiting; past its last check of 'cancelled', about to interrupt (threading.Timer.run); over or cancelled. *)
  Inductive timer : Type := TNew | TWaiting | TCalling | TOver.
  (** Where the main thread is (time_limit.py 40-55): in the call of the delay function (41); running the function without a limit (45); before
      timer.start() (50); in the function (51); at its end, still inside of try; in the except block (53); before timer.cancel() (55);
      after it; outside, with the outcome that the caller sees. *)
  Inductive pc : Type := PDelay | PFree (b : body) | PStart | PBody (b : body) | PReturn (v : V) | PExcept | PFinally (o : outcome) | PAfter (o : outcome) | POut (o : outcome).
  Record st : Type := mkSt { at_ : pc; tm : timer; pending : bool }.
  Inductive label : Type := Main | TimerCheck | TimerCall | CtrlC.
  (** What a step of the main thread did: received an interrupt there, or not. *)
  Definition ev : Type := option pc.

  Section Wrapper.
    Variable limited : bool.        (* did the delay function give a number greater than zero *)
    Variable b0 : body.             (* the function *)

    (** The main thread goes on without an interrupt. *)
    Definition advance (p : pc) (t : timer) : pc * timer :=
      match p with
      | PDelay => (if limited then PStart else PFree b0, t)
      | PFree (Done o) => (POut o, t)
      | PFree (Work n _) => (PFree n, t)
      | PStart => (PBody b0, TWaiting)
      | PBody (Work n _) => (PBody n, t)
      | PBody (Done (Ret v)) => (PReturn v, t)
      | PBody (Done (Raise XInterrupt)) => (PExcept, t)
      | PBody (Done (Raise x)) => (PFinally (Raise x), t)
      | PReturn v => (PFinally (Ret v), t)
      | PExcept => (PFinally (Raise XTimeout), t)
      | PFinally o => (PAfter o, match t with TCalling => TCalling | _ => TOver end)      (* too late for a timer past its check *)
      | PAfter o => (POut o, t)
      | POut o => (POut o, t)
      end.
    (** KeyboardInterrupt appears in the main thread at [p]. *)
    Definition interrupted (p : pc) : pc :=
      match p with
      | PDelay => POut (Raise XInterrupt)                       (* 44: except Exception does not catch it *)
      | PFree (Work _ h) => PFree h
      | PFree (Done _) => POut (Raise XInterrupt)
      | PStart | PReturn _ => PExcept
      | PBody (Work _ h) => PBody h
      | PBody (Done _) => PExcept
      | PExcept => PFinally (Raise XInterrupt)
      | PFinally _ | PAfter _ | POut _ => POut (Raise XInterrupt)
      end.
    Definition step (s : st) (l : label) : option (st * list ev) :=
      match l with
      | Main => match at_ s with
                | POut _ => None
                | p => if pending s then Some (mkSt (interrupted p) (tm s) false, [Some p])
                       else let '(q, t) := advance p (tm s) in Some (mkSt q t false, [None])
                end
      | TimerCheck => match tm s with TWaiting => Some (mkSt (at_ s) TCalling (pending s), []) | _ => None end
      | TimerCall => match tm s with TCalling => Some (mkSt (at_ s) TOver true, []) | _ => None end
      | CtrlC => Some (mkSt (at_ s) (tm s) true, [])
      end.
    Fixpoint run (s : st) (l : list label) : option (st * list ev) :=
      match l with
      | [] => Some (s, [])
      | x :: r => match step s x with
                  | None => None
                  | Some (s1, e1) => match run s1 r with None => None | Some (s2, e2) => Some (s2, e1 ++ e2) end
                  end
      end.
    Definition start : st := mkSt PDelay TNew false.
  End Wrapper.
End Limit.

(** time_limit.py 58-77: the argument of the decorator; numbers as integers of some small unit of time, or NaN; bools are numbers. *)
Inductive num : Type := Num (z : Z) | NaN.
Inductive delay_arg : Type := DNum (n : num) | DObj (o : obj).
Section Delay.
  Variable isident : string -> bool.
  (** Is the argument accepted: a callable without parameters, or a number greater than zero. *)
  Definition accepted (d : delay_arg) : Res unit :=
    match d with
    | DObj (Callable ps) => bindR (match_ (init isident []) (Callable ps)) (fun b => if b then Ok tt else Err EValueError)
    | DObj Unreadable => Err EValueError
    | DObj NotCallable => Err EValueError
    | DNum (Num z) => if Z.ltb 0 z then Ok tt else Err EValueError
    | DNum NaN => Err EValueError
    end.
  (** 40-45: is there a limit: what the delay function gave is a number, and not (delay <= 0). *)
  Definition gives_limit (r : Res delay_arg) : bool :=
    match r with
    | Ok (DNum (Num z)) => negb (Z.leb z 0)
    | Ok (DNum NaN) => true
    | _ => false
    end.
End Delay.
