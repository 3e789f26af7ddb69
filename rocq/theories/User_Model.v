(** Engines written by the user: config.set(engine=...), polog/core/engine/engine.py 29-139, core/stores/settings/setting_point.py 66-79, 110-125,
    settings_store.py 25-66, 127-133, actions/reload_engine.py, core/utils/exception_escaping.py.
    Eng_Model has the threads and polog's own engines, which never raise; here the engines are anything, and the calls come one after another:
    an operation that waits for a lock nobody will release is [Stuck], and what follows it is done by other threads.
    Simplified: the checks of values (Settings_Model); what an engine does when it is given a record is only to return or to raise;
    started is not set by hand (property C54 has this). *)
From Verif Require Import Base.
Local Open Scope string_scope.
Local Open Scope list_scope.

(** What happens to engines: [v] is the value of the setting engine, [k] the instance, [r] the record. *)
Inductive ev : Type :=
| Made (v k : nat)                 (* v(settings) returned instance k *)
| NotMade (v : nat)                (* v(settings) raised *)
| Wrote (k r : nat)                (* instance k: write(r) returned *)
| Refused (k r : nat) (x : exn)    (* ... raised x *)
| Stop (k : nat)                   (* instance k: stop() returned *)
| StopFailed (k : nat).            (* ... raised *)
(** What a constructor or a stop() does with polog meanwhile: reads a setting, or writes a record. *)
Inductive does : Type := Reads (n : string) | Logs.
(** Engine.write is one of three methods (engine.py 53, 65, 71). *)
Inductive wmode : Type := MFirst | MNew | MBlocked.

(** [slock]: the common lock of pool_size, max_queue_size and started is held; [elock]: that of the engine; [cur]: real_engine. *)
Record world : Type := mkW {
  pool : nat; queue : nat; value : nat; started : bool; slock : bool; elock : bool; mode : wmode; cur : option nat; made : nat; hist : list ev }.
Inductive outcome : Type := Done | Raised (x : exn) | Stuck.
(** [SetSize true]: pool_size, [SetSize false]: max_queue_size; [Exit]: the exit hook. *)
Inductive op : Type := Write (r : nat) | SetSize (which : bool) (n : nat) | SetEngine (v : nat) | Exit.

Definition set_size (w : world) (which : bool) (n : nat) : world :=
  mkW (if which then n else pool w) (if which then queue w else n) (value w) (started w) (slock w) (elock w) (mode w) (cur w) (made w) (hist w).
Definition set_slock (w : world) (b : bool) : world :=
  mkW (pool w) (queue w) (value w) (started w) b (elock w) (mode w) (cur w) (made w) (hist w).
Definition set_gate (w : world) (b : bool) (m : wmode) : world :=
  mkW (pool w) (queue w) (value w) (started w) (slock w) b m (cur w) (made w) (hist w).
Definition set_started (w : world) : world :=
  mkW (pool w) (queue w) (value w) true (slock w) (elock w) (mode w) (cur w) (made w) (hist w).
Definition set_value (w : world) (v : nat) : world :=
  mkW (pool w) (queue w) v (started w) (slock w) (elock w) (mode w) (cur w) (made w) (hist w).
Definition note (w : world) (e : ev) : world :=
  mkW (pool w) (queue w) (value w) (started w) (slock w) (elock w) (mode w) (cur w) (made w) (hist w ++ [e]).
Definition new_engine (w : world) (k : nat) : world :=
  mkW (pool w) (queue w) (value w) (started w) (slock w) (elock w) (mode w) (Some k) (S k) (hist w).

(** settings_store.py 34, 50: read_lock=True. *)
Definition locked_setting (n : string) : bool := String.eqb n "pool_size" || String.eqb n "max_queue_size".

Section User.
  (** The engines, by what happened before: the constructor (what it does, whether it returns), write (what it raises), stop. *)
  Variable mk : list ev -> nat -> list does * bool.
  Variable wr : list ev -> nat -> nat -> option exn.
  Variable st : list ev -> nat -> list does * bool.

  (** setting_point.py 117 (the lock is held by this thread itself); engine.py 59, 72: the same.  Where it is used Engine.write is not the unlocked method. *)
  Definition waits (w : world) (d : does) : bool :=
    match d with Reads n => slock w && locked_setting n | Logs => match mode w with MNew => false | _ => elock w end end.
  (** engine.py 88-95; the second component: the thread never gets further. *)
  Definition load (w : world) : world * bool :=
    let (ds, ok) := mk (hist w) (value w) in
    if existsb (waits w) ds then (w, true)
    else if ok then (note (new_engine w (made w)) (Made (value w) (made w)), false)
    else (note w (NotMade (value w)), false).
  (** 97-103; without real_engine: AttributeError, escaped. *)
  Definition stop (w : world) : world * bool :=
    match cur w with
    | None => (w, false)
    | Some k => let (ds, ok) := st (hist w) k in
                if existsb (waits w) ds then (w, true) else (note w (if ok then Stop k else StopFailed k), false)
    end.
  (** reload_engine.py 11-12: Engine() enters __init__ (engine.py 34); 75-86, 105-118. *)
  Definition reload (w : world) : world * bool :=
    if elock w then (w, true)
    else if started w then
      let (w1, b1) := stop (set_gate w true MBlocked) in
      if b1 then (w1, true)
      else let (w2, b2) := load w1 in
           if b2 then (w2, true) else (set_gate w2 false MNew, false)
    else (w, false).
  (** setting_point.py 66-79 with the conflicts of settings_store.py 30-32, 46-48; is_action (decorator.py 24). *)
  Definition conflict (w : world) (which : bool) (n : nat) : bool :=
    if which then Nat.eqb n 0 && negb (Nat.eqb (queue w) 0) else negb (Nat.eqb n 0) && Nat.eqb (pool w) 0.
  Definition assign (w : world) (which : bool) (n : nat) : world * outcome :=
    if slock w then (w, Stuck)
    else if conflict w which n then (w, Raised EValueError)
    else if Nat.eqb (if which then pool w else queue w) n then (w, Done)
    else let (w1, b) := reload (set_slock (set_size w which n) true) in
         if b then (w1, Stuck) else (set_slock w1 false, Done).
  (** engine.py 65-69. *)
  Definition new_write (w : world) (r : nat) : world * outcome :=
    match cur w with
    | None => (w, Raised EAttributeError)
    | Some k => match wr (hist w) k r with
                | None => (note w (Wrote k r), Done)
                | Some x => (note w (Refused k r x), Raised x)
                end
    end.
  (** 42-63, 65-69, 71-73. *)
  Definition write (w : world) (r : nat) : world * outcome :=
    match mode w with
    | MFirst =>
        if elock w then (w, Stuck)
        else if started w then new_write w r
        else if slock w then (set_gate w true MFirst, Stuck)
        else let (w1, b) := load (set_started (set_gate w true MFirst)) in
             if b then (w1, Stuck) else new_write (set_gate w1 false MNew) r
    | MNew => new_write w r
    | MBlocked => if elock w then (w, Stuck) else new_write w r
    end.
  (** 126-139: registered by the first write, just before line 62. *)
  Definition exit_hook (w : world) : world * outcome :=
    match mode w with
    | MFirst => (w, Done)
    | _ => if elock w then (w, Stuck)
           else let (w1, b) := stop (set_gate w true MBlocked) in (w1, if b then Stuck else Done)
    end.
  Definition step (w : world) (o : op) : world * outcome :=
    match o with
    | Write r => write w r
    | SetSize which n => assign w which n
    | SetEngine v => (set_value w v, Done)
    | Exit => exit_hook w
    end.
  Fixpoint run (w : world) (os : list op) : world * list outcome :=
    match os with [] => (w, []) | o :: r => let (w1, x) := step w o in let (w2, xs) := run w1 r in (w2, x :: xs) end.
End User.
(** The program is loaded: settings_store.py 25-58, 128 (engine 0 is polog's own). *)
Definition fresh : world := mkW 0 0 0 false false false MFirst None 0 [].
