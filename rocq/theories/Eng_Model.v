(** Model of the engine and its threads: polog/core/engine/engine.py, real_engines/fabric.py,
    real_engines/singlethreaded/engine.py, real_engines/multithreaded/engine.py, pool.py, worker.py, and the part of
    settings (setting_point.py 50-78, actions/reload_engine.py, settings_store.py 24-63) that takes part in the
    synchronisation.

    An actor is a thread of the program (a list of commands run in order) or a worker thread of some engine instance.
    One move of one actor is one access to shared state: taking or releasing a lock, reading or writing an
    attribute, one operation on a queue (queue.Queue is atomic).  A move that is not possible now (a lock is
    taken, a queue is full, a thread to be joined still runs) leaves the state as it is, so a schedule is
    any list of moves.

    Simplified: the workers of a pool appear in one move together with the assignment of real_engine (nobody else can
    reach the new queue before that); executing a record (LogItem.__call__, which raises nothing, property
    C11) is a start, the records its handlers write themselves ([nested]), and an end; a custom 'engine' setting is
    left out; settings are changed with values of the right type (property C06 treats the others); the exit hook
    counts as registered from the moment started is True (engine.py registers it a few steps later). *)
From Verif Require Import Base.

Notation rec := nat (only parsing).     (* identity of a LogItem *)

(** What an observer can see. *)
Inductive event : Type :=
| EvCall (r : rec)               (* engine.write(r) is called *)
| EvRet (r : rec)                (* ... returns *)
| EvCrash (r : rec)              (* ... raises *)
| EvInit                         (* __second_init__ runs *)
| EvLoad (k : nat)               (* engine instance number k becomes real_engine *)
| EvPut (k : nat) (r : rec)      (* r is handed over to engine instance k *)
| EvStart (k : nat) (r : rec)    (* instance k starts executing r *)
| EvDone (k : nat) (r : rec)     (* ... has executed r *)
| EvStopBegin (k : nat)          (* ThreadPool.stop() of instance k is called *)
| EvStopEnd (k : nat)            (* ... returns *)
| EvReloaded                     (* Engine.reload returns after doing its job *)
| EvHookLock                     (* the exit hook has taken the engine lock *)
| EvHookBlock                    (* the exit hook has made engine.write the blocked one *)
| EvHookEnd                      (* the exit hook is over, in time *)
| EvHookAbort.                   (* the exit hook is cut off by the time limit *)

(** Program counters of engine.write(r). *)
Inductive wpc : Type :=
| W0                              (* about to look up the attribute engine.write *)
| W1                              (* engine.py 59: with self.lock *)
| W2                              (* 60: if not self.settings['started'] *)
| W3a                             (* 49: self.settings['started'] = True; setting_point.py 66: with self.lock *)
| W3b                             (* 67-78: check and store *)
| W3c                             (* 50: self.load() *)
| W3d                             (* 51, 62: atexit_register; self.write = self._new_write *)
| W4                              (* end of the with block *)
| W5                              (* 69: self.real_engine *)
| W6 (k : nat)                    (* 69: .write(log) of instance k *)
| W7                              (* return *)
| B1                              (* 72: with self.lock *)
| B2                              (* 69: self.real_engine *)
| B3 (k : nat)                    (* 69: .write(log) *)
| B4.                             (* end of the with block, return *)
(** One entry of the call stack of an actor: a running write, or a record being executed by engine instance [k] with
    the records its handlers are still going to write. *)
Inductive frame : Type :=
| FWrite (pc : wpc) (r : rec)
| FExec (k : nat) (r : rec) (rest : list rec).

(** ThreadPool.stop (pool.py 26-55) through Engine.stop (engine.py 97-103). *)
Inductive spc : Type :=
| P0                              (* engine.py 102: self.real_engine.stop *)
| PWait (k : nat)                 (* pool.py 52-55 *)
| PFlag (k i : nat)               (* pool.py 38-39, i flags set already *)
| PJoin (k i : nat)               (* pool.py 40-41, i threads joined already *)
| PActive                         (* engine.py 103 *)
| PEnd.

Inductive key : Type := KPool | KQueue.
(** Program counters of a thread between calls of write. *)
Inductive tpc : Type :=
| TNext                           (* next command *)
| S0 (k : key) (v : nat)          (* setting_point.py 66: with self.lock *)
| S1 (k : key) (v : nat)          (* 67-77: checks, conflicts, self.value = value; is_action: old != new *)
| S2                              (* reload_engine.py 12: Engine() -> engine.py 34: with self.lock *)
| S3                              (* end of that with block *)
| S4                              (* engine.py 82: if self.settings['started'] *)
| S5                              (* 110: self.lock.acquire() *)
| S6                              (* 111: self.write = self._blocked_write *)
| S7 (p : spc)                    (* 84: self.stop() *)
| S8                              (* 85: self.load() *)
| S9                              (* 117: self.write = self._new_write *)
| S10                             (* 118: self.lock.release() *)
| S11                             (* setting_point.py: end of the with block *)
| T0                              (* config.set(started=True): setting_point.py 66 *)
| T1                              (* 67-78 *)
| H1                              (* engine.py 138, 110: self.lock.acquire() in the exit hook *)
| H2                              (* 111 *)
| H3 (p : spc).                   (* 139: self.stop() *)

Inductive cmd : Type :=
| CWrite (r : rec)                (* engine.write(r) *)
| CSet (k : key) (v : nat)        (* config.set(pool_size=v) or config.set(max_queue_size=v) *)
| CStarted                        (* config.set(started=True) *)
| CHook.                          (* the exit hook *)

(** worker.py 16-38. *)
Inductive kpc : Type :=
| KGet                            (* 27: self.queue.get(timeout=...) *)
| KCheck                          (* 30: if self.stopped *)
| KBusy                           (* 35-36 *)
| KExit.                          (* the thread is over *)

Inductive base : Type :=
| BThread (cs : list cmd) (pc : tpc)
| BWorker (k j : nat) (pc : kpc).
Record act : Type := mkAct { abase : base; astack : list frame }.

(** An engine instance: MultiThreadedRealEngine with its pool ([e_multi]) or SingleThreadedRealEngine. *)
Record eng : Type := mkEng {
  e_multi : bool; e_max : nat; e_queue : list rec; e_first : nat; e_count : nat; e_flags : list bool }.

Inductive mode : Type := MFirst | MNew | MBlocked.   (* which method engine.write is *)

(** Shared state.  [leaked] is only for reasoning: the exit hook has taken the engine lock (it never gives it back). *)
Record shared : Type := mkSh {
  engs : list eng; cur : option nat; elock : bool; slock : bool; started : bool; wmode : mode;
  psize : nat; qmax : nat; active : bool; serial : nat; leaked : bool; trace : list event }.
Record state : Type := mkState { actors : list act; sh : shared }.

Fixpoint upd {A} (l : list A) (i : nat) (x : A) : list A :=
  match l, i with
  | [], _ => []
  | _ :: r, 0 => x :: r
  | y :: r, S j => y :: upd r j x
  end.

Definition emit (g : shared) (es : list event) : shared :=
  mkSh (engs g) (cur g) (elock g) (slock g) (started g) (wmode g) (psize g) (qmax g) (active g) (serial g) (leaked g) (trace g ++ es).
Definition set_elock (g : shared) (b : bool) : shared :=
  mkSh (engs g) (cur g) b (slock g) (started g) (wmode g) (psize g) (qmax g) (active g) (serial g) (leaked g) (trace g).
Definition set_slock (g : shared) (b : bool) : shared :=
  mkSh (engs g) (cur g) (elock g) b (started g) (wmode g) (psize g) (qmax g) (active g) (serial g) (leaked g) (trace g).
Definition set_started (g : shared) : shared :=
  mkSh (engs g) (cur g) (elock g) (slock g) true (wmode g) (psize g) (qmax g) (active g) (serial g) (leaked g) (trace g).
Definition set_mode (g : shared) (m : mode) : shared :=
  mkSh (engs g) (cur g) (elock g) (slock g) (started g) m (psize g) (qmax g) (active g) (serial g) (leaked g) (trace g).
Definition set_sizes (g : shared) (p q : nat) : shared :=
  mkSh (engs g) (cur g) (elock g) (slock g) (started g) (wmode g) p q (active g) (serial g) (leaked g) (trace g).
Definition set_active (g : shared) (b : bool) : shared :=
  mkSh (engs g) (cur g) (elock g) (slock g) (started g) (wmode g) (psize g) (qmax g) b (serial g) (leaked g) (trace g).
Definition set_leaked (g : shared) : shared :=
  mkSh (engs g) (cur g) (elock g) (slock g) (started g) (wmode g) (psize g) (qmax g) (active g) (serial g) true (trace g).
Definition set_eng (g : shared) (k : nat) (e : eng) : shared :=
  mkSh (upd (engs g) k e) (cur g) (elock g) (slock g) (started g) (wmode g) (psize g) (qmax g) (active g) (serial g) (leaked g) (trace g).
Definition set_queue (e : eng) (q : list rec) : eng := mkEng (e_multi e) (e_max e) q (e_first e) (e_count e) (e_flags e).
Definition set_flags (e : eng) (f : list bool) : eng := mkEng (e_multi e) (e_max e) (e_queue e) (e_first e) (e_count e) f.

(** fabric.py 5-13, pool.py 15-18, 57-65: a new engine by the current settings; [n]: number of actors so far. *)
Definition new_eng (g : shared) (n : nat) : eng :=
  mkEng (negb (Nat.eqb (psize g) 0)) (if Nat.eqb (psize g) 0 then 0 else qmax g) [] n (psize g) (repeat false (psize g)).
Definition new_workers (g : shared) : list act :=
  map (fun j => mkAct (BWorker (length (engs g)) j KGet) []) (seq 0 (psize g)).
(** engine.py 88-95: load. *)
Definition load (g : shared) (n : nat) : shared :=
  mkSh (engs g ++ [new_eng g n]) (Some (length (engs g))) (elock g) (slock g) (started g) (wmode g) (psize g) (qmax g)
       true (S (serial g)) (leaked g) (trace g ++ [EvLoad (length (engs g))]).

(** Queue.put of a queue with bound [e_max] (0: no bound). *)
Definition room (e : eng) : bool := Nat.eqb (e_max e) 0 || Nat.ltb (length (e_queue e)) (e_max e).

Section Engine.
  (** The records a record's handlers write. *)
  Variable nested : rec -> list rec.

  (** real_engine.write(r) of instance [k]: for a pool, put; for the synchronous engine, start executing.  [ret]: what
      remains of the caller's frame. *)
  Definition hand_over (g : shared) (k : nat) (r : rec) (ret : list frame) : option (shared * list frame) :=
    match nth_error (engs g) k with
    | None => None
    | Some e =>
        if e_multi e then
          if room e then Some (emit (set_eng g k (set_queue e (e_queue e ++ [r]))) [EvPut k r], ret) else None
        else Some (emit g [EvPut k r; EvStart k r], FExec k r (nested r) :: ret)
    end.

  (** One move of the topmost frame: the new shared state, what the frame is replaced by, new actors. *)
  Definition fstep (n : nat) (f : frame) (g : shared) : option (shared * list frame * list act) :=
    match f with
    | FWrite W0 r => Some (g, [FWrite (match wmode g with MFirst => W1 | MNew => W5 | MBlocked => B1 end) r], [])
    | FWrite W1 r => if elock g then None else Some (set_elock g true, [FWrite W2 r], [])
    | FWrite W2 r => Some (g, [FWrite (if started g then W4 else W3a) r], [])
    | FWrite W3a r => if slock g then None else Some (set_slock g true, [FWrite W3b r], [])
    | FWrite W3b r =>
        if started g then Some (emit (set_elock (set_slock g false) false) [EvCrash r], [], [])
        else Some (emit (set_started (set_slock g false)) [EvInit], [FWrite W3c r], [])
    | FWrite W3c r => Some (load g n, [FWrite W3d r], new_workers g)
    | FWrite W3d r => Some (set_mode g MNew, [FWrite W4 r], [])
    | FWrite W4 r => Some (set_elock g false, [FWrite W5 r], [])
    | FWrite W5 r => match cur g with Some k => Some (g, [FWrite (W6 k) r], []) | None => Some (emit g [EvCrash r], [], []) end
    | FWrite (W6 k) r => match hand_over g k r [FWrite W7 r] with Some (g', fs) => Some (g', fs, []) | None => None end
    | FWrite W7 r => Some (emit g [EvRet r], [], [])
    | FWrite B1 r => if elock g then None else Some (set_elock g true, [FWrite B2 r], [])
    | FWrite B2 r =>
        match cur g with
        | Some k => Some (g, [FWrite (B3 k) r], [])
        | None => Some (emit (set_elock g false) [EvCrash r], [], [])
        end
    | FWrite (B3 k) r => match hand_over g k r [FWrite B4 r] with Some (g', fs) => Some (g', fs, []) | None => None end
    | FWrite B4 r => Some (emit (set_elock g false) [EvRet r], [], [])
    | FExec k r (x :: rest) => Some (emit g [EvCall x], [FWrite W0 x; FExec k r rest], [])
    | FExec k r [] => Some (emit g [EvDone k r], [], [])
    end.

  (** Engine.stop; [exited i]: the thread of actor i is over. *)
  Definition pstep (exited : nat -> bool) (p : spc) (g : shared) : option (shared * spc) :=
    match p with
    | P0 => match cur g with
            | None => Some (g, PEnd)                                     (* AttributeError, escaped *)
            | Some k => match nth_error (engs g) k with
                        | None => Some (g, PEnd)
                        | Some e => if e_multi e then Some (emit g [EvStopBegin k], PWait k)
                                    else Some (g, PEnd)                  (* NotImplementedError, escaped *)
                        end
            end
    | PWait k => match nth_error (engs g) k with
                 | Some e => match e_queue e with [] => Some (g, PFlag k 0) | _ :: _ => None end
                 | None => None
                 end
    | PFlag k i => match nth_error (engs g) k with
                   | Some e => if Nat.ltb i (e_count e) then Some (set_eng g k (set_flags e (upd (e_flags e) i true)), PFlag k (S i))
                               else Some (g, PJoin k 0)
                   | None => None
                   end
    | PJoin k i => match nth_error (engs g) k with
                   | Some e => if Nat.ltb i (e_count e) then if exited (e_first e + i) then Some (g, PJoin k (S i)) else None
                               else Some (emit g [EvStopEnd k], PActive)
                   | None => None
                   end
    | PActive => Some (set_active g false, PEnd)
    | PEnd => None
    end.

  Definition value_of (g : shared) (k : key) : nat := match k with KPool => psize g | KQueue => qmax g end.
  Definition store (g : shared) (k : key) (v : nat) : shared :=
    match k with KPool => set_sizes g v (qmax g) | KQueue => set_sizes g (psize g) v end.
  (** settings_store.py: the conflicts of pool_size and max_queue_size. *)
  Definition conflict (g : shared) (k : key) (v : nat) : bool :=
    match k with
    | KPool => Nat.eqb v 0 && negb (Nat.eqb (qmax g) 0)
    | KQueue => negb (Nat.eqb v 0) && Nat.eqb (psize g) 0
    end.

  (** A thread outside of write. *)
  Definition tstep (exited : nat -> bool) (n : nat) (cs : list cmd) (pc : tpc) (g : shared) : option (act * shared * list act) :=
    let go pc' g' := Some (mkAct (BThread cs pc') [], g', []) in
    match pc with
    | TNext =>
        match cs with
        | [] => None
        | CWrite r :: cs' => Some (mkAct (BThread cs' TNext) [FWrite W0 r], emit g [EvCall r], [])
        | CSet k v :: cs' => Some (mkAct (BThread cs' (S0 k v)) [], g, [])
        | CStarted :: cs' => Some (mkAct (BThread cs' T0) [], g, [])
        | CHook :: cs' => Some (mkAct (BThread cs' (if started g then H1 else TNext)) [], g, [])
        end
    | S0 k v => if slock g then None else go (S1 k v) (set_slock g true)
    | S1 k v => if conflict g k v then go S11 g
                else if Nat.eqb (value_of g k) v then go S11 g else go S2 (store g k v)
    | S2 => if elock g then None else go S3 (set_elock g true)
    | S3 => go S4 (set_elock g false)
    | S4 => go (if started g then S5 else S11) g
    | S5 => if elock g then None else go S6 (set_elock g true)
    | S6 => go (S7 P0) (set_mode g MBlocked)
    | S7 PEnd => go S8 g
    | S7 p => match pstep exited p g with Some (g', p') => go (S7 p') g' | None => None end
    | S8 => Some (mkAct (BThread cs S9) [], load g n, new_workers g)
    | S9 => go S10 (set_mode g MNew)
    | S10 => go S11 (emit (set_elock g false) [EvReloaded])
    | S11 => go TNext (set_slock g false)
    | T0 => if slock g then None else go T1 (set_slock g true)
    | T1 => go TNext (set_slock (set_started g) false)             (* if it was True already: DoubleSettingError, nothing stored *)
    | H1 => if elock g then None else go H2 (emit (set_leaked (set_elock g true)) [EvHookLock])
    | H2 => go (H3 P0) (emit (set_mode g MBlocked) [EvHookBlock])
    | H3 PEnd => go TNext (emit g [EvHookEnd])
    | H3 p => match pstep exited p g with Some (g', p') => go (H3 p') g' | None => None end
    end.

  (** A worker between executions. *)
  Definition kstep (k j : nat) (pc : kpc) (g : shared) : option (act * shared * list act) :=
    match nth_error (engs g) k with
    | None => None
    | Some e =>
        match pc with
        | KGet =>
            match e_queue e with
            | r :: q => Some (mkAct (BWorker k j KBusy) [FExec k r (nested r)], emit (set_eng g k (set_queue e q)) [EvStart k r], [])
            | [] => Some (mkAct (BWorker k j KCheck) [], g, [])
            end
        | KCheck => Some (mkAct (BWorker k j (if nth j (e_flags e) false then KExit else KGet)) [], g, [])
        | KBusy => Some (mkAct (BWorker k j KGet) [], g, [])
        | KExit => None
        end
    end.

  Definition lstep (exited : nat -> bool) (n : nat) (x : act) (g : shared) : option (act * shared * list act) :=
    match astack x with
    | f :: below => match fstep n f g with
                    | Some (g', fs, new) => Some (mkAct (abase x) (fs ++ below), g', new)
                    | None => None
                    end
    | [] => match abase x with
            | BThread cs pc => tstep exited n cs pc g
            | BWorker k j pc => kstep k j pc g
            end
    end.

  Definition is_exited (l : list act) (i : nat) : bool :=
    match nth_error l i with Some (mkAct (BWorker _ _ KExit) _) => true | _ => false end.

  Definition step (a : nat) (s : state) : option state :=
    match nth_error (actors s) a with
    | None => None
    | Some x => match lstep (is_exited (actors s)) (length (actors s)) x (sh s) with
                | None => None
                | Some (x', g', new) => Some (mkState (upd (actors s) a x' ++ new) g')
                end
    end.

  (** time_limit.py: the exit hook is interrupted, wherever it is. *)
  Definition abort (a : nat) (s : state) : option state :=
    match nth_error (actors s) a with
    | Some (mkAct (BThread cs H1) st) | Some (mkAct (BThread cs H2) st) | Some (mkAct (BThread cs (H3 _)) st) =>
        Some (mkState (upd (actors s) a (mkAct (BThread cs TNext) st)) (emit (sh s) [EvHookAbort]))
    | _ => None
    end.

  Inductive move : Type := Go (a : nat) | Abort (a : nat).
  Definition do_move (s : state) (m : move) : state :=
    match (match m with Go a => step a s | Abort a => abort a s end) with Some s' => s' | None => s end.
  Definition run (ms : list move) (s : state) : state := fold_left do_move ms s.

  (** The program is loaded: nothing written yet, settings [p] and [q] as configured so far. *)
  Definition init (progs : list (list cmd)) (p q : nat) : state :=
    mkState (map (fun cs => mkAct (BThread cs TNext) []) progs)
            (mkSh [] None false false false MFirst p q false 0 false []).

  Definition reachable (progs : list (list cmd)) (p q : nat) (s : state) : Prop := exists ms, s = run ms (init progs p q).
End Engine.
