(** Calls of decorated functions, message(), with-blocks and manual records inside one thread (or one task).

    polog/loggers/auto/function_logger.py 43-239, polog/unlog.py 79-110, polog/loggers/handle/message.py,
    polog/loggers/handle/handle_log.py, polog/loggers/finalizer.py, polog/loggers/router.py, polog/loggers/partial.py.

    The user's program is a tree: what it does next depends on what the calls it made returned or raised.  A call of a
    decorated function is the node of its layer around the body of the function; by C22 a function has at most one logging
    layer.  The wrapper of a coroutine function does the same steps around await as the ordinary one, so it is not modelled
    separately (lines 67-83 repeat 89-105).
    Simplified: the engine accepts every record (Eng_Model), the extra fields of a record are those of Item_Model and are
    left out; str() of an exception and the conversion of arguments and results to json are functions of the environment
    that may raise; setting the mark on the exception object never fails; the clock is constant (Clock_Model lets it run). *)
From Verif Require Import Base Handle_Model Supp_Model.
Local Open Scope string_scope.
Local Open Scope list_scope.

Inductive outcome : Type := ORet (v : val) | ORaise (e : eobj).

(** The world. *)
Record cenv : Type := mkCenv {
  ce : env;
  hi : hier;
  jone : val -> Res string;                             (* json_one_variable *)
  jvars : list val -> fields -> Res (option string);    (* json_vars *)
  dur : val;                                            (* finish - start *)
  icls : exn -> nat;                                    (* the classes of the exceptions that polog raises *)
  exc : nat }.                                          (* the class Exception *)

(** The arguments of a logging decorator; [p_fun]: the fields module, function and class of the function
    (function_logger.py 130-166). *)
Record params : Type := mkPar {
  p_msg : option string; p_level : option val; p_elevel : option val;
  p_all : bool; p_supp : list nat; p_fun : fields }.

(** What a record is written by: the end of logged call n, an exception in logged call n, a manual call, a with-block. *)
Inductive kind : Type := KNorm (n : nat) | KExc (n : nat) (e : eobj) | KManual | KBlock (i : nat).

(** The observable events, in the order of time. *)
Inductive ev : Type :=
| EStart (n : nat)                     (* the call number n of a logged function begins *)
| ERec (k : kind) (f : fields)         (* a record is passed to the engine *)
| EEnd (n : nat) (o : outcome)         (* ... the logged call ends *)
| EOff (full : option bool)            (* a call of an unlogged function begins *)
| EOn                                  (* ... ends *)
| EMsg (f : fields)                    (* message() has stored fields *)
| ELost (n : nat).                     (* the arguments of the finished call n could not be converted, its record is lost *)

(** finalizer.py 25-34. *)
Record fin : Type := mkFin { f_args : list val; f_kw : fields; f_data : fields; f_supp : list nat; f_all : bool; f_used : bool; f_entered : bool }.

Record st : Type := mkSt {
  unl : option (option bool);          (* the context variable of unlog *)
  msg : option fields;                 (* the context variable of message *)
  marks : list nat;                    (* the exceptions with the attribute checked_by_polog *)
  cf : cfg;
  fins : list fin;                     (* the LoggerRouteFinalizer objects *)
  rstack : option (list nat);          (* the context variable of the router; last entered first *)
  nexte : nat;                         (* exceptions made by polog so far *)
  ncall : nat;                         (* logged calls so far *)
  tr : list ev }.

Definition set_unl (s : st) (u : option (option bool)) : st := mkSt u (msg s) (marks s) (cf s) (fins s) (rstack s) (nexte s) (ncall s) (tr s).
Definition set_msg (s : st) (m : option fields) : st := mkSt (unl s) m (marks s) (cf s) (fins s) (rstack s) (nexte s) (ncall s) (tr s).
Definition mark (s : st) (e : eobj) : st := mkSt (unl s) (msg s) (e_id e :: marks s) (cf s) (fins s) (rstack s) (nexte s) (ncall s) (tr s).
Definition set_cf (s : st) (c : cfg) : st := mkSt (unl s) (msg s) (marks s) c (fins s) (rstack s) (nexte s) (ncall s) (tr s).
Definition set_fins (s : st) (l : list fin) : st := mkSt (unl s) (msg s) (marks s) (cf s) l (rstack s) (nexte s) (ncall s) (tr s).
Definition set_stack (s : st) (l : option (list nat)) : st := mkSt (unl s) (msg s) (marks s) (cf s) (fins s) l (nexte s) (ncall s) (tr s).
Definition bump_e (s : st) : st := mkSt (unl s) (msg s) (marks s) (cf s) (fins s) (rstack s) (S (nexte s)) (ncall s) (tr s).
Definition bump_c (s : st) : st := mkSt (unl s) (msg s) (marks s) (cf s) (fins s) (rstack s) (nexte s) (S (ncall s)) (tr s).
Definition emit (s : st) (e : ev) : st := mkSt (unl s) (msg s) (marks s) (cf s) (fins s) (rstack s) (nexte s) (ncall s) (tr s ++ [e]).

(** The user's program. *)
Inductive prog : Type :=
| Done (o : outcome)
| Logged (p : params) (a : list val) (kw : fields) (body : prog) (k : outcome -> prog)
| Unlogged (full : option bool) (body : prog) (k : outcome -> prog)
| Plain (h : cfg -> outcome -> outcome) (body : prog) (k : outcome -> prog)   (* an undecorated function that handles exceptions by h *)
| Msg (args : list val) (kw : fields) (k : outcome -> prog)                   (* message(...) *)
| Conf (f : cfg -> cfg) (k : prog)                                            (* config.set, config.levels *)
| New (args : list val) (kw : fields) (k : nat + eobj -> prog)                (* x = log(...) *)
| Drop (i : nat) (k : prog)                                                   (* the last reference to x is gone *)
| Suppress (i : nat) (vs : list val) (k : outcome -> prog)                    (* x.suppress(classes) *)
| Edit (i : nat) (args : list val) (kw : fields) (k : outcome -> prog)        (* x(...) *)
| With (i : nat) (body : prog) (k : outcome -> prog)                          (* with x: body *)
| WithR (kw : fields) (supp : option (list val)) (body : nat -> prog) (k : outcome -> prog).
                                                       (* with log: / with log.level: / with log.suppress(classes): body *)

Section Exec.
  Variable W : cenv.

  (** unlog.py 79-91. *)
  Definition is_off (s : st) : bool :=
    match unl s with
    | None => false
    | Some None => c_full (cf s)
    | Some (Some b) => b
    end.

  (** An exception raised by polog itself: a new object. *)
  Definition raise_ (s : st) (x : exn) : st * outcome := (bump_e s, ORaise (mkE (2 * nexte s + 1) (icls W x) true)).

  Definition put_opt (f : fields) (k : string) (v : option string) : fields := match v with Some x => fset f k (VStr x) | None => f end.

  (** dict.update; message.py 37-49. *)
  Fixpoint update (f new : fields) : fields := match new with [] => f | (k, v) :: r => update (fset f k v) r end.

  (** function_logger.py 121-133, 90-93. *)
  Definition base (p : params) : fields := fset (update (put_opt [("auto", VBool true)] "message" (p_msg p)) (p_fun p)) "time" (now (ce W)).

  Definition copy_context (s : st) (f : fields) : fields := match msg s with Some m => update f m | None => f end.

  (** function_logger.py 194-214, 216-226. *)
  Definition log_normal (p : params) (a : list val) (kw : fields) (n : nat) (v : val) (s : st) : st * Res unit :=
    if is_off s then (s, Ok tt)
    else
      match match p_level p with None => Ok (c_default (cf s)) | Some l => level_get (cf s) l end with
      | Err x => (s, Err x)
      | Ok l =>
          if (c_level (cf s) <=? l)%Z then
            match jone W v with
            | Err x => (s, Err x)
            | Ok r =>
                let f1 := fset (fset (fset (fset (base p) "success" (VBool true)) "result" (VStr r)) "time_of_work" (dur W)) "level" (VInt l) in
                let f2 := put_opt f1 "service_name" (c_service (cf s)) in
                let f3 := copy_context s f2 in
                let s1 := set_msg s None in
                match jvars W a kw with
                | Err x => (emit s1 (ELost n), Err x)
                | Ok iv => (emit s1 (ERec (KNorm n) (put_opt f3 "input_variables" iv)), Ok tt)
                end
            end
          else (s, Ok tt)
      end.

  Definition marked (s : st) (e : eobj) : bool := existsb (Nat.eqb (e_id e)) (marks s).

  (** function_logger.py 168-192. *)
  Definition log_exception (p : params) (a : list val) (kw : fields) (n : nat) (e : eobj) (s : st) : st * Res unit :=
    if is_off s then (s, Ok tt)
    else if negb (marked s e) || negb (c_dedup (cf s)) then
      let s0 := mark s e in
      let l := errors_level (cf s) (p_elevel p) (p_level p) in
      if (c_level (cf s) <=? l)%Z then
        match exception_to_dict (ce W) (base p) e with
        | Err x => (s0, Err x)
        | Ok f0 =>
            let f1 := fset (fset (fset (fset (fset f0 "success" (VBool false)) "traceback" (VStr (tbk (ce W))))
                        "local_variables" (VStr (locs (ce W)))) "time_of_work" (dur W)) "level" (VInt l) in
            let f2 := put_opt f1 "service_name" (c_service (cf s)) in
            match jvars W a kw with
            | Err x => (s0, Err x)
            | Ok iv =>
                let f3 := copy_context s0 f2 in
                (emit (set_msg s0 None) (ERec (KExc n e) (put_opt f3 "input_variables" iv)), Ok tt)
            end
        end
      else (s0, Ok tt)
    else (s, Ok tt).

  (** function_logger.py 93-105: what the wrapper does after the function (71-83 for coroutines). *)
  Definition after (p : params) (a : list val) (kw : fields) (n : nat) (o : outcome) (s : st) : st * outcome :=
    match o with
    | ORet v => let '(s1, r) := log_normal p a kw n v s in
                match r with Ok _ => (s1, ORet v) | Err x => raise_ s1 x end
    | ORaise e =>
        if e_exc e then
          let '(s1, r) := log_exception p a kw n e s in
          match r with
          | Err x => raise_ s1 x
          | Ok _ => if p_all p || is_suppressed (hi W) (cf s1) e (p_supp p) then (s1, ORet VNone) else (s1, ORaise e)
          end
        else (s, o)
    end.

  (** finalizer.py 124-140. *)
  Definition convert_arguments (c : cfg) (args : list val) (kw : fields) : Res fields :=
    match args with
    | [] => Ok kw
    | [VStr m] =>
        bindR (match fget kw "message" with
               | Some v => if veq (VStr m) v then Ok tt else maybe_raise c EIncorrectUse
               | None => Ok tt
               end) (fun _ => Ok (fset kw "message" (VStr m)))
    | _ => Err EIncorrectUse
    end.

  Definition no_fin : fin := mkFin [] [] [] [] false true false.
  Definition get_fin (s : st) (i : nat) : fin := nth i (fins s) no_fin.
  Fixpoint replace (l : list fin) (i : nat) (x : fin) : list fin :=
    match l, i with
    | [], _ => []
    | _ :: r, 0 => x :: r
    | y :: r, S j => y :: replace r j x
    end.
  Definition put_fin (s : st) (i : nat) (x : fin) : st := set_fins s (replace (fins s) i x).

  (** handle_log.py 59-70 called by the finalizer: all fields are allowed. *)
  Definition manual (k : kind) (args : list val) (kw : fields) (s : st) : st * Res unit :=
    match handle (cf s) (ce W) true (is_off s) args kw with
    | Ok (Some f) => (emit s (ERec k f), Ok tt)
    | Ok None => (s, Ok tt)
    | Err x => (s, Err x)
    end.

  (** finalizer.py 65-82: None if the object may not be entered. *)
  Definition enter (s : st) (i : nat) : option st :=
    let x := get_fin s i in
    if f_used x || f_entered x then None
    else Some (put_fin s i (mkFin (f_args x) (f_kw x) (fset (f_data x) "time" (now (ce W))) (f_supp x) (f_all x) true true)).

  (** finalizer.py 84-108. *)
  Definition leave (s : st) (i : nat) (o : outcome) : st * outcome :=
    let x := get_fin s i in
    match match o with
          | ORaise e => bindR (estr (ce W) e) (fun t =>
              Ok (fset (fset (fset (fset (f_data x) "exception_type" (VStr (cname (ce W) (e_cls e)))) "exception_message" (VStr t))
                    "success" (VBool false)) "traceback" (VStr (tbk (ce W)))))
          | ORet _ => Ok (fset (f_data x) "success" (VBool true))
          end with
    | Err z => raise_ s z
    | Ok d =>
        let d1 := fset d "time_of_work" (dur W) in
        let s1 := put_fin s i (mkFin (f_args x) (f_kw x) d1 (f_supp x) (f_all x) (f_used x) (f_entered x)) in
        let '(s2, r) := manual (KBlock i) [] d1 s1 in
        match r with
        | Err z => raise_ s2 z
        | Ok _ =>
            match o with
            | ORet v => (s2, o)
            | ORaise e =>
                if f_all x then (s2, ORet VNone)
                else if match f_supp x with [] => c_supp (cf s2) | l => is_suppressed (hi W) (cf s2) e l end
                     then (s2, ORet VNone) else (s2, o)
            end
        end
    end.

  (** finalizer.py 25-34. *)
  Definition new_fin (s : st) (args : list val) (kw : fields) : Res (st * nat) :=
    bindR (convert_arguments (cf s) args kw) (fun d =>
      Ok (set_fins s (fins s ++ [mkFin args kw d [] false false false]), length (fins s))).

  (** finalizer.py 36-63, 142-148. *)
  Definition edit (s : st) (i : nat) (args : list val) (kw : fields) : st * Res unit :=
    let x := get_fin s i in
    if f_entered x then
      match convert_arguments (cf s) args kw with
      | Err z => (s, Err z)
      | Ok d => (put_fin s i (mkFin (f_args x) (f_kw x) (update (f_data x) d) (f_supp x) (f_all x) (f_used x) (f_entered x)), Ok tt)
      end
    else if negb (Nat.eqb (length args) 1) && negb (Nat.eqb (length kw) 0) then (s, Err EIncorrectUse)
    else match args with
         | [] => (s, Err EIndexError)
         | w :: _ => if f_used x then (s, Err EIncorrectUse)
                     else (put_fin s i (mkFin (f_args x) (f_kw x) (f_data x) (f_supp x) (f_all x) true (f_entered x)),
                           if is_callable w then Ok tt else Err EIncorrectUse)
         end.

  (** finalizer.py 150-178. *)
  Definition add_supp (s : st) (i : nat) (vs : list val) : st * Res unit :=
    let x := get_fin s i in
    match suppress (hi W) (exc W) (cf s) (f_all x) (f_supp x) vs with
    | Ok (all, l) => (put_fin s i (mkFin (f_args x) (f_kw x) (f_data x) l all (f_used x) (f_entered x)), Ok tt)
    | Err z => (s, Err z)
    end.

  (** partial.py 45-55 after router.__enter__: the level and the classes are given to the object that was entered. *)
  Definition partial_enter (s : st) (i : nat) (kw : fields) (supp : option (list val)) : st * Res unit :=
    let s3 := fst (edit s i [] kw) in
    match supp with None => (s3, Ok tt) | Some vs => add_supp s3 i vs end.

  (** router.py 126-140 (router.__enter__), partial.py 45-55: the new object becomes the top of the stack. *)
  Definition push (s : st) (i : nat) : st := set_stack s (Some (match rstack s with None => [i] | Some l => i :: l end)).
  (** router.py 142-157: the object that is finalised, and the stack left. *)
  Definition pop (s : st) : option (st * nat) :=
    match rstack s with
    | None => None
    | Some [] => None
    | Some (i :: r) => Some (set_stack s (match r with [] => None | _ => Some r end), i)
    end.

  Definition result (s : st) (r : Res unit) : st * outcome := match r with Ok _ => (s, ORet VNone) | Err x => raise_ s x end.

  Fixpoint exec (q : prog) (s : st) {struct q} : st * outcome :=
    match q with
    | Done o => (s, o)
    | Logged p a kw body k =>
        let n := ncall s in
        let '(s1, o) := exec body (set_msg (emit (bump_c s) (EStart n)) None) in
        let '(s2, o') := after p a kw n o s1 in
        exec (k o') (emit s2 (EEnd n o'))
    | Unlogged full body k =>
        let '(s1, o) := exec body (set_unl (emit s (EOff full)) (Some full)) in
        exec (k o) (set_unl (emit s1 EOn) None)
    | Plain h body k =>
        let '(s1, o) := exec body s in exec (k (h (cf s1) o)) s1
    | Msg args kw k =>
        match message_fields (cf s) (ce W) args kw with
        | Ok (Some f) => exec (k (ORet VNone)) (set_msg (emit s (EMsg f)) (Some f))
        | Ok None => exec (k (ORet VNone)) s
        | Err x => let '(s1, o) := raise_ s x in exec (k o) s1
        end
    | Conf f k => exec k (set_cf s (f (cf s)))
    | New args kw k =>
        match new_fin s args kw with
        | Ok (s1, i) => exec (k (inl i)) s1
        | Err x => exec (k (inr (mkE (2 * nexte s + 1) (icls W x) true))) (bump_e s)
        end
    | Drop i k =>
        let x := get_fin s i in
        if f_used x then exec k s
        else
          let s1 := put_fin s i (mkFin (f_args x) (f_kw x) (f_data x) (f_supp x) (f_all x) true (f_entered x)) in
          exec k (fst (manual KManual (f_args x) (f_kw x) s1))          (* weakref.finalize swallows the exception *)
    | Suppress i vs k => let '(s1, r) := add_supp s i vs in let '(s2, o) := result s1 r in exec (k o) s2
    | Edit i args kw k => let '(s1, r) := edit s i args kw in let '(s2, o) := result s1 r in exec (k o) s2
    | With i body k =>
        match enter s i with
        | None => let '(s1, o) := raise_ s EIncorrectUse in exec (k o) s1
        | Some s1 => let '(s2, o) := exec body s1 in let '(s3, o') := leave s2 i o in exec (k o') s3
        end
    | WithR kw supp body k =>
        let i := length (fins s) in
        let s1 := push (set_fins s (fins s ++ [mkFin [] [] [] [] false false false])) i in
        match enter s1 i with
        | None => let '(s2, o) := raise_ s1 EIncorrectUse in exec (k o) s2
        | Some s2 =>
            let '(s4, r) := partial_enter s2 i kw supp in
            match r with
            | Err z => let '(s5, o) := raise_ s4 z in exec (k o) s5            (* no __exit__: the object stays on the stack *)
            | Ok _ =>
                let '(s5, o) := exec (body i) s4 in
                match pop s5 with
                | None => let '(s6, o') := raise_ s5 EIncorrectUse in exec (k o') s6
                | Some (s6, j) => let '(s7, o') := leave s6 j o in exec (k o') s7
                end
            end
        end
    end.
End Exec.

Definition start (c : cfg) : st := mkSt None None [] c [] None 0 0 [].

(** partial.py 38-43: log.name(..., **kw): kwargs.update(self.kwargs). *)
Definition dotted_kw (name : string) (kw : fields) : fields := update kw [("level", VStr name)].
(** router.py 106-117: the attributes of the router itself are found first, any other name makes a RouterPartial with that
    level; names with double underscores that object has are left out. *)
Definition router_own : list string := ["_wrap"; "message"; "suppress"; "__call__"; "__getattribute__"; "__neg__"; "__enter__"; "__exit__"].
Definition router_attr (name : string) : option string := if memb name router_own then None else Some name.
