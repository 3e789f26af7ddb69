(** The clock: calls, with-blocks and manual records with the moments at which polog reads the time.

    polog/loggers/auto/function_logger.py 89-105 (lines 92, 96, 103: time.time(); 67-83 for coroutine functions),
    polog/loggers/finalizer.py 65-82 and 84-98, polog/loggers/handle/handle_log.py 18-21 and 32-39.

    The programs, the states and the pieces of the wrapper are those of Call_Model; here every piece is given the moments
    that it reads.  The clock is any sequence of numbers: [clock n] is what reading number n of time.time() gives.
    [stamp] is datetime.fromtimestamp and [span] the difference of two readings as it is stored in a record.
    Simplified: a reading that the code leaves out (the time of a manual record that has the field already, the end of a call
    that is left by an exception that is not an Exception) is counted, so that the next reading is a later one: the clock is
    arbitrary, so nothing is lost.  The rounding of floats is not modelled. *)
From Verif Require Import Base Handle_Model Supp_Model Call_Model.
Local Open Scope string_scope.
Local Open Scope list_scope.

(** The state and the number of readings so far; [begun_at i]: the attribute start_time of the object i (finalizer.py 79). *)
Record cst : Type := mkCst { cs : st; tick : nat; begun_at : nat -> Z }.

Section Clocked.
  Variable W : cenv.
  Variable clock : nat -> Z.
  Variable stamp : Z -> val.
  Variable span : Z -> val.

  (** The world at a moment: the time of a new record is [t], the time of work is that from [a] to [b]. *)
  Definition at_ (t a b : Z) : cenv :=
    mkCenv (mkEnv (cname (ce W)) (estr (ce W)) (tbk (ce W)) (locs (ce W)) (stamp t)) (hi W) (jone W) (jvars W) (span (b - a)%Z) (icls W) (exc W).

  (** finalizer.py 65-82. *)
  Definition enter_at (C : cst) (i : nat) : option cst :=
    let t := clock (tick C) in
    match enter (at_ t t t) (cs C) i with
    | Some s => Some (mkCst s (S (tick C)) (fun j => if Nat.eqb j i then t else begun_at C j))
    | None => None
    end.

  (** finalizer.py 84-108: line 98 reads the clock, handle_log.py 20 may read it again. *)
  Definition leave_at (C : cst) (i : nat) (o : outcome) : cst * outcome :=
    let '(s, o') := leave (at_ (clock (S (tick C))) (begun_at C i) (clock (tick C))) (cs C) i o in
    (mkCst s (S (S (tick C))) (begun_at C), o').

  Definition with_st (C : cst) (s : st) : cst := mkCst s (tick C) (begun_at C).

  (** Call_Model.exec with the readings of the clock. *)
  Fixpoint execc (q : prog) (C : cst) {struct q} : cst * outcome :=
    match q with
    | Done o => (C, o)
    | Logged p a kw body k =>
        let n := ncall (cs C) in
        let t0 := clock (tick C) in
        let '(C1, o) := execc body (mkCst (set_msg (emit (bump_c (cs C)) (EStart n)) None) (S (tick C)) (begun_at C)) in
        let t1 := clock (tick C1) in
        let '(s2, o') := after (at_ t0 t0 t1) p a kw n o (cs C1) in
        execc (k o') (mkCst (emit s2 (EEnd n o')) (S (tick C1)) (begun_at C1))
    | Unlogged full body k =>
        let '(C1, o) := execc body (with_st C (set_unl (emit (cs C) (EOff full)) (Some full))) in
        execc (k o) (with_st C1 (set_unl (emit (cs C1) EOn) None))
    | Plain h body k => let '(C1, o) := execc body C in execc (k (h (cf (cs C1)) o)) C1
    | Msg args kw k =>
        match message_fields (cf (cs C)) (ce W) args kw with
        | Ok (Some f) => execc (k (ORet VNone)) (with_st C (set_msg (emit (cs C) (EMsg f)) (Some f)))
        | Ok None => execc (k (ORet VNone)) C
        | Err x => let '(s1, o) := raise_ W (cs C) x in execc (k o) (with_st C s1)
        end
    | Conf f k => execc k (with_st C (set_cf (cs C) (f (cf (cs C)))))
    | New args kw k =>
        match new_fin (cs C) args kw with
        | Ok (s1, i) => execc (k (inl i)) (with_st C s1)
        | Err x => execc (k (inr (mkE (2 * nexte (cs C) + 1) (icls W x) true))) (with_st C (bump_e (cs C)))
        end
    | Drop i k =>
        let s := cs C in
        let x := get_fin s i in
        if f_used x then execc k C
        else
          let s1 := put_fin s i (mkFin (f_args x) (f_kw x) (f_data x) (f_supp x) (f_all x) true (f_entered x)) in
          let t := clock (tick C) in
          execc k (mkCst (fst (manual (at_ t t t) KManual (f_args x) (f_kw x) s1)) (S (tick C)) (begun_at C))
    | Suppress i vs k => let '(s1, r) := add_supp W (cs C) i vs in let '(s2, o) := result W s1 r in execc (k o) (with_st C s2)
    | Edit i args kw k => let '(s1, r) := edit (cs C) i args kw in let '(s2, o) := result W s1 r in execc (k o) (with_st C s2)
    | With i body k =>
        match enter_at C i with
        | None => let '(s1, o) := raise_ W (cs C) EIncorrectUse in execc (k o) (with_st C s1)
        | Some C1 => let '(C2, o) := execc body C1 in let '(C3, o') := leave_at C2 i o in execc (k o') C3
        end
    | WithR kw supp body k =>
        let s := cs C in
        let i := length (fins s) in
        let s1 := push (set_fins s (fins s ++ [mkFin [] [] [] [] false false false])) i in
        match enter_at (with_st C s1) i with
        | None => let '(s2, o) := raise_ W s1 EIncorrectUse in execc (k o) (with_st C s2)
        | Some C2 =>
            let '(s4, r) := partial_enter W (cs C2) i kw supp in
            match r with
            | Err z => let '(s5, o) := raise_ W s4 z in execc (k o) (with_st C2 s5)
            | Ok _ =>
                let '(C5, o) := execc (body i) (with_st C2 s4) in
                match pop (cs C5) with
                | None => let '(s6, o') := raise_ W (cs C5) EIncorrectUse in execc (k o') (with_st C5 s6)
                | Some (s6, j) => let '(C7, o') := leave_at (with_st C5 s6) j o in execc (k o') C7
                end
            end
        end
    end.

  Definition startc (c : cfg) : cst := mkCst (start c) 0 (fun _ => 0%Z).
End Clocked.
