(** Model of the settings and the names of levels used by several threads: polog/core/stores/settings/setting_point.py 41, 50-79, 102-118 and 127-173 (set, locked_get,
    share_lock_object), settings_store.py 243-283 (__init__, __getitem__, __setitem__), polog/core/stores/levels.py 14-23, config.py 26-69.
    What a single assignment checks is Settings_Model.  One move is one access to shared state.  The actions (setting_point.py 77) are not here: they
    write no setting; those that take other locks are in Eng_Model.  SettingsStore() was created before the threads began. *)
From Verif Require Import Base Settings_Model.
Local Open Scope string_scope.
Local Open Scope list_scope.

(** settings_store.py: the arguments shared_lock_with of the points (35-38, 51-54, 64-67, 82-84, 216-218, 228-230) and read_lock (34, 50). *)
Definition shared_lock_with : list (string * list string) :=
  [("pool_size", ["max_queue_size"; "started"]); ("max_queue_size", ["pool_size"; "started"]); ("started", ["pool_size"; "max_queue_size"]);
   ("default_level", ["default_error_level"]); ("integration_with_logging", ["logging_off"]); ("logging_off", ["integration_with_logging"])].
Definition read_lock (n : string) : bool := existsb (String.eqb n) ["pool_size"; "max_queue_size"].

(** setting_point.py 136-146: share_lock_object of the point [n]; locks are named by the point that created them.  (No point names itself.) *)
Definition share (locks : list (string * string)) (n : string) : list (string * string) :=
  match dget String.eqb locks n, dget String.eqb shared_lock_with n with
  | Some lk, Some others => fold_left (fun d m => dset String.eqb d m lk) others locks
  | _, _ => locks
  end.

Section Race.
  Variable isident : string -> bool.
  Variable class_or_callable : nat -> bool.
  Variable is_module : nat -> bool.
  Variable has_loads has_dumps loads_callable dumps_callable : nat -> bool.
  Variable debug : bool.
  Variable possible_level_name : string -> bool.
  Notation pts := (points isident class_or_callable is_module has_loads has_dumps loads_callable dumps_callable debug).

  (** settings_store.py 255-256: every point has a lock of its own; then each shares its lock, in the order of the table. *)
  Definition locks : list (string * string) := fold_left share (map fst pts) (map (fun np => (fst np, fst np)) pts).
  Definition lock_of (n : string) : string := match dget String.eqb locks n with Some lk => lk | None => n end.

  (** One keyword of config.set; one level of config.levels (the name is checked) or of config.standard_levels (it is not). *)
  Inductive op : Type := OSet (n : string) (v : pyval) | OReg (check : bool) (n : string) (v : pyval).
  (** What a thread is doing; the list is what is left of its call. *)
  Inductive pc : Type :=
  | Idle
  | Todo (l : list op)                                              (* the next keyword *)
  | Wait (n : string) (v : pyval) (l : list op)                     (* setting_point.py 66: with self.lock *)
  | Once (n : string) (v : pyval) (l : list op)                     (* 67-70 *)
  | Prove (n : string) (v : pyval) (l : list op)                    (* 71-73: checks and conversion (reads the levels) *)
  | Conf (n : string) (v w : pyval) (cf : list (string * (pyval -> pyval -> bool))) (l : list op)    (* 75, 127-134; then 76 *)
  | Chg (n : string) (v : pyval) (l : list op)                      (* 78: self.changed = True *)
  | Rel (n : string) (v : pyval) (l : list op)                      (* the end of the with block *)
  | Fail (n : string) (v : pyval) (e : exn)                         (* the same with an exception, which ends the call *)
  | Half (k : bool) (n : string) (v : pyval) (l : list op).         (* levels.py 23: the name has its number, the number not yet its name *)

  (** [held]: the lock is taken; [hist]: what the threads were told, keyword by keyword. *)
  Record st : Type := mkSt { conf : cfg; held : string -> bool; pcs : nat -> pc; hist : list (nat * op * Res unit) }.
  Definition upd {B} (f : nat -> B) (t : nat) (b : B) : nat -> B := fun u => if Nat.eqb u t then b else f u.
  Definition take (f : string -> bool) (k : string) (b : bool) : string -> bool := fun x => if String.eqb x k then b else f x.

  (** The point, where it is known to exist. *)
  Definition point_of (n : string) : point := match dget String.eqb pts n with Some p => p | None => flag false end.
  (** setting_point.py 67-70. *)
  Definition once (c : cfg) (n : string) : Res unit :=
    if existsb (String.eqb n) (changed c) && p_once (point_of n) then Err EDoubleSetting
    else if p_before_start (point_of n) && eq_true (val c "started") then Err EAfterStartSetting
    else Ok tt.
  (** 71-73. *)
  Definition prove (c : cfg) (n : string) (v : pyval) : Res pyval :=
    if negb (forallb (fun f => f v) (p_proves (point_of n))) then Err EValueError
    else match p_converter (point_of n) with None => Ok v | Some f => f (lvls c) v end.
  (** config.py 50-57, 67 and levels.py 18-21: the checks of a level. *)
  Definition reg_check (k : bool) (n : string) (v : pyval) : Res unit :=
    if k then (if negb (is_int v) then Err ETypeError else if negb (ge0 v) then Err EValueError
               else if negb (possible_level_name n) then Err ENameError else Ok tt)
    else if is_int v then Ok tt else Err EValueError.

  (** A move of thread [t]; [None]: it cannot move now. *)
  Definition move (s : st) (t : nat) : option st :=
    let c := conf s in
    let go p := upd (pcs s) t p in
    match pcs s t with
    | Idle => None
    | Todo [] => Some (mkSt c (held s) (go Idle) (hist s))
    | Todo (OSet n v :: l) =>
        match dget String.eqb pts n with
        | None => Some (mkSt c (held s) (go Idle) (hist s ++ [(t, OSet n v, Err EKeyError)]))
        | Some _ => Some (mkSt c (held s) (go (Wait n v l)) (hist s))
        end
    | Wait n v l => if held s (lock_of n) then None else Some (mkSt c (take (held s) (lock_of n) true) (go (Once n v l)) (hist s))
    | Once n v l => match once c n with
                    | Err e => Some (mkSt c (held s) (go (Fail n v e)) (hist s))
                    | Ok _ => Some (mkSt c (held s) (go (Prove n v l)) (hist s))
                    end
    | Prove n v l => match prove c n v with
                     | Err e => Some (mkSt c (held s) (go (Fail n v e)) (hist s))
                     | Ok w => Some (mkSt c (held s) (go (Conf n v w (p_conflicts (point_of n)) l)) (hist s))
                     end
    | Conf n v w ((m, f) :: cf) l =>
        if f w (val c m) then Some (mkSt c (held s) (go (Fail n v EValueError)) (hist s))
        else Some (mkSt c (held s) (go (Conf n v w cf l)) (hist s))
    | Conf n v w [] l => Some (mkSt (mkCfg (dset String.eqb (vals c) n w) (changed c) (lvls c)) (held s) (go (Chg n v l)) (hist s))
    | Chg n v l => Some (mkSt (mkCfg (vals c) (n :: changed c) (lvls c)) (held s) (go (Rel n v l)) (hist s))
    | Rel n v l => Some (mkSt c (take (held s) (lock_of n) false) (go (Todo l)) (hist s ++ [(t, OSet n v, Ok tt)]))
    | Fail n v e => Some (mkSt c (take (held s) (lock_of n) false) (go Idle) (hist s ++ [(t, OSet n v, Err e)]))
    | Todo (OReg k n v :: l) =>
        match reg_check k n v with
        | Err e => Some (mkSt c (held s) (go Idle) (hist s ++ [(t, OReg k n v, Err e)]))
        | Ok _ => Some (mkSt (mkCfg (vals c) (changed c) (mkLevels (dset String.eqb (lv (lvls c)) n v) (lv_rev (lvls c)))) (held s) (go (Half k n v l)) (hist s))
        end
    | Half k n v l => Some (mkSt (mkCfg (vals c) (changed c) (mkLevels (lv (lvls c)) (dset Z.eqb (lv_rev (lvls c)) (num v) n))) (held s) (go (Todo l))
                                 (hist s ++ [(t, OReg k n v, Ok tt)]))
    end.

  (** config.py 38-39, 50-58, 66-69: the keywords of a call, in order; config.standard_levels has its own names. *)
  Definition ops_of (o : cop) : list op :=
    match o with
    | CSet kw => map (fun x => OSet (fst x) (snd x)) kw
    | CLevels kw => map (fun x => OReg true (fst x) (snd x)) kw
    | CStandard => flat_map (fun x => match x with (up, low, z) => [OReg false up (VInt z); OReg false low (VInt z)] end) standard
    end.
  (** A thread begins a call, or moves. *)
  Inductive label : Type := LCall (t : nat) (o : cop) | LMove (t : nat).
  Definition step (s : st) (x : label) : option st :=
    match x with
    | LCall t o => match pcs s t with Idle => Some (mkSt (conf s) (held s) (upd (pcs s) t (Todo (ops_of o))) (hist s)) | _ => None end
    | LMove t => move s t
    end.
  Fixpoint run (s : st) (xs : list label) : option st :=
    match xs with [] => Some s | x :: r => match step s x with Some s1 => run s1 r | None => None end end.
  Definition start : st :=
    mkSt (cfg0 isident class_or_callable is_module has_loads has_dumps loads_callable dumps_callable debug) (fun _ => false) (fun _ => Idle) [].

  (** setting_point.py 102-118, 164-173 and settings_store.py 270-271, 319-321: reading a setting; [None]: the reader has to wait. *)
  Definition read (s : st) (n : string) : option (Res pyval) :=
    match dget String.eqb pts n with
    | None => Some (Err EKeyError)
    | Some _ => if read_lock n && held s (lock_of n) then None else Some (Ok (val (conf s) n))
    end.
End Race.
