(** Manual logging: the arguments of log(...), message(...) and of with-blocks.

    polog/loggers/handle/abstract.py, polog/loggers/handle/handle_log.py, polog/loggers/handle/message.py (extraction of
    the fields), polog/core/stores/levels.py 25-40, polog/core/utils/not_none_to_dict.py, exception_to_dict.py.

    Values of the user are one of the kinds of [val]: the code only asks for the type of a value (None, bool, int, str,
    callable, class, exception), for its equality and its __name__ and __module__.  Simplified: equality of objects that
    are neither numbers nor strings is identity (no user-defined __eq__); the traceback and the local variables of the
    current exception are given by the environment; str() of an exception is given by the environment and may fail. *)
From Verif Require Import Base.
From Coq Require Export ZArith.
Local Open Scope string_scope.
Local Open Scope list_scope.

(** An exception object: its identity, its class and whether it is an instance of Exception (and not only of
    BaseException). *)
Record eobj : Type := mkE { e_id : nat; e_cls : nat; e_exc : bool }.

Inductive val : Type :=
| VNone
| VBool (b : bool)
| VInt (z : Z)
| VStr (s : string)
| VFun (id : nat) (name : option string) (text : string) (module : option string)  (* callable; __name__, str(), __module__ *)
| VClass (id : nat) (name : string) (module : option string)
| VExc (e : eobj)
| VOther (id : nat).

(** The operator != on values; True == 1 in Python. *)
Definition num (v : val) : option Z := match v with VBool b => Some (if b then 1 else 0)%Z | VInt z => Some z | _ => None end.
Definition veq (a b : val) : bool :=
  match num a, num b with
  | Some x, Some y => Z.eqb x y
  | None, None =>
      match a, b with
      | VNone, VNone => true
      | VStr s, VStr t => String.eqb s t
      | VFun i _ _ _, VFun j _ _ _ => Nat.eqb i j
      | VClass i _ _, VClass j _ _ => Nat.eqb i j
      | VExc e, VExc f => Nat.eqb (e_id e) (e_id f)
      | VOther i, VOther j => Nat.eqb i j
      | _, _ => false
      end
  | _, _ => false
  end.

Definition fields : Type := list (string * val).
Definition fget (f : fields) (k : string) : option val := dget String.eqb f k.
Definition fset (f : fields) (k : string) (v : val) : fields := dset String.eqb f k v.
Definition fdel (f : fields) (k : string) : fields := ddel String.eqb f k.

(** The settings that the loggers read. *)
Record cfg : Type := mkCfg {
  c_level : Z; c_default : Z; c_error : Z;            (* level, default_level, default_error_level *)
  c_silent : bool;                                    (* silent_internal_exceptions *)
  c_unknown : bool;                                   (* unknown_fields_in_handle_logs *)
  c_service : option string;                          (* service_name *)
  c_levels : list (string * Z);                       (* Levels.levels *)
  c_extra : list string;                              (* names of the user's in-place and engine fields *)
  c_full : bool;                                      (* full_unlog *)
  c_dedup : bool;                                     (* deduplicate_errors *)
  c_subcls : bool;                                    (* suppress_exception_subclasses *)
  c_supp : bool }.                                    (* suppress_by_default *)

(** The world around the logger. *)
Record env : Type := mkEnv {
  cname : nat -> string;                              (* __name__ of an exception class *)
  estr : eobj -> Res string;                          (* str(exception); user code, may raise *)
  tbk : string;                                       (* get_traceback() *)
  locs : string;                                      (* get_locals_from_traceback(); '' if there are none *)
  now : val }.                                        (* the current time *)

(** levels.py 25-40: Levels.get. *)
Definition level_get (c : cfg) (v : val) : Res Z :=
  match v with
  | VStr s => match dget String.eqb (c_levels c) s with Some z => Ok z | None => Err EKeyError end
  | VInt z => if (z <? 0)%Z then Err EKeyError else Ok z
  | _ => Err EKeyError
  end.

(** abstract.py 206-219: _maybe_raise. *)
Definition maybe_raise (c : cfg) (e : exn) : Res unit := if c_silent c then Ok tt else Err e.

Definition is_callable (v : val) : bool := match v with VFun _ _ _ _ | VClass _ _ _ => true | _ => false end.
Definition is_str (v : val) : bool := match v with VStr _ => true | _ => false end.

(** abstract.py 26-36: _allowed_types; None: the name is not in the table. *)
Definition allowed (k : string) (v : val) : option bool :=
  if String.eqb k "function" then Some (is_str v || is_callable v)
  else if String.eqb k "module" then Some (is_str v)
  else if String.eqb k "class" then Some (is_str v || match v with VClass _ _ _ => true | _ => false end)
  else if String.eqb k "message" then Some (is_str v)
  else if String.eqb k "exception" then Some (is_str v || match v with VExc e => e_exc e | _ => false end)
  else if String.eqb k "vars" then Some (is_str v)
  else if String.eqb k "success" then Some (match v with VBool _ => true | _ => false end)
  else if String.eqb k "level" then Some (is_str v || match v with VInt _ => true | _ => false end)
  else if String.eqb k "local_variables" then Some (is_str v)
  else None.

(** abstract.py 38-41: _convert_values. *)
Definition convert_value (c : cfg) (k : string) (v : val) : Res val :=
  if String.eqb k "level" then bindR (level_get c v) (fun z => Ok (VInt z))
  else if String.eqb k "class" then Ok (match v with VClass _ n _ => VStr n | _ => v end)
  else Ok v.

(** abstract.py 43-48: _convert_keys. *)
Definition convert_key (k : string) : string :=
  if String.eqb k "vars" then "local_variables"
  else if String.eqb k "locals" then "local_variables"
  else if String.eqb k "e" then "exception"
  else if String.eqb k "class_" then "class"
  else k.

Definition memb (k : string) (l : list string) : bool := existsb (String.eqb k) l.

(** not_none_to_dict.py. *)
Definition not_none (f : fields) (k : string) (v : val) : fields := match v with VNone => f | _ => fset f k v end.

(** abstract.py 126-154: one turn of the loop of _kwargs_to_dict; [kw]: all the keyword arguments. *)
Definition put_kw (c : cfg) (forbidden : list string) (allow_all : bool) (kw : fields) (dest : fields) (k0 : string) (v : val) : Res fields :=
  let k := convert_key k0 in
  if memb k forbidden then bindR (maybe_raise c EKeyError) (fun _ => Ok dest)
  else
    let store (_ : unit) : Res fields :=
      bindR (convert_value c k v) (fun v' =>
        match fget dest k with
        | Some old =>
            match fget kw k with
            | None => Err EKeyError                                     (* 150: kwargs[key], the key is canonical *)
            | Some orig => if veq old orig then Ok (not_none dest k v')
                           else bindR (maybe_raise c EValueError) (fun _ => Ok dest)
            end
        | None => Ok (not_none dest k v')
        end) in
    match allowed k v with
    | Some true => store tt
    | Some false => bindR (maybe_raise c EValueError) (fun _ => Ok dest)
    | None => if memb k (c_extra c) then store tt
              else if allow_all || c_unknown c then store tt
              else bindR (maybe_raise c EKeyError) (fun _ => Ok dest)
    end.

(** abstract.py 117-154. *)
Fixpoint put_kws (c : cfg) (forbidden : list string) (allow_all : bool) (kw rest : fields) (dest : fields) : Res fields :=
  match rest with
  | [] => Ok dest
  | (k, v) :: r => bindR (put_kw c forbidden allow_all kw dest k v) (fun d => put_kws c forbidden allow_all kw r d)
  end.

(** abstract.py 156-175: the first positional argument is the message; 'message' is never forbidden. *)
Definition put_args (c : cfg) (args : list val) : Res fields :=
  bindR (match args with _ :: _ :: _ => maybe_raise c EValueError | _ => Ok tt end) (fun _ =>
    Ok (match args with a :: _ => [("message", a)] | [] => [] end)).

(** abstract.py 105-115. *)
Definition prepare (c : cfg) (forbidden : list string) (allow_all : bool) (args : list val) (kw : fields) : Res fields :=
  bindR (put_args c args) (fun d => put_kws c forbidden allow_all kw kw d).

(** exception_to_dict.py. *)
Definition exception_to_dict (w : env) (f : fields) (e : eobj) : Res fields :=
  bindR (estr w e) (fun s => Ok (fset (fset f "exception_message" (VStr s)) "exception_type" (VStr (cname w (e_cls e))))).

(** abstract.py 177-204. *)
Definition extract_exception (c : cfg) (w : env) (f : fields) (change_success change_level : bool) : Res fields :=
  match fget f "exception" with
  | None => Ok f
  | Some x =>
      bindR (match x with
             | VExc e => if e_exc e then
                 bindR (exception_to_dict w f e) (fun f1 =>
                   let f2 := fset f1 "traceback" (VStr (tbk w)) in
                   Ok (if String.eqb (locs w) "" then f2 else fset f2 "local_variables" (VStr (locs w))))
                 else Ok f
             | VStr s => Ok (fset f "exception_type" (VStr s))
             | _ => Ok f
             end) (fun f3 =>
        let f4 := fdel f3 "exception" in
        let f5 := if change_success then fset f4 "success" (VBool false) else f4 in
        Ok (if change_level then match fget f5 "level" with Some _ => f5 | None => fset f5 "level" (VInt (c_error c)) end else f5))
  end.

(** handle_log.py 41-57. *)
Definition extract_function (f : fields) : fields :=
  match fget f "function" with
  | Some (VFun _ name text module) =>
      let f1 := fset f "function" (VStr (match name with Some n => n | None => text end)) in
      match module with Some m => fset f1 "module" (VStr m) | None => f1 end
  | Some (VClass _ name module) =>
      let f1 := fset f "function" (VStr name) in
      match module with Some m => fset f1 "module" (VStr m) | None => f1 end
  | _ => f
  end.

(** fields.get('success', True) used as a condition. *)
Definition truthy (v : val) : bool :=
  match v with VNone => false | VBool b => b | VInt z => negb (Z.eqb z 0) | VStr s => negb (String.eqb s "") | _ => true end.
Definition succeeded (f : fields) : bool := match fget f "success" with Some v => truthy v | None => true end.

(** handle_log.py 18-21, 32-39. *)
Definition defaults (c : cfg) (w : env) (f : fields) : fields :=
  let f1 := match fget f "level" with
            | Some _ => f
            | None => fset f "level" (VInt (if succeeded f then c_default c else c_error c))
            end in
  match fget f1 "time" with Some _ => f1 | None => fset f1 "time" (now w) end.

(** handle_log.py 23-30 after abstract.py 82: the fields of a manual record. *)
Definition handle_fields (c : cfg) (w : env) (allow_all : bool) (args : list val) (kw : fields) : Res fields :=
  bindR (prepare c [] allow_all args kw) (fun f =>
    let f1 := fset f "auto" (VBool false) in
    let f2 := match c_service c with Some s => fset f1 "service_name" (VStr s) | None => f1 end in
    bindR (extract_exception c w f2 true true) (fun f3 =>
      Ok (defaults c w (extract_function f3)))).

(** handle_log.py 59-70: what is passed to the engine; [off]: unlog.get_unlog_status(). *)
Definition handle (c : cfg) (w : env) (allow_all off : bool) (args : list val) (kw : fields) : Res (option fields) :=
  bindR (handle_fields c w allow_all args kw) (fun f =>
    match fget f "level" with
    | Some (VInt l) => Ok (if (c_level c <=? l)%Z then if off then None else Some f else None)
    | _ => Err ETypeError
    end).

(** message.py 9-35: the fields of message(...); None: the context variable is not touched. *)
Definition message_fields (c : cfg) (w : env) (args : list val) (kw : fields) : Res (option fields) :=
  bindR (prepare c ["function"] false args kw) (fun f =>
    bindR (extract_exception c w f false false) (fun f1 =>
      Ok (match f1 with [] => None | _ => Some f1 end))).
