(** The documented contract of manual logging, independently of the loops that implement it. *)
From Verif Require Import Base Handle_Model.
Local Open Scope string_scope.
Local Open Scope list_scope.

(** Aliases: vars and locals are local_variables, e is exception, class_ is class. *)
Inductive alias : string -> string -> Prop :=
| al_vars : alias "vars" "local_variables"
| al_locals : alias "locals" "local_variables"
| al_e : alias "e" "exception"
| al_class : alias "class_" "class".
Definition canonical (k0 k : string) : Prop := alias k0 k \/ (k = k0 /\ ~ exists k', alias k0 k').

(** The table of types. *)
Inductive right_type : string -> val -> Prop :=
| rt_str : forall k s, In k ["function"; "module"; "class"; "message"; "exception"; "level"; "local_variables"] -> right_type k (VStr s)
| rt_fun : forall i n t m, right_type "function" (VFun i n t m)
| rt_fun_class : forall i n m, right_type "function" (VClass i n m)
| rt_class : forall i n m, right_type "class" (VClass i n m)
| rt_exc : forall e, e_exc e = true -> right_type "exception" (VExc e)
| rt_success : forall b, right_type "success" (VBool b)
| rt_level : forall z, right_type "level" (VInt z).
Definition known (k : string) : Prop :=
  In k ["function"; "module"; "class"; "message"; "exception"; "success"; "level"; "local_variables"].

(** Which keyword arguments are used at all ([k] is the canonical name). *)
Definition accepted (c : cfg) (forbidden : list string) (allow_all : bool) (k : string) (v : val) : Prop :=
  ~ In k forbidden /\
  ((known k /\ right_type k v) \/ (~ known k /\ (In k (c_extra c) \/ allow_all = true \/ c_unknown c = true))).

(** What is stored. *)
Inductive converted (c : cfg) : string -> val -> val -> Prop :=
| cv_level_int : forall z, (0 <= z)%Z -> converted c "level" (VInt z) (VInt z)
| cv_level_name : forall s z, dget String.eqb (c_levels c) s = Some z -> converted c "level" (VStr s) (VInt z)
| cv_class : forall i n m, converted c "class" (VClass i n m) (VStr n)
| cv_class_other : forall v, (forall i n m, v <> VClass i n m) -> converted c "class" v v
| cv_other : forall k v, k <> "level" -> k <> "class" -> converted c k v v.

(** No two of the arguments mean the same field. *)
Definition distinct (args : list val) (kw : fields) : Prop :=
  (forall i j k1 k2 v1 v2 k, nth_error kw i = Some (k1, v1) -> nth_error kw j = Some (k2, v2) ->
     canonical k1 k -> canonical k2 k -> i = j) /\
  (args <> [] -> forall k0 v, In (k0, v) kw -> ~ canonical k0 "message").

(** The fields a call should produce. *)
Definition expected (c : cfg) (forbidden : list string) (allow_all : bool) (args : list val) (kw : fields) (k : string) (x : val) : Prop :=
  (k = "message" /\ exists r, args = x :: r) \/
  (exists k0 v, In (k0, v) kw /\ canonical k0 k /\ accepted c forbidden allow_all k v /\ converted c k v x /\ x <> VNone).

(** The level of a manual record, by the arguments of the call: the one that was given; without it the level of errors if
    an exception or success=False was given; otherwise the ordinary default. *)
Inductive level_of_call (c : cfg) (allow_all : bool) (args : list val) (kw : fields) : Z -> Prop :=
| lv_given : forall l, expected c [] allow_all args kw "level" (VInt l) -> level_of_call c allow_all args kw l
| lv_exception : forall x, (forall y, ~ expected c [] allow_all args kw "level" y) ->
    expected c [] allow_all args kw "exception" x -> level_of_call c allow_all args kw (c_error c)
| lv_failure : (forall y, ~ expected c [] allow_all args kw "level" y) ->
    expected c [] allow_all args kw "success" (VBool false) -> level_of_call c allow_all args kw (c_error c)
| lv_default : (forall y, ~ expected c [] allow_all args kw "level" y) ->
    (forall x, ~ expected c [] allow_all args kw "exception" x) ->
    ~ expected c [] allow_all args kw "success" (VBool false) -> level_of_call c allow_all args kw (c_default c).
