(** Model of polog/field.py, of the registration of extra fields in polog/config.py and of the check of their names in polog/core/utils/name_manager.py. *)
From Verif Require Import Base Sig_Model.
Local Open Scope string_scope.
Local Open Scope list_scope.

Section Field.
  (** str.isidentifier *)
  Variable isident : string -> bool.

  (** ** field.py *)
  Section Class.
    (** The world that user functions see and change; records and values of fields. *)
    Variables W Log Val : Type.
    (** A callable object of the user: how its parameters look to inspect, and what calling it does. *)
    Record fn (A : Type) : Type := mkFn { shape : obj; behave : W -> A -> W * Res Val }.
    Arguments shape {A} f. Arguments behave {A} f.
    (** field.py 53-62: get_extractor *)
    Definition get_extractor {A} (f : fn A) : Res (fn A) :=
      match shape f with
      | NotCallable => Err EValueError
      | o => match is_handler isident o true with Ok true => Ok f | Ok false => Err EValueError | Err e => Err e end
      end.
    (** standart_converter (78-84): the value unchanged *)
    Definition standart_converter : W -> Val -> W * Res Val := fun w v => (w, Ok v).
    (** get_converter (64-76) *)
    Definition get_converter (f : option (fn Val)) : Res (W -> Val -> W * Res Val) :=
      match f with
      | None => Ok standart_converter
      | Some f => match shape f with
                  | NotCallable => Err EValueError
                  | o => match is_handler isident o true with Ok true => Ok (behave f) | Ok false => Err EValueError | Err e => Err e end
                  end
      end.
    Record field : Type := mkField { extractor : W -> Log -> W * Res Val; converter : W -> Val -> W * Res Val }.
    (** __init__ (16-26) *)
    Definition new_field (e : fn Log) (c : option (fn Val)) : Res field :=
      bindR (get_extractor e) (fun e => bindR (get_converter c) (fun c => Ok (mkField (behave e) c))).
    (** get_data (28-34), extract (36-43), convert (45-51) *)
    Definition get_data (f : field) (w : W) (l : Log) : W * Res Val :=
      match extractor f w l with
      | (w1, Ok v) => converter f w1 v
      | (w1, Err e) => (w1, Err e)
      end.
  End Class.

  (** ** name_manager.py 63-80 *)
  Definition forbidden_names : list string :=
    ["level"; "auto"; "time"; "service_name"; "success"; "function"; "class"; "module"; "message"; "exception_type"; "exception_message"; "traceback";
     "input_variables"; "local_variables"; "result"; "time_of_work"].
  Definition starts_with_underscore (n : string) : bool := match n with String "_" _ => true | _ => false end.
  (** 46-87: is_possible_extra_field_name(...).possibility *)
  Definition possible_extra_field_name (n : string) : bool :=
    if negb (isident n) then false
    else if starts_with_underscore n then false
    else if existsb (String.eqb n) forbidden_names then false
    else true.

  (** ** config.py and core/stores/fields.py *)
  (** Any object offered as a field: its identity and its get_data, if it has one. *)
  Record offered : Type := mkOffered { ident : nat; its_get_data : option obj }.
  Record registry : Type := mkReg { in_place : list (string * offered); engine : list (string * offered) }.
  Definition empty_registry : registry := mkReg [] [].
  (** 157-163: one turn of the loop of add_fields and add_engine_fields *)
  Definition check_field (n : string) (v : offered) : Res unit :=
    match its_get_data v with
    | None => Err EValueError
    | Some o => match is_handler isident o true with
                | Err e => Err e
                | Ok false => Err EValueError
                | Ok true => if possible_extra_field_name n then Ok tt else Err ENameError
                end
    end.
  Fixpoint add_loop (d : list (string * offered)) (kw : list (string * offered)) : list (string * offered) * Res unit :=
    match kw with
    | [] => (d, Ok tt)
    | (n, v) :: r => match check_field n v with
                     | Err e => (d, Err e)
                     | Ok _ => add_loop (dset String.eqb d n v) r
                     end
    end.
  (** 179-199: delete_fields and delete_engine_fields; None is an argument that is not a str; pop of a missing name raises KeyError *)
  Fixpoint delete_loop (d : list (string * offered)) (names : list (option string)) : list (string * offered) * Res unit :=
    match names with
    | [] => (d, Ok tt)
    | None :: _ => (d, Err EKeyError)
    | Some n :: r => if dmem String.eqb d n then delete_loop (ddel String.eqb d n) r else (d, Err EKeyError)
    end.
  Inductive op : Type :=
  | AddFields (kw : list (string * offered)) | AddEngineFields (kw : list (string * offered))
  | DeleteFields (names : list (option string)) | DeleteEngineFields (names : list (option string)).
  Definition step (r : registry) (o : op) : registry * Res unit :=
    match o with
    | AddFields kw => let '(d, x) := add_loop (in_place r) kw in (mkReg d (engine r), x)
    | AddEngineFields kw => let '(d, x) := add_loop (engine r) kw in (mkReg (in_place r) d, x)
    | DeleteFields ns => let '(d, x) := delete_loop (in_place r) ns in (mkReg d (engine r), x)
    | DeleteEngineFields ns => let '(d, x) := delete_loop (engine r) ns in (mkReg (in_place r) d, x)
    end.
  (** 201-219: get_in_place_fields, get_engine_fields *)
  Definition select (d : list (string * offered)) (names : list string) : list (string * offered) :=
    match names with
    | [] => d
    | _ => fold_left (fun acc n => match dget String.eqb d n with Some v => dset String.eqb acc n v | None => acc end) names []
    end.
  (** 221-229: get_all_fields *)
  Definition get_all_fields (r : registry) (names : list string) : list (string * offered) :=
    fold_left (fun acc nv => dset String.eqb acc (fst nv) (snd nv)) (select (engine r) names) (select (in_place r) names).
End Field.
