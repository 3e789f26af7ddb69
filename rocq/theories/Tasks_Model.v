(** "with log:" in several threads and asyncio tasks.

    polog/loggers/router.py 16, 126-157: the stack of entered objects is a list object stored in a context variable.  A
    thread begins with an empty context; an asyncio task begins with a copy of the context of the task that created it, so
    the two variables refer to the same list object.  append and pop change that object in place.
    One step is one __enter__ or one __exit__ of the router (both run without interruption inside one event loop; threads
    never share a list). *)
From Verif Require Import Base.
Local Open Scope list_scope.

Definition tid : Type := nat.
Inductive op : Type :=
| TEnter (t : tid)            (* with log: *)
| TExit (t : tid)             (* the end of the block *)
| TTask (t u : tid)           (* task t creates task u *)
| TThread (u : tid).          (* thread u begins *)

Record heap : Type := mkH {
  hlists : list (list nat);             (* the list objects; the last element is the top *)
  hctx : tid -> option nat;             (* the context variable of every task: the number of a list object *)
  hnext : nat }.                        (* objects LoggerRouteFinalizer created so far *)

(** What a step does to the outside: an object is entered, finalised, or an exception is raised. *)
Inductive seen : Type := SIn (t : tid) (i : nat) | SOut (t : tid) (i : nat) | SError (t : tid) (x : exn).

Definition upd {A : Type} (f : tid -> A) (t : tid) (v : A) : tid -> A := fun u => if Nat.eqb u t then v else f u.
Fixpoint set_nth (l : list (list nat)) (i : nat) (x : list nat) : list (list nat) :=
  match l, i with
  | [], _ => []
  | _ :: r, 0 => x :: r
  | y :: r, S j => y :: set_nth r j x
  end.

Definition hstep (h : heap) (o : op) : heap * list seen :=
  match o with
  | TEnter t =>                                                                       (* 126-140 *)
      let i := hnext h in
      match hctx h t with
      | None => (mkH (hlists h ++ [[i]]) (upd (hctx h) t (Some (length (hlists h)))) (S i), [SIn t i])
      | Some r => (mkH (set_nth (hlists h) r (nth r (hlists h) [] ++ [i])) (hctx h) (S i), [SIn t i])
      end
  | TExit t =>                                                                        (* 142-157 *)
      match hctx h t with
      | None => (h, [SError t EIncorrectUse])
      | Some r =>
          match rev (nth r (hlists h) []) with
          | [] => (h, [SError t EIndexError])
          | i :: rest =>
              let h1 := mkH (set_nth (hlists h) r (rev rest)) (hctx h) (hnext h) in
              (match rest with [] => mkH (hlists h1) (upd (hctx h1) t None) (hnext h1) | _ => h1 end, [SOut t i])
          end
      end
  | TTask t u => (mkH (hlists h) (upd (hctx h) u (hctx h t)) (hnext h), [])
  | TThread u => (mkH (hlists h) (upd (hctx h) u None) (hnext h), [])
  end.
Fixpoint hrun (h : heap) (l : list op) : heap * list seen :=
  match l with
  | [] => (h, [])
  | o :: r => let '(h1, e1) := hstep h o in let '(h2, e2) := hrun h1 r in (h2, e1 ++ e2)
  end.
Definition hstart : heap := mkH [] (fun _ => None) 0.
