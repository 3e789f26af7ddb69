(** The delivery of one record to the handlers of a tree that changes meanwhile.

    log_item.py 159-164 (call_handlers) iterates the live tree: tree.py 109-118 gives the generator of
    walker.py 23-31 (bfs_values), which runs on the generator of walker.py 8-21 (bfs).  Both are suspended while
    a handler runs, and nothing is locked, so that handlers and other threads may add and remove handlers at any
    moment.  Here one delivery advances by small steps; between two steps any operation on the tree may happen. *)
From Verif Require Import Base Tree_Model Tree_Spec.

(** A node waiting in a layer.  The path is a note for the statements (it is never looked at): the program
    keeps the node only. *)
Definition item := (path * nat)%type.

(** Where the two generators stand.  [todo] is the rest of [layer], [next] is [next_layer]. *)
Inductive gen : Type :=
| GAt (todo next : list item)                  (* at "for node in layer" (walker.py 17) *)
| GVal (c : item) (todo next : list item)      (* "node.value is not None" was true, the value is not yet read again (walker.py 30-31) *)
| GIn (c : item) (todo next : list item)       (* the node was passed on; its childs are not yet looked at (walker.py 18-19) *)
| GLoop (c : item) (cs rest : list (string * nat)) (todo next : list item)
                                               (* in "for child in node.childs.values()" (walker.py 19-20); [cs]: the dictionary at the start *)
| GDone                                        (* the delivery is over *)
| GRaise                                       (* RuntimeError: dictionary changed size during iteration *)
| GOdd.                                        (* the dictionary changed in the loop, but not its size: not modelled further *)

Fixpoint childs_eqb (a b : list (string * nat)) : bool :=
  match a, b with
  | [], [] => true
  | (k1, c1) :: a', (k2, c2) :: b' => String.eqb k1 k2 && Nat.eqb c1 c2 && childs_eqb a' b'
  | _, _ => false
  end.

Section Deliver.
  Context {V : Type}.
  Variable key_checker : string -> bool.
  Variable value_checker : V -> bool.

  (** walker.py 14: layer = [self.tree]; the tree of the registry is node 0. *)
  Definition gen_start : gen := GAt [([], 0)] [].

  (** One step of the delivery; the second component is the handler called in it, if any.
      Simplified: a value that became None between its two reads is called too, which is a TypeError escaped by
      log_item.py 166-171; no handler runs. *)
  Definition gen_step (h : heap V) (g : gen) : gen * option (path * V) :=
    match g with
    | GAt [] [] => (GDone, None)                                  (* walker.py 15 *)
    | GAt [] next => (GAt next [], None)                          (* walker.py 21, 15-16 *)
    | GAt (c :: todo) next =>
        match nval (hget h (snd c)) with
        | None => (GIn c todo next, None)                         (* walker.py 30 *)
        | Some _ => (GVal c todo next, None)
        end
    | GVal c todo next =>
        (GIn c todo next,
         match nval (hget h (snd c)) with Some v => Some (fst c, v) | None => None end)   (* walker.py 31; log_item.py 163-164 *)
    | GIn c todo next =>
        let cs := nchilds (hget h (snd c)) in (GLoop c cs cs todo next, None)
    | GLoop c cs rest todo next =>
        if childs_eqb (nchilds (hget h (snd c))) cs then
          match rest with
          | [] => (GAt todo next, None)
          | (k, n) :: r => (GLoop c cs r todo (next ++ [(fst c ++ [k], n)]), None)
          end
        else (if Nat.eqb (length (nchilds (hget h (snd c)))) (length cs) then GOdd else GRaise, None)
    | GDone | GRaise | GOdd => (g, None)
    end.

  (** What may happen next: the delivery goes a step, or somebody works with the tree. *)
  Inductive label : Type := LStep | LOp (o : top V).

  Definition dstate := (heap V * gen)%type.
  Definition dstep (s : dstate) (l : label) : dstate * option (path * V) :=
    match l with
    | LStep => let (g', c) := gen_step (fst s) (snd s) in ((fst s, g'), c)
    | LOp o => ((fst (tree_step key_checker value_checker (fst s) o), snd s), None)
    end.

  Fixpoint drun (s : dstate) (ls : list label) : dstate * list (path * V) :=
    match ls with
    | [] => (s, [])
    | l :: r => let (s1, c) := dstep s l in
                let (s2, cs) := drun s1 r in
                (s2, match c with Some x => x :: cs | None => cs end)
    end.

  (** The state and the calls after [ls], when the record comes to a registry with the history [ops]. *)
  Definition dstart (ops : list (top V)) : dstate :=
    (final (tree_step key_checker value_checker) tree_empty ops, gen_start).
  Definition dafter (ops : list (top V)) (ls : list label) : dstate := fst (drun (dstart ops) ls).
  Definition dcalls (ops : list (top V)) (ls : list label) : list (path * V) := snd (drun (dstart ops) ls).
  (** The handler that the next step calls. *)
  Definition dnext (s : dstate) : option (path * V) := snd (gen_step (fst s) (snd s)).
End Deliver.
Arguments label : clear implicits.
Arguments dstate : clear implicits.
