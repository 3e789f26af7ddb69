(** What a class decorator means for one method, independently of the registry: the decorations it adds. *)
From Verif Require Import Base Deco_Model Deco_Spec DecoClass_Model.
Local Open Scope string_scope.
Local Open Scope list_scope.

Section Spec.
  Context {P : Type}.

  (** The layers of a function with a stack of decorations. *)
  Definition stacked (ds : list (deco P)) : list (layer P) :=
    let '(g, cur) := chain (step empty Def) 0 (map Mine ds) in layers g cur.

  Definition dunder_start (n : string) : Prop := exists r, n = String.append "__" r.
  Definition dunder_end (n : string) : Prop := exists r, n = String.append r "__".

  (** The decorations that one class decorator adds to method n. *)
  Inductive adds (n : string) : cop P -> list (deco P) -> Prop :=
  | adds_all : forall p, ~ dunder_start n -> ~ dunder_end n -> adds n (CLog [] p) [DMeth p]
  | adds_all_dunder : forall p, dunder_start n \/ dunder_end n -> adds n (CLog [] p) []
  | adds_named : forall ms p, ms <> [] -> In n ms -> adds n (CLog ms p) (repeat (DMeth p) (count_occ string_dec ms n))
  | adds_unnamed : forall ms p, ms <> [] -> ~ In n ms -> ~ dunder_start n -> ~ dunder_end n -> adds n (CLog ms p) [DOrig]
  | adds_unnamed_dunder : forall ms p, ms <> [] -> ~ In n ms -> dunder_start n \/ dunder_end n -> adds n (CLog ms p) []
  | adds_unlog : forall b, ~ dunder_start n -> adds n (CUnlog b) [DUnlog b]
  | adds_unlog_dunder : forall b, dunder_start n -> adds n (CUnlog b) [].

  Inductive adds_list (n : string) : list (cop P) -> list (deco P) -> Prop :=
  | al_nil : adds_list n [] []
  | al_cons : forall o os ds ds', adds n o ds -> adds_list n os ds' -> adds_list n (o :: os) (ds ++ ds').
End Spec.
