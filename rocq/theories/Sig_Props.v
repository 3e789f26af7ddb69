(** C47: signature matching. *)
From Coq Require Import Lia Permutation.
From Verif Require Import Base Sig_Model.
Local Open Scope string_scope.
Local Open Scope list_scope.

(** ** The parameter lists of Python, as the grammar writes them:
    [def f(po, po_d=…, /, pk, pk_d=…, *args, ko, ko_d=…, **kwargs)]. *)
Record pydef : Type := mkDef {
  po : list string; po_d : list string;      (* positional-only, without and with default *)
  pk : list string; pk_d : list string;      (* ordinary, without and with default *)
  star : option string;
  ko : list string; ko_d : list string;      (* keyword-only, in any order: here those without default first *)
  star2 : option string }.
Definition mk (k : pkind) (d : bool) (n : string) : param := mkP n k d.
Definition opt {B C} (f : B -> C) (o : option B) : list C := match o with None => [] | Some x => [f x] end.
Definition params (d : pydef) : list param :=
  map (mk PositionalOnly false) (po d) ++ map (mk PositionalOnly true) (po_d d) ++
  map (mk PositionalOrKeyword false) (pk d) ++ map (mk PositionalOrKeyword true) (pk_d d) ++
  opt (mk VarPositional false) (star d) ++ map (mk KeywordOnly false) (ko d) ++ map (mk KeywordOnly true) (ko_d d) ++ opt (mk VarKeyword false) (star2 d).
(** A parameter without default cannot follow one with a default. *)
Definition grammatical (d : pydef) : Prop := po_d d <> [] -> pk d = [].

(** What Python does with f(x1, …, xn): the first n positional parameters take the arguments, a surplus needs *args, all the rest needs defaults. *)
Definition binds (n : nat) (ps : list param) : bool :=
  let pos := filter (fun p => match kind p with PositionalOnly | PositionalOrKeyword => true | _ => false end) ps in
  let kws := filter (fun p => match kind p with KeywordOnly => true | _ => false end) ps in
  (Nat.leb n (length pos) || existsb (fun p => match kind p with VarPositional => true | _ => false end) ps) &&
  forallb has_default (skipn n pos) && forallb has_default kws.

Section C47.
  Variable isident : string -> bool.
  Hypothesis dot_no : isident "." = false.
  Hypothesis star_no : isident "*" = false.
  Hypothesis star2_no : isident "**" = false.
  Notation match_ := match_.
  Notation init := (init isident).

  Lemma filter_map_all : forall (f : param -> bool) k d l, (forall n, f (mk k d n) = true) -> filter f (map (mk k d) l) = map (mk k d) l.
  Proof using. intros f k d l H; induction l as [|x l IH]; cbn; [reflexivity|rewrite H, IH; reflexivity]. Qed.
  Lemma filter_map_none : forall (f : param -> bool) k d l, (forall n, f (mk k d n) = false) -> filter f (map (mk k d) l) = [].
  Proof using. intros f k d l H; induction l as [|x l IH]; cbn; [reflexivity|rewrite H, IH; reflexivity]. Qed.
  Ltac parts := unfold params; rewrite !filter_app;
    repeat match goal with |- context [filter ?f (map (mk ?k ?d) ?l)] =>
      first [rewrite (filter_map_all f k d l) by (intros; reflexivity) | rewrite (filter_map_none f k d l) by (intros; reflexivity)] end; cbn [app].
  Lemma part_star : forall d, filter is_var_positional (params d) = opt (mk VarPositional false) (star d).
  Proof using. intros d; parts. destruct (star d), (star2 d); reflexivity. Qed.
  Lemma part_star2 : forall d, filter is_var_keyword (params d) = opt (mk VarKeyword false) (star2 d).
  Proof using. intros d; parts. destruct (star d), (star2 d); reflexivity. Qed.
  Lemma part_pos : forall d, filter (fun p => is_positional p && negb (has_default p)) (params d) = map (mk PositionalOnly false) (po d) ++ map (mk PositionalOrKeyword false) (pk d).
  Proof using. intros d; parts. destruct (star d), (star2 d); cbn; rewrite ?app_nil_r; reflexivity. Qed.
  Lemma part_named : forall d, filter (fun p => is_named p && has_default p) (params d) = map (mk PositionalOrKeyword true) (pk_d d) ++ map (mk KeywordOnly true) (ko_d d).
  Proof using. intros d; parts. destruct (star d), (star2 d); cbn; rewrite ?app_nil_r; reflexivity. Qed.
  Lemma map_pname : forall k d l, map pname (map (mk k d) l) = l.
  Proof using. intros k d l; rewrite map_map; cbn; apply map_id. Qed.
  Lemma existsb_In : forall s l, existsb (String.eqb s) l = true <-> In s l.
  Proof using.
    intros s l; rewrite existsb_exists; split; [intros (x & I & E); apply String.eqb_eq in E; subst; exact I|intros I; exists s; split; [exact I|apply String.eqb_refl]].
  Qed.

  Definition count (s : string) (l : list string) : nat := count_occ string_dec l s.
  Lemma filter_eqb_count : forall s l, length (filter (String.eqb s) l) = count s l.
  Proof using.
    intros s l; induction l as [|x l IH]; cbn; [reflexivity|]. destruct (String.eqb_spec s x) as [->|N]; cbn.
    - destruct (string_dec x x); [rewrite IH; reflexivity|contradiction].
    - destruct (string_dec x s); [congruence|exact IH].
  Qed.

  (** A pattern matches a definition exactly when: *args on both sides or on neither, **kwargs likewise, as many dots as positional parameters
      without default, as many identifiers as ordinary or keyword-only parameters with default, all identifiers are names of such. *)
  Theorem C47_match : forall pat d, match_ (init pat) (Callable (params d)) = Ok true <->
    ((In "*" pat <-> star d <> None) /\ (In "**" pat <-> star2 d <> None) /\
     count "." pat = length (po d) + length (pk d) /\
     length (filter isident pat) = length (pk_d d) + length (ko_d d) /\
     (forall n, In n pat -> isident n = true -> In n (pk_d d ++ ko_d d))).
  Proof using.
    clear dot_no star_no star2_no. intros pat d. unfold match_, prove_is_args, prove_is_kwargs, prove_number_of_position_args, prove_number_of_named_args, prove_names_of_named_args, init.
    cbn [is_args is_kwargs number_of_position_args number_of_named_args names_of_named_args].
    rewrite part_star, part_star2, part_pos, part_named, map_app, !map_pname, !app_length, !map_length, filter_eqb_count.
    assert (F : forall k s o, Bool.eqb (existsb (String.eqb s) pat) (nonempty (opt (mk k false) o)) = true <-> (In s pat <-> o <> None)).
    { intros k s o. rewrite Bool.eqb_true_iff, <- (existsb_In s pat). destruct o as [x|]; cbn.
      - split; [intros ->; split; [discriminate|reflexivity]|intros Y; apply Y; discriminate].
      - split; [intros ->; split; [discriminate|intros Y; elim Y; reflexivity]|]. intros Y. destruct (existsb (String.eqb s) pat); [|reflexivity].
        elim (proj1 Y); reflexivity. }
    rewrite <- (F VarPositional), <- (F VarKeyword).
    split.
    - intros H; injection H as H. rewrite !Bool.andb_true_iff, !Nat.eqb_eq, forallb_forall in H. destruct H as ((((A & B) & C) & D) & E).
      split; [exact A|split; [exact B|split; [exact C|split; [exact D|]]]].
      intros n I J. apply existsb_In. apply E. apply nodup_In, filter_In; split; assumption.
    - intros (A & B & C & D & E). f_equal. rewrite !Bool.andb_true_iff, !Nat.eqb_eq, forallb_forall. repeat (split; [|]); try assumption.
      intros n I. apply nodup_In, filter_In in I. apply existsb_In, E; apply I.
  Qed.

  (** The pattern the documentation writes for a definition. *)
  Definition pattern (d : pydef) : list string :=
    map (fun _ => ".") (po d ++ pk d) ++ (pk_d d ++ ko_d d) ++ opt (fun _ => "*") (star d) ++ opt (fun _ => "**") (star2 d).
  (** No parameter that the matcher does not see; the names are identifiers, all different. *)
  Definition plain (d : pydef) : Prop := po_d d = [] /\ ko d = [] /\ NoDup (pk_d d ++ ko_d d) /\ forall n, In n (pk_d d ++ ko_d d) -> isident n = true.
  (** Two definitions of the same shape: the order of the parameters with default does not matter. *)
  Definition same_shape (d e : pydef) : Prop :=
    length (po d) + length (pk d) = length (po e) + length (pk e) /\ Permutation (pk_d d ++ ko_d d) (pk_d e ++ ko_d e) /\
    (star d <> None <-> star e <> None) /\ (star2 d <> None <-> star2 e <> None).

  Lemma filter_all : forall B (f : B -> bool) l, (forall x, In x l -> f x = true) -> filter f l = l.
  Proof using. intros B f l H; induction l as [|x l IH]; cbn; [reflexivity|]. rewrite H by (left; reflexivity). rewrite IH; [reflexivity|intros y I; apply H; right; exact I]. Qed.
  Lemma pattern_ident : forall d, plain d -> filter isident (pattern d) = pk_d d ++ ko_d d.
  Proof using dot_no star_no star2_no.
    intros d (_ & _ & _ & P). unfold pattern. rewrite filter_app, (filter_app _ (pk_d d ++ ko_d d)), (filter_app _ (opt _ (star d))).
    rewrite (filter_all _ isident (pk_d d ++ ko_d d) P).
    assert (A : forall l : list string, filter isident (map (fun _ => ".") l) = []) by (induction l as [|x l IH]; cbn; [reflexivity|rewrite dot_no; exact IH]).
    rewrite A. destruct (star d), (star2 d); cbn; rewrite ?star_no, ?star2_no; cbn; rewrite ?app_nil_r; reflexivity.
  Qed.
  Lemma pattern_in : forall d s, In s (pattern d) -> isident s = false -> plain d -> s = "." \/ (s = "*" /\ star d <> None) \/ (s = "**" /\ star2 d <> None).
  Proof using.
    clear dot_no star_no star2_no. intros d s I J (_ & _ & _ & P). unfold pattern in I. apply in_app_or in I; destruct I as [I|I].
    - apply in_map_iff in I; destruct I as (_ & <- & _); left; reflexivity.
    - apply in_app_or in I; destruct I as [I|I]; [rewrite (P s I) in J; discriminate|].
      apply in_app_or in I; destruct I as [I|I]; [destruct (star d) as [x|]|destruct (star2 d) as [x|]]; cbn in I; try contradiction;
        destruct I as [<-|[]]; right; [left|right]; split; try reflexivity; discriminate.
  Qed.
  Lemma count_app : forall s a b, count s (a ++ b) = count s a + count s b.
  Proof using. intros; apply count_occ_app. Qed.
  Lemma pattern_count : forall d, plain d -> count "." (pattern d) = length (po d) + length (pk d).
  Proof using dot_no.
    intros d (_ & _ & _ & P). unfold pattern. rewrite !count_app.
    assert (A : forall l : list string, count "." (map (fun _ => ".") l) = length l) by (induction l as [|x l IH]; cbn; [reflexivity|unfold count in IH; rewrite IH; reflexivity]).
    rewrite A, app_length. assert (B : forall l, (forall n, In n l -> isident n = true) -> count "." l = 0).
    { intros l H. unfold count. apply count_occ_not_In. intros I; rewrite (H _ I) in dot_no; discriminate. }
    rewrite <- count_app, (B _ P).
    destruct (star d), (star2 d); cbn; lia.
  Qed.
  Lemma pattern_star : forall d, plain d -> (In "*" (pattern d) <-> star d <> None).
  Proof using star_no.
    clear dot_no star2_no.
    intros d P; split.
    - intros I; destruct (pattern_in d _ I star_no P) as [H|[(_ & H)|(H & _)]]; [discriminate|exact H|discriminate].
    - intros H; unfold pattern; do 2 (apply in_or_app; right); apply in_or_app; left. destruct (star d); [left; reflexivity|elim H; reflexivity].
  Qed.
  Lemma pattern_star2 : forall d, plain d -> (In "**" (pattern d) <-> star2 d <> None).
  Proof using star2_no.
    clear dot_no star_no.
    intros d P; split.
    - intros I; destruct (pattern_in d _ I star2_no P) as [H|[(H & _)|(_ & H)]]; [discriminate|discriminate|exact H].
    - intros H; unfold pattern; do 3 (apply in_or_app; right). destruct (star2 d); [left; reflexivity|elim H; reflexivity].
  Qed.

  (** For definitions without the parameters the matcher does not see, the documented pattern of one, in any order, matches exactly the
      definitions of the same shape - its own first of all. *)
  Theorem C47_exact : forall d e pat, plain d -> plain e -> Permutation pat (pattern d) ->
    (match_ (init pat) (Callable (params e)) = Ok true <-> same_shape d e).
  Proof using dot_no star_no star2_no.
    intros d e pat Pd Pe PP. rewrite C47_match.
    assert (IN : forall s, In s pat <-> In s (pattern d)) by (intros s; split; apply Permutation_in; [exact PP|apply Permutation_sym, PP]).
    rewrite !IN. rewrite (pattern_star d Pd), (pattern_star2 d Pd).
    assert (CN : count "." pat = length (po d) + length (pk d)) by (rewrite <- (pattern_count d Pd); unfold count; apply Permutation_count_occ; exact PP).
    assert (FL : Permutation (filter isident pat) (pk_d d ++ ko_d d)).
    { rewrite <- (pattern_ident d Pd). clear - PP. induction PP as [|x l l' P IH|x y l|l l' l'' P1 IH1 P2 IH2]; cbn.
      - constructor.
      - destruct (isident x); [constructor; exact IH|exact IH].
      - destruct (isident x), (isident y); try apply Permutation_refl. apply perm_swap.
      - apply Permutation_trans with (filter isident l'); assumption. }
    rewrite (Permutation_length FL), CN.
    assert (NM : (forall n, In n pat -> isident n = true -> In n (pk_d e ++ ko_d e)) <-> incl (pk_d d ++ ko_d d) (pk_d e ++ ko_d e)).
    { split.
      - intros H n I. assert (J : In n (filter isident pat)) by (apply (Permutation_in _ (Permutation_sym FL)); exact I). apply filter_In in J; apply H; apply J.
      - intros H n I J. apply H. apply (Permutation_in _ FL). apply filter_In; split; assumption. }
    rewrite NM. unfold same_shape. rewrite <- app_length. split.
    - intros (A & B & C & D & E). split; [exact C|split; [|split; [exact A|exact B]]].
      apply NoDup_Permutation_bis; [apply Pd|rewrite D, <- app_length; apply Nat.le_refl|exact E].
    - intros (A & B & C & D). split; [exact C|split; [exact D|split; [exact A|split]]].
      + rewrite (Permutation_length B); apply app_length.
      + intros n I; apply (Permutation_in _ B I).
  Qed.

  (** The order in which the parameters are reported plays no role (so the fixed order of [params] loses nothing). *)
  Lemma filter_perm : forall (f : param -> bool) l l', Permutation l l' -> Permutation (filter f l) (filter f l').
  Proof using.
    intros f l l' P. induction P as [|x l l' P IH|x y l|l l' l'' P1 IH1 P2 IH2]; cbn.
    - constructor.
    - destruct (f x); [constructor; exact IH|exact IH].
    - destruct (f x), (f y); try apply Permutation_refl. apply perm_swap.
    - apply Permutation_trans with (filter f l'); assumption.
  Qed.
  Theorem C47_order : forall pat ps qs, Permutation ps qs -> match_ (init pat) (Callable ps) = match_ (init pat) (Callable qs).
  Proof using.
    clear dot_no star_no star2_no. intros pat ps qs P. cbn [match_]. f_equal.
    assert (NE : forall f, nonempty (filter f ps) = nonempty (filter f qs)).
    { intros f. pose proof (Permutation_length (filter_perm f _ _ P)) as L. destruct (filter f ps), (filter f qs); cbn in L |- *; try reflexivity; discriminate. }
    unfold prove_is_args, prove_is_kwargs, prove_number_of_position_args, prove_number_of_named_args, prove_names_of_named_args.
    rewrite !NE, !(Permutation_length (filter_perm _ _ _ P)). f_equal.
    assert (X : forall n, existsb (String.eqb n) (map pname (filter (fun p => is_named p && has_default p) ps)) =
                          existsb (String.eqb n) (map pname (filter (fun p => is_named p && has_default p) qs))).
    { intros n. apply Bool.eq_true_iff_eq. rewrite !existsb_In. pose proof (Permutation_map pname (filter_perm (fun p => is_named p && has_default p) _ _ P)) as Q.
      split; apply Permutation_in; [exact Q|apply Permutation_sym, Q]. }
    induction (names_of_named_args (init pat)) as [|n l IH]; cbn; [reflexivity|rewrite X, IH; reflexivity].
  Qed.

  (** A handler is a callable with exactly one positional parameter without default and otherwise only parameters the matcher does not see. *)
  Theorem C47_handler : forall d r, is_handler isident (Callable (params d)) r = Ok true <->
    length (po d) + length (pk d) = 1 /\ pk_d d = [] /\ ko_d d = [] /\ star d = None /\ star2 d = None.
  Proof using dot_no.
    intros d r. unfold is_handler.
    assert (E : forall b, match match_ (init ["."]) (Callable (params d)) with Ok b => Ok b | Err e => if r then Err e else Ok false end = Ok b <->
                          match_ (init ["."]) (Callable (params d)) = Ok b) by (intros b; cbn [match_]; reflexivity).
    rewrite E, C47_match. cbn [In filter count count_occ]. rewrite dot_no. cbn [length].
    assert (ST : forall (o : option string) s, s <> "." -> (("." = s \/ False) <-> o <> None) <-> o = None).
    { intros o s N. destruct o as [x|]; split; intros H; try discriminate; try reflexivity.
      - assert (K : "." = s \/ False) by (apply H; discriminate). destruct K as [K|[]]; elim N; congruence.
      - split; [intros [K|[]]; elim N; congruence|intros K; elim K; reflexivity]. }
    rewrite !ST by discriminate. unfold count; cbn [count_occ]. destruct (string_dec "." ".") as [_|N]; [|elim N; reflexivity].
    split.
    - intros (A & B & C & D & _). split; [symmetry; exact C|]. destruct (pk_d d), (ko_d d); cbn in D; try discriminate. auto.
    - intros (A & B & C & D & E'). rewrite B, C. split; [exact D|split; [exact E'|split; [symmetry; exact A|split; [reflexivity|]]]].
      intros n [<-|[]] J; congruence.
  Qed.
  (** Whatever is not callable, or has no readable signature, is not a handler: refused with ValueError or answered False, as asked. *)
  Theorem C47_refuses : forall f, (f = NotCallable \/ f = Unreadable) ->
    (forall pat, match_ (init pat) f = Err EValueError) /\ is_handler isident f true = Err EValueError /\ is_handler isident f false = Ok false.
  Proof using. clear. intros f [-> | ->]; split; try split; reflexivity. Qed.
  Theorem C47_total : forall f pat ps, f = Callable ps -> exists b, match_ (init pat) f = Ok b /\ forall r, exists c, is_handler isident f r = Ok c.
  Proof using. clear. intros f pat ps ->. eexists; split; [reflexivity|]. intros r. eexists. reflexivity. Qed.

  (** A handler without keyword-only parameters lacking a default can be called with one positional argument, and not with none. *)
  Theorem C47_callable : forall d r, grammatical d -> is_handler isident (Callable (params d)) r = Ok true -> ko d = [] ->
    binds 1 (params d) = true /\ binds 0 (params d) = false.
  Proof using dot_no.
    intros d r G H K. apply C47_handler in H. destruct H as (A & B & C & D & E).
    unfold binds, params. rewrite B, C, D, E, K. cbn [map opt app]. rewrite !app_nil_r.
    destruct (po d) as [|a [|? ?]]; cbn in A.
    - destruct (pk d) as [|b [|? ?]] eqn:Ek; cbn in A; try discriminate.
      destruct (po_d d) as [|c q] eqn:Ep; [split; reflexivity|]. unfold grammatical in G; rewrite Ep, Ek in G. assert (X : [b] = []) by (apply G; discriminate). discriminate.
    - destruct (pk d); [|discriminate]. cbn [map app]. rewrite ?app_nil_r.
      assert (Z : filter (fun p => match kind p with PositionalOnly | PositionalOrKeyword => true | _ => false end) (map (mk PositionalOnly true) (po_d d)) = map (mk PositionalOnly true) (po_d d)).
      { induction (po_d d) as [|x l IH]; cbn; [reflexivity|rewrite IH; reflexivity]. }
      assert (Y : filter (fun p => match kind p with KeywordOnly => true | _ => false end) (map (mk PositionalOnly true) (po_d d)) = []).
      { clear. induction (po_d d) as [|x l IH]; cbn; [reflexivity|exact IH]. }
      assert (W : forallb has_default (map (mk PositionalOnly true) (po_d d)) = true) by (clear; induction (po_d d) as [|x l IH]; cbn; [reflexivity|exact IH]).
      cbn [filter kind mk length skipn Nat.leb orb andb forallb has_default]. rewrite Z, Y. cbn [forallb]. rewrite W. split; reflexivity.
    - discriminate.
  Qed.
  (** With such a parameter, an accepted "handler" cannot be called the way the engine calls handlers. *)
  Theorem C47_accepted_is_callable_refuted : ~ forall d r, grammatical d -> is_handler isident (Callable (params d)) r = Ok true -> binds 1 (params d) = true.
  Proof using dot_no.
    intros H. specialize (H (mkDef [] [] ["log_item"] [] None ["stream"] [] None) true).
    assert (X : binds 1 (params (mkDef [] [] ["log_item"] [] None ["stream"] [] None)) = true).
    { apply H; [intros Q; elim Q; reflexivity|]. apply C47_handler; cbn; auto. }
    discriminate.
  Qed.
  (** And many callables that take one argument are refused: handler( *args), or handler(log, mode='a'). *)
  Theorem C47_callable_is_accepted_refuted : ~ forall d r, grammatical d -> binds 1 (params d) = true -> is_handler isident (Callable (params d)) r = Ok true.
  Proof using dot_no.
    intros H. specialize (H (mkDef [] [] ["log_item"] ["mode"] None [] [] None) true).
    assert (X : is_handler isident (Callable (params (mkDef [] [] ["log_item"] ["mode"] None [] [] None))) true = Ok true) by (apply H; [intros Q; elim Q; reflexivity|reflexivity]).
    apply C47_handler in X. destruct X as (_ & X & _). discriminate.
  Qed.
End C47.

(** The definition of the documentation: def func(a, b, c=5, *d, **e). *)
Definition some_ident (s : string) : bool := negb (existsb (String.eqb s) ["."; "*"; "**"; ""]).
Example ex_doc : match_ (init some_ident ["."; "."; "c"; "*"; "**"]) (Callable (params (mkDef [] [] ["a"; "b"] ["c"] (Some "d") [] [] (Some "e")))) = Ok true /\
  match_ (init some_ident ["**"; "c"; "."; "*"; "."]) (Callable (params (mkDef [] [] ["a"; "b"] ["c"] (Some "d") [] [] (Some "e")))) = Ok true /\
  match_ (init some_ident ["."; "."; "c"; "**"]) (Callable (params (mkDef [] [] ["a"; "b"] ["c"] (Some "d") [] [] (Some "e")))) = Ok false.
Proof. split; [|split]; reflexivity. Qed.
(** A repeated name in a pattern counts twice but is looked for once. *)
Example ex_repeated : match_ (init some_ident ["a"; "a"]) (Callable (params (mkDef [] [] [] ["a"; "b"] None [] [] None))) = Ok true.
Proof. reflexivity. Qed.
Example ex_plain : plain some_ident (mkDef [] [] ["a"; "b"] ["c"] (Some "d") [] ["k"] (Some "e")).
Proof. split; [reflexivity|split; [reflexivity|split]]. - repeat constructor; cbn; intuition discriminate. - intros n [<-|[<-|[]]]; reflexivity. Qed.
Example ex_handler : is_handler some_ident (Callable (params (mkDef ["log"] ["x"] [] [] None [] [] None))) true = Ok true /\
  is_handler some_ident NotCallable false = Ok false.
Proof. split; reflexivity. Qed.

Print Assumptions C47_match.
Print Assumptions C47_exact.
Print Assumptions C47_order.
Print Assumptions C47_handler.
Print Assumptions C47_refuses.
Print Assumptions C47_total.
Print Assumptions C47_callable.
Print Assumptions C47_accepted_is_callable_refuted.
Print Assumptions C47_callable_is_accepted_refuted.
