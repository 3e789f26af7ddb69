(** C68: the traceback and the local variables in the record of an exception. *)
From Verif Require Import Base Trace_Model.
Local Open Scope string_scope.
Local Open Scope list_scope.
Arguments Plain {F}. Arguments Logged {F}. Arguments Manual {F}.

(** ** What is expected *)
(** The frames that a layer leaves in the traceback, the outer first: wrappers of polog only if they are not cut. *)
Definition leaves {F} (cuts : bool) (l : layer F) : list F :=
  match l with Plain f | Manual f => [f] | Logged f w => if cuts then [f] else [w; f] end.
Definition frames {F} (cuts : bool) (ls : list (layer F)) : list F := flat_map (leaves cuts) (rev ls).
Definition writes {F} (l : layer F) : nat := match l with Plain _ => 0 | _ => 1 end.
Definition count {F} (ls : list (layer F)) : nat := fold_right plus 0 (map writes ls).

Section C68.
  Variable F : Type.
  Variable format_tb : list F -> Res (list string).
  Variable dumps : list string -> Res string.
  Variable dump_vars : F -> Res (option string).
  Local Notation unwind := (unwind F format_tb dumps dump_vars).
  Local Notation cross := (cross F format_tb dumps dump_vars).

  Lemma cross_frames : forall cuts tb l, fst (cross cuts tb l) = leaves cuts l ++ tb.
  Proof. intros [] tb [f|f w|f]; reflexivity. Qed.
  Lemma unwind_frames : forall cuts ls tb, fst (unwind cuts tb ls) = frames cuts ls ++ tb.
  Proof.
    intros cuts; induction ls as [|l r IH]; intros tb; [reflexivity|]; cbn [Trace_Model.unwind].
    pose proof (cross_frames cuts tb l) as C; destruct (cross cuts tb l) as [tb1 e1]; cbn in C; subst tb1.
    specialize (IH (leaves cuts l ++ tb)); destruct (unwind cuts (leaves cuts l ++ tb) r) as [tb2 e2]; cbn in IH |- *; rewrite IH.
    unfold frames; cbn [rev]; rewrite flat_map_app; cbn; rewrite app_nil_r, app_assoc; reflexivity.
  Qed.
  Lemma unwind_app : forall cuts a b tb, unwind cuts tb (a ++ b) =
    let '(t1, e1) := unwind cuts tb a in let '(t2, e2) := unwind cuts t1 b in (t2, e1 ++ e2).
  Proof.
    intros cuts; induction a as [|l r IH]; intros b tb; cbn [app Trace_Model.unwind]; [destruct (unwind cuts tb b); reflexivity|].
    destruct (cross cuts tb l) as [t1 e1]; rewrite IH; destruct (unwind cuts t1 r) as [t2 e2]; destruct (unwind cuts t2 b) as [t3 e3]; rewrite app_assoc; reflexivity.
  Qed.
  Lemma unwind_count : forall cuts ls tb, length (snd (unwind cuts tb ls)) = count ls.
  Proof.
    intros cuts; induction ls as [|l r IH]; intros tb; [reflexivity|]; cbn [Trace_Model.unwind].
    destruct (cross cuts tb l) as [t1 e1] eqn:C; specialize (IH t1); destruct (unwind cuts t1 r) as [t2 e2]; cbn in IH |- *; rewrite app_length, IH.
    destruct l; cbn in C; injection C as <- <-; reflexivity.
  Qed.

  (** C68: what the caller of the outermost function sees: every function once, and of polog's own wrappers nothing if they are cut. *)
  Theorem C68_caller_sees : forall cuts ls, fst (unwind cuts [] ls) = frames cuts ls.
  Proof. intros cuts ls; rewrite unwind_frames, app_nil_r; reflexivity. Qed.
  Corollary C68_no_wrapper : forall ls, fst (unwind true [] ls) = rev (map (fun l => match l with Plain f | Manual f => f | Logged f _ => f end) ls).
  Proof.
    intros ls; rewrite C68_caller_sees; unfold frames; rewrite <- map_rev; generalize (rev ls); clear ls.
    induction l as [|x r IH]; [reflexivity|]; cbn; rewrite IH; destruct x; reflexivity.
  Qed.

  (** C68: the record of a decorated function: the traceback begins with the function itself and goes on with what it called; the local
      variables are those of the function itself. *)
  Theorem C68_logged : forall cuts inner f w outer, (forall a b l1 l2, format_tb a = Ok l1 -> format_tb b = Ok l2 -> format_tb (a ++ b) = Ok (l1 ++ l2)) ->
    (exists x, format_tb [w] = Ok [x]) -> forall lines, format_tb (f :: frames cuts inner) = Ok lines ->
    exists r, nth_error (snd (unwind cuts [] (inner ++ Logged f w :: outer))) (count inner) = Some r /\
      r_traceback r = match dumps lines with Ok j => Ok j | Err _ => dumps [] end /\
      r_locals r = match dump_vars f with Ok v => v | Err _ => Some "" end.
  Proof.
    intros cuts inner f w outer FA [x FX] lines FL; rewrite unwind_app.
    pose proof (unwind_frames cuts inner []) as U; pose proof (unwind_count cuts inner []) as N; destruct (unwind cuts [] inner) as [t1 e1]; cbn [fst snd] in U, N; rewrite app_nil_r in U; subst t1.
    cbn [Trace_Model.unwind Trace_Model.cross].
    destruct (unwind cuts (cut_traceback F cuts (w :: f :: frames cuts inner)) outer) as [t2 e2]; cbn [snd app].
    rewrite nth_error_app2, N, Nat.sub_diag by lia; cbn [nth_error]; eexists; split; [reflexivity|]; cbn [r_traceback r_locals get_locals]; split; [|reflexivity].
    pose proof (FA [w] (f :: frames cuts inner) [x] lines FX FL) as Q; cbn [app] in Q; unfold get_traceback; rewrite Q; reflexivity.
  Qed.

  (** C68: the record of log(exception=e) in the function that caught e: the traceback begins with that function; the local variables are
      those of the next frame, if there is one. *)
  Theorem C68_manual : forall cuts inner f outer lines, format_tb (f :: frames cuts inner) = Ok lines ->
    exists r, nth_error (snd (unwind cuts [] (inner ++ Manual f :: outer))) (count inner) = Some r /\
      r_traceback r = match dumps lines with Ok j => Ok j | Err _ => dumps [] end /\
      (forall v, dump_vars (hd f (frames cuts inner)) = Ok (Some v) -> v <> "" -> r_locals r = Some v) /\
      (is_ok (dump_vars (hd f (frames cuts inner))) = false -> r_locals r = None).
  Proof.
    intros cuts inner f outer lines FL; rewrite unwind_app.
    pose proof (unwind_frames cuts inner []) as U; pose proof (unwind_count cuts inner []) as N; destruct (unwind cuts [] inner) as [t1 e1]; cbn [fst snd] in U, N; rewrite app_nil_r in U; subst t1.
    cbn [Trace_Model.unwind Trace_Model.cross].
    destruct (unwind cuts (f :: frames cuts inner) outer) as [t2 e2]; cbn [snd app].
    rewrite nth_error_app2, N, Nat.sub_diag by lia; cbn [nth_error]; eexists; split; [reflexivity|]; cbn [r_traceback r_locals].
    split; [unfold get_traceback; rewrite FL; reflexivity|].
    assert (G : get_locals F dump_vars (f :: frames cuts inner) = match dump_vars (hd f (frames cuts inner)) with Ok r => r | Err _ => Some "" end) by (destruct (frames cuts inner); reflexivity).
    rewrite G; split.
    - intros v -> Nv; destruct (String.eqb_spec v ""); [contradiction|reflexivity].
    - destruct (dump_vars _); [discriminate|reflexivity].
  Qed.

  (** C68: neither function raises as long as the json module can write an empty list: what cannot be told is replaced by '[]' and ''. *)
  Theorem C68_fallback : forall cut tb, is_ok (dumps []) = true ->
    is_ok (get_traceback F format_tb dumps cut tb) = true /\
    (is_ok (format_tb tb) = false -> get_traceback F format_tb dumps cut tb = dumps []) /\ get_locals F dump_vars [] = Some "".
  Proof.
    intros cut tb D; unfold get_traceback; split; [|split; [|reflexivity]].
    - destruct (bindR _ _); [reflexivity|exact D].
    - destruct (format_tb tb); [discriminate|reflexivity].
  Qed.

  (** C68: log(exception=e) tells the traceback of e if e is being handled. *)
  Theorem C68_handled : forall tb lines j, format_tb tb = Ok lines -> dumps lines = Ok j -> manual_traceback F format_tb dumps tb (Some tb) = Ok j.
  Proof. intros tb lines j FL D; unfold manual_traceback, get_traceback; rewrite FL; cbn; rewrite D; reflexivity. Qed.
End C68.

(** Frames by their names; the json text is the names in order. *)
Definition fmt (l : list string) : Res (list string) := Ok l.
Definition js (l : list string) : Res string := Ok (String.concat "," l).
Definition vars (f : string) : Res (option string) := Ok (Some ("of " ++ f)%string).

(** C68: the local variables are not those of the function where the exception was raised (the docstring says 'of the last frame'). *)
Theorem C68_locals_of_last_frame_refuted : ~ (forall cuts f w inner last r, nth_error (snd (unwind string fmt js vars cuts [] (Plain last :: inner ++ [Logged f w]))) 0 = Some r -> count inner = 0 ->
  r_locals r = Some ("of " ++ last)%string).
Proof. intros H; specialize (H true "f" "wrapper" [] "g" _ eq_refl eq_refl); vm_compute in H; discriminate. Qed.
(** C68: without cutting, log(exception=e) around the call of a decorated function tells the variables of polog's wrapper. *)
Theorem C68_manual_locals_refuted : ~ (forall cuts f w g r, nth_error (snd (unwind string fmt js vars cuts [] [Logged f w; Manual g])) 1 = Some r ->
  r_locals r = Some ("of " ++ f)%string \/ r_locals r = Some ("of " ++ g)%string).
Proof. intros H; specialize (H false "f" "wrapper" "g" _ eq_refl); vm_compute in H; destruct H; discriminate. Qed.
(** C68: log(exception=e) outside of the except block tells no traceback, and in the except block of another exception that of the other. *)
Theorem C68_own_traceback_refuted : ~ (forall tb handled, manual_traceback string fmt js tb handled = js tb).
Proof. intros H; specialize (H ["f"] (Some ["other"])); discriminate. Qed.

(** Example: h raises, decorated f called h, g caught it and logged it by hand; cutting on. *)
Example ex_chain : unwind string fmt js vars true [] [Plain "h"; Logged "f" "wrapper"; Manual "g"] =
  (["g"; "f"; "h"], [mkRec (Ok "f,h") (Some "of f"); mkRec (Ok "g,f,h") (Some "of f")]).
Proof. reflexivity. Qed.

Print Assumptions C68_caller_sees.
Print Assumptions C68_no_wrapper.
Print Assumptions C68_logged.
Print Assumptions C68_manual.
Print Assumptions C68_fallback.
Print Assumptions C68_handled.
Print Assumptions C68_locals_of_last_frame_refuted.
Print Assumptions C68_manual_locals_refuted.
Print Assumptions C68_own_traceback_refuted.
