(** The whole record of a manual call (C34) and all that message(...) stores (C28), field by field. *)
From Coq Require Import Lia.
From Verif Require Import Base Handle_Model Handle_Spec Handle_Proofs Handle_Props Supp_Model Call_Model Call_Spec Call_Proofs Call_Props.
Local Open Scope string_scope.
Local Open Scope list_scope.

(** ** What is expected; [p]: the accepted arguments under their canonical names (C34_exactly_the_expected_fields) *)
(** What an exception that was given says about a field: an exception object tells its class, its text, where it was raised and
    the local variables there (if any); of a string only the class is known. *)
Definition told (w : env) (p : fields) (k : string) : option val :=
  match fget p "exception" with
  | Some (VStr s) => if String.eqb k "exception_type" then Some (VStr s) else None
  | Some (VExc e) =>
      if e_exc e then
        if String.eqb k "exception_type" then Some (VStr (cname w (e_cls e)))
        else if String.eqb k "exception_message" then match estr w e with Ok t => Some (VStr t) | Err _ => None end
        else if String.eqb k "traceback" then Some (VStr (tbk w))
        else if String.eqb k "local_variables" then if String.eqb (locs w) "" then None else Some (VStr (locs w))
        else None
      else None
  | _ => None
  end.
(** Otherwise a field is what the user gave. *)
Definition or_given (p : fields) (k : string) (x : option val) : option val := match x with Some v => Some v | None => fget p k end.
Definition has (p : fields) (k : string) : bool := match fget p k with Some _ => true | None => false end.
(** The name and the module of a callable. *)
Definition name_of (v : val) : option val :=
  match v with VFun _ (Some n) _ _ => Some (VStr n) | VFun _ None t _ => Some (VStr t) | VClass _ n _ => Some (VStr n) | _ => None end.
Definition module_of (v : val) : option val :=
  match v with VFun _ _ _ (Some m) | VClass _ _ (Some m) => Some (VStr m) | _ => None end.
Definition of_function (p : fields) (g : val -> option val) : option val := match fget p "function" with Some v => g v | None => None end.

(** The fields of the record of log(...). *)
Definition shown (c : cfg) (w : env) (p : fields) (k : string) : option val :=
  if String.eqb k "auto" then Some (VBool false)
  else if String.eqb k "service_name" then or_given p k (option_map VStr (c_service c))
  else if String.eqb k "exception" then None
  else if String.eqb k "success" then if has p "exception" then Some (VBool false) else fget p k
  else if String.eqb k "level" then
    match fget p k with
    | Some v => Some v
    | None => Some (VInt (if has p "exception" || negb (succeeded p) then c_error c else c_default c))
    end
  else if String.eqb k "function" then or_given p k (of_function p name_of)
  else if String.eqb k "module" then or_given p k (of_function p module_of)
  else if String.eqb k "time" then match fget p k with Some v => Some v | None => Some (now w) end
  else or_given p k (told w p k).
(** The fields that message(...) stores: the same, but nothing is decided by the exception and no default is added. *)
Definition shown_message (w : env) (p : fields) (k : string) : option val :=
  if String.eqb k "exception" then None else or_given p k (told w p k).
(** Reading the exception can fail: its str() is the user's code. *)
Definition readable (w : env) (p : fields) : Res unit :=
  match fget p "exception" with
  | Some (VExc e) => if e_exc e then match estr w e with Ok _ => Ok tt | Err x => Err x end else Ok tt
  | _ => Ok tt
  end.

(** ** Proofs *)
Lemma nodup_prepare : forall c fb all args kw p, prepare c fb all args kw = Ok p -> NoDup (map fst p).
Proof.
  intros c fb all args kw p H; unfold prepare in H; destruct (put_args c args) as [d|x] eqn:E; cbn [bindR] in H; [|discriminate].
  eapply nodup_put_kws; [exact H|].
  unfold put_args in E; destruct (match args with _ :: _ :: _ => maybe_raise c EValueError | _ => Ok tt end); cbn [bindR] in E; [|discriminate].
  injection E as <-; destruct args; cbn; [constructor|constructor; [intros []|constructor]].
Qed.

Definition after_exc (c : cfg) (s l : bool) (f3 : fields) : fields :=
  let f4 := fdel f3 "exception" in
  let f5 := if s then fset f4 "success" (VBool false) else f4 in
  if l then match fget f5 "level" with Some _ => f5 | None => fset f5 "level" (VInt (c_error c)) end else f5.
Lemma after_exc_get : forall c s l f3 k, NoDup (map fst f3) -> fget (after_exc c s l f3) k =
  if String.eqb k "exception" then None
  else if String.eqb k "success" && s then Some (VBool false)
  else if String.eqb k "level" && l then match fget f3 k with Some v => Some v | None => Some (VInt (c_error c)) end
  else fget f3 k.
Proof.
  intros c s l f3 k N; unfold after_exc; cbv zeta.
  assert (D : forall q, fget (fdel f3 "exception") q = if String.eqb q "exception" then None else fget f3 q).
  { intros q; destruct (String.eqb_spec q "exception") as [->|Nq]; [apply fdel_gone; exact N|apply fdel_other; congruence]. }
  assert (F5 : forall q, fget (if s then fset (fdel f3 "exception") "success" (VBool false) else fdel f3 "exception") q =
     if String.eqb q "exception" then None else if String.eqb q "success" && s then Some (VBool false) else fget f3 q).
  { intros q; destruct s; [rewrite fget_fset, D|rewrite D, Bool.andb_false_r; reflexivity].
    rewrite Bool.andb_true_r; destruct (String.eqb_spec q "success") as [->|]; reflexivity. }
  destruct l; [|rewrite F5, Bool.andb_false_r; reflexivity].
  rewrite Bool.andb_true_r, (F5 "level"); cbn [String.eqb Ascii.eqb Bool.eqb andb].
  destruct (fget f3 "level") as [v|] eqn:L.
  - rewrite F5; destruct (String.eqb_spec k "level") as [->|]; [rewrite L; reflexivity|reflexivity].
  - rewrite fget_fset, F5; destruct (String.eqb_spec k "level") as [->|]; [rewrite L; reflexivity|reflexivity].
Qed.

Lemma extract_get : forall c w f s l, NoDup (map fst f) ->
  match readable w f with
  | Err x => extract_exception c w f s l = Err x
  | Ok _ => exists f', extract_exception c w f s l = Ok f' /\ forall k, fget f' k =
      if has f "exception" then
        if String.eqb k "exception" then None
        else if String.eqb k "success" && s then Some (VBool false)
        else if String.eqb k "level" && l then match fget f k with Some v => Some v | None => Some (VInt (c_error c)) end
        else or_given f k (told w f k)
      else fget f k
  end.
Proof.
  intros c w f s l N; unfold readable, extract_exception, has; destruct (fget f "exception") as [x|] eqn:X.
  2:{ exists f; split; [reflexivity|intros k; reflexivity]. }
  assert (K : forall f3, NoDup (map fst f3) -> (forall k, fget f3 k = or_given f k (told w f k)) ->
    exists f', Ok (after_exc c s l f3) = Ok f' /\ forall k, fget f' k =
        if String.eqb k "exception" then None
        else if String.eqb k "success" && s then Some (VBool false)
        else if String.eqb k "level" && l then match fget f k with Some v => Some v | None => Some (VInt (c_error c)) end
        else or_given f k (told w f k)).
  { intros f3 N3 G; eexists; split; [reflexivity|]; intros k; rewrite (after_exc_get c s l f3 k N3).
    destruct (String.eqb k "exception"); [reflexivity|]; destruct (String.eqb k "success" && s); [reflexivity|].
    destruct (String.eqb_spec k "level") as [->|]; cbn [andb]; [|apply G].
    rewrite (G "level"); assert (T : told w f "level" = None) by (unfold told; rewrite X; destruct x; try reflexivity; destruct (e_exc e); reflexivity).
    rewrite T; reflexivity. }
  assert (TE : forall k, told w f k = match x with
     | VStr s => if String.eqb k "exception_type" then Some (VStr s) else None
     | VExc e => if e_exc e then
        if String.eqb k "exception_type" then Some (VStr (cname w (e_cls e)))
        else if String.eqb k "exception_message" then match estr w e with Ok t => Some (VStr t) | Err _ => None end
        else if String.eqb k "traceback" then Some (VStr (tbk w))
        else if String.eqb k "local_variables" then if String.eqb (locs w) "" then None else Some (VStr (locs w)) else None
        else None
     | _ => None end) by (intros k; unfold told; rewrite X; reflexivity).
  change (fun f3 => let f4 := fdel f3 "exception" in let f5 := if s then fset f4 "success" (VBool false) else f4 in
      Ok (if l then match fget f5 "level" with Some _ => f5 | None => fset f5 "level" (VInt (c_error c)) end else f5)) with (fun f3 => Ok (after_exc c s l f3)).
  destruct x as [|b|z|z|i n t m|i n m|e|i]; cbn [bindR].
  1-3: apply (K f N); intros k; rewrite TE; reflexivity.
  - apply (K (fset f "exception_type" (VStr z))); [apply nodup_fset; exact N|]; intros k; rewrite fget_fset, TE; destruct (String.eqb k "exception_type"); reflexivity.
  - apply (K f N); intros k; rewrite TE; reflexivity.
  - apply (K f N); intros k; rewrite TE; reflexivity.
  - destruct (e_exc e); [|apply (K f N); intros k; rewrite TE; reflexivity].
    unfold exception_to_dict; destruct (estr w e) as [t|y]; cbn [bindR]; [|reflexivity].
    apply K; [destruct (String.eqb (locs w) ""); repeat apply nodup_fset; exact N|].
    intros k; rewrite TE.
    destruct (String.eqb_spec k "exception_type") as [->|N1]; [destruct (String.eqb (locs w) ""); repeat rewrite fget_fset; reflexivity|].
    destruct (String.eqb_spec k "exception_message") as [->|N2]; [destruct (String.eqb (locs w) ""); repeat rewrite fget_fset; reflexivity|].
    destruct (String.eqb_spec k "traceback") as [->|N3]; [destruct (String.eqb (locs w) ""); repeat rewrite fget_fset; reflexivity|].
    destruct (String.eqb_spec k "local_variables") as [->|N4]; [destruct (String.eqb (locs w) ""); repeat rewrite fget_fset; reflexivity|].
    destruct (String.eqb (locs w) ""); repeat rewrite fset_other by assumption; reflexivity.
  - apply (K f N); intros k; rewrite TE; reflexivity.
Qed.

Lemma extract_function_get : forall f k, fget (extract_function f) k =
  if String.eqb k "function" then or_given f k (of_function f name_of)
  else if String.eqb k "module" then or_given f k (of_function f module_of) else fget f k.
Proof.
  intros f k; unfold extract_function, of_function; destruct (fget f "function") as [v|] eqn:F.
  2:{ destruct (String.eqb_spec k "function") as [->|]; [reflexivity|]; destruct (String.eqb k "module"); reflexivity. }
  assert (T : forall n m, name_of v = Some (VStr n) -> module_of v = option_map VStr m ->
     fget (match m with Some m => fset (fset f "function" (VStr n)) "module" (VStr m) | None => fset f "function" (VStr n) end) k =
     if String.eqb k "function" then or_given f k (name_of v) else if String.eqb k "module" then or_given f k (module_of v) else fget f k).
  { intros n m E1 E2; rewrite E1, E2; destruct (String.eqb_spec k "function") as [->|N1].
    - destruct m; repeat rewrite fget_fset; reflexivity.
    - destruct (String.eqb_spec k "module") as [->|N2]; destruct m; repeat rewrite fset_other by (assumption || discriminate); try reflexivity.
      apply fset_same. }
  assert (Z : (name_of v = None /\ module_of v = None) -> fget f k = if String.eqb k "function" then or_given f k (name_of v) else if String.eqb k "module" then or_given f k (module_of v) else fget f k).
  { intros [-> ->]; destruct (String.eqb k "function"); [reflexivity|destruct (String.eqb k "module"); reflexivity]. }
  destruct v as [|b|z|z|i n t m|i n m|e|i]; try (apply Z; split; reflexivity).
  - cbv zeta; destruct n as [n|]; (apply T; [reflexivity|destruct m; reflexivity]).
  - cbv zeta; apply T; [reflexivity|destruct m; reflexivity].
Qed.
Lemma defaults_get : forall c w f k, fget (defaults c w f) k =
  if String.eqb k "level" then match fget f k with Some v => Some v | None => Some (VInt (if succeeded f then c_default c else c_error c)) end
  else if String.eqb k "time" then match fget f k with Some v => Some v | None => Some (now w) end else fget f k.
Proof.
  intros c w f k; unfold defaults; cbv zeta.
  set (f1 := match fget f "level" with Some _ => f | None => fset f "level" (VInt (if succeeded f then c_default c else c_error c)) end).
  assert (F1 : forall q, fget f1 q = if String.eqb q "level" then match fget f q with Some v => Some v | None => Some (VInt (if succeeded f then c_default c else c_error c)) end else fget f q).
  { intros q; unfold f1; destruct (fget f "level") as [v|] eqn:L.
    - destruct (String.eqb_spec q "level") as [->|]; [rewrite L; reflexivity|reflexivity].
    - rewrite fget_fset; destruct (String.eqb_spec q "level") as [->|]; [rewrite L; reflexivity|reflexivity]. }
  destruct (fget f1 "time") as [v|] eqn:T.
  - rewrite F1; destruct (String.eqb_spec k "level"); [reflexivity|]; destruct (String.eqb_spec k "time") as [->|]; [|reflexivity].
    rewrite F1 in T; cbn [String.eqb Ascii.eqb Bool.eqb andb] in T; rewrite T; reflexivity.
  - rewrite fget_fset; destruct (String.eqb_spec k "time") as [->|].
    + rewrite F1 in T; cbn [String.eqb Ascii.eqb Bool.eqb andb] in T; rewrite T; reflexivity.
    + rewrite F1; destruct (String.eqb k "level"); reflexivity.
Qed.

(** C34: the record of a manual call is, field by field, what the accepted arguments say: it is built whenever they are accepted and the
    exception can be read, and has no other fields. *)
Theorem C34_whole_record : forall c w all args kw,
  match prepare c [] all args kw with
  | Err x => handle_fields c w all args kw = Err x
  | Ok p => match readable w p with
            | Err x => handle_fields c w all args kw = Err x
            | Ok _ => exists f, handle_fields c w all args kw = Ok f /\ forall k, fget f k = shown c w p k
            end
  end.
Proof.
  intros c w all args kw; unfold handle_fields; destruct (prepare c [] all args kw) as [p|x] eqn:P; cbn [bindR]; [|reflexivity]; cbv zeta.
  set (f2 := match c_service c with Some s => fset (fset p "auto" (VBool false)) "service_name" (VStr s) | None => fset p "auto" (VBool false) end).
  pose proof (nodup_prepare _ _ _ _ _ _ P) as Np.
  assert (N2 : NoDup (map fst f2)) by (unfold f2; destruct (c_service c); repeat apply nodup_fset; exact Np).
  assert (F2 : forall k, fget f2 k = if String.eqb k "auto" then Some (VBool false) else if String.eqb k "service_name" then or_given p k (option_map VStr (c_service c)) else fget p k).
  { intros k; unfold f2; destruct (c_service c) as [sv|]; repeat rewrite fget_fset.
    - destruct (String.eqb_spec k "service_name") as [->|]; [reflexivity|]; destruct (String.eqb k "auto"); reflexivity.
    - destruct (String.eqb k "auto"); [reflexivity|]; destruct (String.eqb k "service_name"); reflexivity. }
  assert (EX : fget f2 "exception" = fget p "exception") by (rewrite F2; reflexivity).
  assert (R : readable w f2 = readable w p) by (unfold readable; rewrite EX; reflexivity).
  assert (TO : forall k, told w f2 k = told w p k) by (intros k; unfold told; rewrite EX; reflexivity).
  assert (HA : has f2 "exception" = has p "exception") by (unfold has; rewrite EX; reflexivity).
  pose proof (extract_get c w f2 true true N2) as X; rewrite R in X.
  destruct (readable w p) as [u|x]; [|rewrite X; reflexivity].
  destruct X as (f3 & -> & F3); cbn [bindR]; eexists; split; [reflexivity|]; intros k; rewrite HA in F3.
  assert (FN : fget f3 "function" = fget p "function").
  { rewrite F3; destruct (has p "exception"); [|rewrite F2; reflexivity]; cbn [String.eqb Ascii.eqb Bool.eqb andb].
    rewrite TO; assert (told w p "function" = None) as -> by (unfold told; destruct (fget p "exception") as [[]|]; try reflexivity; destruct (e_exc e); reflexivity).
    cbn [or_given]; rewrite F2; reflexivity. }
  assert (OF : forall g, of_function f3 g = of_function p g) by (intros g; unfold of_function; rewrite FN; reflexivity).
  assert (SU : fget f3 "success" = if has p "exception" then Some (VBool false) else fget p "success").
  { rewrite F3; destruct (has p "exception"); [reflexivity|rewrite F2; reflexivity]. }
  rewrite defaults_get, !extract_function_get.
  unfold shown, succeeded; rewrite extract_function_get; cbn [String.eqb Ascii.eqb Bool.eqb andb]; rewrite SU.
  assert (TN : forall q, ~ In q ["exception_type"; "exception_message"; "traceback"; "local_variables"] -> told w p q = None).
  { intros q Nq; cbn [In] in Nq; unfold told; destruct (fget p "exception") as [[]|]; try reflexivity.
    - destruct (String.eqb_spec q "exception_type"); [exfalso; apply Nq; auto|reflexivity].
    - destruct (e_exc e); [|reflexivity].
      destruct (String.eqb_spec q "exception_type"); [exfalso; apply Nq; auto|]; destruct (String.eqb_spec q "exception_message"); [exfalso; apply Nq; auto|].
      destruct (String.eqb_spec q "traceback"); [exfalso; apply Nq; auto|]; destruct (String.eqb_spec q "local_variables"); [exfalso; apply Nq; intuition congruence|reflexivity]. }
  assert (TX : has p "exception" = false -> forall q, told w p q = None) by (unfold has, told; destruct (fget p "exception"); [discriminate|reflexivity]).
  destruct (String.eqb_spec k "auto") as [->|A1].
  { cbn [String.eqb Ascii.eqb Bool.eqb andb]; rewrite F3; destruct (has p "exception"); cbn [String.eqb Ascii.eqb Bool.eqb andb]; [rewrite TO, TN by (cbn; intuition discriminate); cbn [or_given]|]; rewrite F2; reflexivity. }
  destruct (String.eqb_spec k "service_name") as [->|A2].
  { cbn [String.eqb Ascii.eqb Bool.eqb andb]; rewrite F3; destruct (has p "exception"); cbn [String.eqb Ascii.eqb Bool.eqb andb]; [rewrite TO, TN by (cbn; intuition discriminate); cbn [or_given]|]; rewrite F2; reflexivity. }
  assert (F2' : fget f2 k = fget p k) by (rewrite F2; destruct (String.eqb_spec k "auto"); [contradiction|]; destruct (String.eqb_spec k "service_name"); [contradiction|reflexivity]).
  destruct (String.eqb_spec k "exception") as [->|A3].
  { cbn [String.eqb Ascii.eqb Bool.eqb andb]; rewrite F3; destruct (has p "exception") eqn:Hp; [reflexivity|]; rewrite F2'; unfold has in Hp; destruct (fget p "exception"); [discriminate|reflexivity]. }
  destruct (String.eqb_spec k "success") as [->|A4].
  { cbn [String.eqb Ascii.eqb Bool.eqb andb]; exact SU. }
  destruct (String.eqb_spec k "level") as [->|A5].
  { cbn [String.eqb Ascii.eqb Bool.eqb andb]; rewrite F3, F2'; destruct (has p "exception"); cbn [String.eqb Ascii.eqb Bool.eqb andb orb].
    - destruct (fget p "level"); reflexivity.
    - destruct (fget p "level"); [reflexivity|]; destruct (fget p "success") as [v|]; [destruct (truthy v); reflexivity|reflexivity]. }
  assert (F3' : fget f3 k = or_given p k (told w p k)).
  { rewrite F3; destruct (has p "exception") eqn:Hp; [|rewrite (TX eq_refl); exact F2'].
    destruct (String.eqb_spec k "exception"); [contradiction|]; destruct (String.eqb_spec k "success"); [contradiction|]; destruct (String.eqb_spec k "level"); [contradiction|]; cbn [andb].
    rewrite TO; unfold or_given; destruct (told w p k); [reflexivity|exact F2']. }
  destruct (String.eqb_spec k "function") as [->|A6].
  { cbn [String.eqb Ascii.eqb Bool.eqb andb]; rewrite OF; unfold or_given; destruct (of_function p name_of); [reflexivity|exact FN]. }
  destruct (String.eqb_spec k "module") as [->|A7].
  { cbn [String.eqb Ascii.eqb Bool.eqb andb]; rewrite OF; unfold or_given; destruct (of_function p module_of); [reflexivity|].
    rewrite F3', TN by (cbn; intuition discriminate); reflexivity. }
  destruct (String.eqb_spec k "time") as [->|A8]; [|exact F3'].
  rewrite F3', TN by (cbn; intuition discriminate); reflexivity.
Qed.

(** C28: what message(...) stores, field by field: function= is not among the accepted arguments; an exception is told as in a manual
    record, but changes neither success nor level; if nothing at all was accepted, the stored fields stay what they were. *)
Theorem C28_message_fields : forall c w args kw,
  match prepare c ["function"] false args kw with
  | Err x => message_fields c w args kw = Err x
  | Ok p => match readable w p with
            | Err x => message_fields c w args kw = Err x
            | Ok _ => exists r, message_fields c w args kw = Ok r /\
                (r = None <-> forall k, shown_message w p k = None) /\
                forall f, r = Some f -> forall k, fget f k = shown_message w p k
            end
  end.
Proof.
  intros c w args kw; unfold message_fields; destruct (prepare c ["function"] false args kw) as [p|x] eqn:P; cbn [bindR]; [|reflexivity].
  pose proof (nodup_prepare _ _ _ _ _ _ P) as Np.
  pose proof (extract_get c w p false false Np) as X.
  destruct (readable w p) as [u|x]; [|rewrite X; reflexivity].
  destruct X as (f & -> & F); cbn [bindR]; eexists; split; [reflexivity|].
  assert (G : forall k, fget f k = shown_message w p k).
  { intros k; rewrite F; unfold shown_message, has, told; destruct (fget p "exception") as [x|] eqn:E.
    - destruct (String.eqb k "exception"); [reflexivity|]; rewrite !Bool.andb_false_r; reflexivity.
    - destruct (String.eqb_spec k "exception") as [->|]; [exact E|reflexivity]. }
  destruct f as [|[k v] r].
  - split; [split; [intros _ k; rewrite <- G; reflexivity|reflexivity]|discriminate].
  - split; [split; [discriminate|]|intros g Z; injection Z as <-; exact G].
    intros Z; specialize (Z k); rewrite <- G in Z; unfold fget in Z; cbn in Z; rewrite String.eqb_refl in Z; discriminate.
Qed.

(** Examples. *)
Example ex_whole : exists f, handle_fields c0 w0 true [VStr "m"] [("function", VFun 1 (Some "f") "<f>" (Some "mod")); ("e", VExc (mkE 1 7 true))] = Ok f /\
  fget f "function" = Some (VStr "f") /\ fget f "module" = Some (VStr "mod") /\ fget f "success" = Some (VBool false) /\ fget f "exception" = None.
Proof. eexists; split; [reflexivity|repeat split; reflexivity]. Qed.
Example ex_message : exists f, message_fields c0 w0 [VStr "m"] [("e", VExc (mkE 1 7 true))] = Ok (Some f) /\
  fget f "exception_type" = Some (VStr "ValueError") /\ fget f "success" = None /\ fget f "level" = None.
Proof. eexists; split; [reflexivity|repeat split; reflexivity]. Qed.
Example ex_message_empty : message_fields c0 w0 [] [] = Ok None.
Proof. reflexivity. Qed.
Example ex_message_function : message_fields c0s w0 [] [("function", VStr "f")] = Ok None /\ message_fields c0 w0 [] [("function", VStr "f")] = Err EKeyError.
Proof. split; reflexivity. Qed.

Print Assumptions C34_whole_record.
Print Assumptions C28_message_fields.
