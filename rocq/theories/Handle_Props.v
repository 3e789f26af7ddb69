(** C34, C35: manual records. *)
From Verif Require Import Base Handle_Model Handle_Spec Handle_Proofs.
From Coq Require Import Lia.
Local Open Scope string_scope.
Local Open Scope list_scope.

Lemma prepare_start : forall (args : list val) (kw : fields) k0 v, distinct args kw -> In (k0, v) kw ->
  fget (match args with a :: _ => [("message", a)] | [] => [] end) (convert_key k0) = None.
Proof.
  intros args kw k0 v [_ D] H; destruct args as [|a r]; [reflexivity|].
  unfold fget; cbn [dget]; destruct (String.eqb_spec (convert_key k0) "message") as [E|E]; [|reflexivity].
  exfalso; apply (D ltac:(discriminate) k0 v H); apply key_spec; exact E.
Qed.

(** C34: when no two arguments mean the same field and every accepted level is resolvable, the call produces exactly the
    expected fields - in silent mode whatever else was passed, otherwise if everything passed is acceptable. *)
Theorem C34_exactly_the_expected_fields : forall c fb all args kw, distinct args kw ->
  (c_silent c = true \/
   (length args <= 1 /\ forall k0 v k, In (k0, v) kw -> canonical k0 k -> accepted c fb all k v)) ->
  (forall k0 v k, In (k0, v) kw -> canonical k0 k -> accepted c fb all k v -> exists x, converted c k v x) ->
  exists f, prepare c fb all args kw = Ok f /\ forall k x, fget f k = Some x <-> expected c fb all args kw k x.
Proof.
  intros c fb all args kw D S C; unfold prepare.
  assert (A : put_args c args = Ok (match args with a :: _ => [("message", a)] | [] => [] end)).
  { unfold put_args, maybe_raise; destruct args as [|a [|b r]]; try reflexivity.
    destruct S as [-> | [L _]]; [reflexivity|cbn in L; lia]. }
  rewrite A; cbn [bindR].
  destruct (put_kws_spec c fb all kw kw (match args with a :: _ => [("message", a)] | [] => [] end)) as [f [Ef Hf]].
  - exact (distinct_nodup kw (proj1 D)).
  - intros k0 v H; exact (prepare_start args kw k0 v D H).
  - destruct S as [S|[_ S]]; [left; exact S|right; intros k0 v H; apply (S k0 v); [exact H|apply key_spec; reflexivity]].
  - intros k0 v H Ac; destruct (C k0 v (convert_key k0) H) as [x Hx]; [apply key_spec; reflexivity|exact Ac|].
    exists x; apply convert_spec; exact Hx.
  - exists f; split; [exact Ef|]; intros k x; rewrite Hf; unfold expected; split.
    + intros [H|[k0 [v [Hin [Ek [Ac [Hc Hn]]]]]]].
      * left; destruct args as [|a r]; [discriminate|]; unfold fget in H; cbn [dget] in H.
        destruct (String.eqb_spec k "message") as [->|]; [|discriminate]; injection H as ->; eauto.
      * right; exists k0, v; split; [exact Hin|split; [apply key_spec; exact Ek|split; [exact Ac|split; [apply convert_spec; exact Hc|exact Hn]]]].
    + intros [[-> [r ->]]|[k0 [v [Hin [Ek [Ac [Hc Hn]]]]]]].
      * left; reflexivity.
      * right; exists k0, v; split; [exact Hin|split; [apply key_spec; exact Ek|split; [exact Ac|split; [apply convert_spec; exact Hc|exact Hn]]]].
Qed.

(** C34: outside silent mode any unacceptable argument, or a second positional one, raises. *)
Theorem C34_loud_mode_raises : forall c fb all args kw, c_silent c = false -> distinct args kw ->
  length args >= 2 \/ (exists k0 v k, In (k0, v) kw /\ canonical k0 k /\ ~ accepted c fb all k v) ->
  exists e, prepare c fb all args kw = Err e.
Proof.
  intros c fb all args kw S D H; unfold prepare, put_args, maybe_raise; rewrite S.
  destruct args as [|a [|b r]]; cbn [bindR].
  3: { eexists; reflexivity. }
  all: destruct H as [H|[k0 [v [k [Hin [Ek Na]]]]]]; [cbn in H; lia|].
  all: apply key_spec in Ek; subst k.
  all: match goal with |- exists e, put_kws _ _ _ _ _ ?d0 = Err e => set (d := d0) end.
  all: assert (Hd : forall k1 v1, In (k1, v1) kw -> fget d (convert_key k1) = None)
    by (intros k1 v1 H1; exact (prepare_start _ kw k1 v1 D H1)).
  all: pose proof (distinct_nodup kw (proj1 D)) as N; clear D.
  all: assert (G : forall rest d, NoDup (map (fun kv : string * val => convert_key (fst kv)) rest) ->
         (forall k1 v1, In (k1, v1) rest -> fget d (convert_key k1) = None) -> In (k0, v) rest ->
         exists e, put_kws c fb all kw rest d = Err e).
  1,3: clear N Hd Hin d; induction rest as [|[k1 v1] rest IH]; intros d N Hd Hin; [destruct Hin|]; cbn [put_kws];
    cbn [map fst] in N; inversion N as [|? ? Ni N']; subst;
    pose proof (put_kw_new c fb all kw d k1 v1 (Hd k1 v1 (or_introl eq_refl))) as [P1 [P2 [P3 P4]]];
    destruct Hin as [Hin|Hin];
    [injection Hin as -> ->; destruct (P4 Na S) as [e ->]; eexists; reflexivity|];
    destruct (accepted_dec c fb all (convert_key k1) v1 (key_not_vars k1)) as [Ac|Na1];
    [|destruct (P4 Na1 S) as [e ->]; eexists; reflexivity];
    destruct (convert_value c (convert_key k1) v1) as [x|e] eqn:Ec;
    [|rewrite (P2 Ac e eq_refl); eexists; reflexivity];
    rewrite (P1 Ac x eq_refl); cbn [bindR]; apply IH; [exact N'| |exact Hin];
    intros k2 v2 H2; rewrite not_none_get; destruct (String.eqb_spec (convert_key k2) (convert_key k1)) as [E|E];
    [exfalso; apply Ni; rewrite <- E; apply in_map_iff; exists (k2, v2); auto|apply (Hd k2 v2); right; exact H2].
  all: exact (G kw d N Hd Hin).
Qed.

(** C34: silent mode is not quite silent: the only exception that can escape is KeyError ... *)
Theorem C34_silent_mode_only_KeyError : forall c fb all args kw e, c_silent c = true -> prepare c fb all args kw = Err e -> e = EKeyError.
Proof.
  intros c fb all args kw e S H; unfold prepare, put_args, maybe_raise in H; rewrite S in H.
  destruct args as [|a [|b r]]; cbn [bindR] in H; exact (put_kws_silent _ _ _ _ _ _ _ S H).
Qed.

(** C34: ... and it does escape for a level that is not registered (or negative) ... *)
Theorem C34_unknown_level_raises : forall c fb all args kw v, In ("level", v) kw -> ~ In "level" fb -> right_type "level" v ->
  (forall x, ~ converted c "level" v x) -> exists e, prepare c fb all args kw = Err e.
Proof.
  intros c fb all args kw v Hin Nf Rt Nc; unfold prepare.
  destruct (put_args c args) as [d|e]; cbn [bindR]; [|eauto].
  assert (Ac : accepted c fb all "level" v) by (split; [exact Nf|left; split; [cbn; tauto|exact Rt]]).
  assert (Ev : forall d kw', exists e, put_kw c fb all kw' d "level" v = Err e).
  { intros d0 kw'; unfold put_kw; cbv zeta beta; change (convert_key "level") with "level".
    apply memb_not in Nf; rewrite Nf.
    pose proof (allowed_spec "level" v ltac:(discriminate)) as A.
    destruct (allowed "level" v) as [[|]|]; [|tauto|exfalso; apply A; cbn; tauto].
    destruct (convert_value c "level" v) as [x|e] eqn:E; [exfalso; apply (Nc x); apply convert_spec; exact E|cbn [bindR]; eauto]. }
  assert (G : forall rest d, In ("level", v) rest -> exists e, put_kws c fb all kw rest d = Err e).
  { induction rest as [|[k1 v1] rest IH]; intros d0 Hr; [destruct Hr|]; cbn [put_kws]; destruct Hr as [Hr|Hr].
    - injection Hr as -> ->; destruct (Ev d0 kw) as [e ->]; cbn [bindR]; eauto.
    - destruct (put_kw c fb all kw d0 k1 v1) as [d1|e]; cbn [bindR]; [apply IH; exact Hr|eauto]. }
  exact (G kw d Hin).
Qed.

(** C34: ... and for two aliases of one field, neither of them its canonical name. *)
Theorem C34_two_aliases_raise : forall c fb all args kw a b k1 v1 k2 v2 r k,
  kw = a ++ (k1, v1) :: b ++ (k2, v2) :: r -> canonical k1 k -> canonical k2 k ->
  accepted c fb all k v1 -> accepted c fb all k v2 -> v1 <> VNone -> (forall v, ~ In (k, v) kw) ->
  exists e, prepare c fb all args kw = Err e.
Proof.
  intros c fb all args kw a b k1 v1 k2 v2 r k E E1 E2 A1 A2 Nv Nk; unfold prepare.
  destruct (put_args c args) as [d|e]; cbn [bindR]; [|eauto].
  apply key_spec in E1; apply key_spec in E2.
  assert (Hk : fget kw k = None).
  { destruct (fget kw k) as [x|] eqn:Ex; [|reflexivity]; exfalso; apply (Nk x); apply (dget_In _ String.eqb_spec); exact Ex. }
  assert (App : forall x y d0, put_kws c fb all kw (x ++ y) d0 = bindR (put_kws c fb all kw x d0) (fun d1 => put_kws c fb all kw y d1)).
  { induction x as [|[kx vx] x IH]; intros y d0; [reflexivity|]; cbn [app put_kws].
    destruct (put_kw c fb all kw d0 kx vx) as [d1|e]; cbn [bindR]; [apply IH|reflexivity]. }
  assert (Keep : forall x d0 d1, put_kws c fb all kw x d0 = Ok d1 -> fget d0 k <> None -> fget d1 k <> None).
  { induction x as [|[kx vx] x IH]; intros d0 d1 H Hn; cbn [put_kws] in H; [injection H as <-; exact Hn|].
    destruct (put_kw c fb all kw d0 kx vx) as [d2|e] eqn:Ep; cbn [bindR] in H; [|discriminate].
    exact (IH d2 d1 H (put_kw_keeps _ _ _ _ _ _ _ _ _ Ep Hn)). }
  assert (G : exists e, put_kws c fb all kw (a ++ (k1, v1) :: b ++ (k2, v2) :: r) d = Err e).
  { rewrite App; destruct (put_kws c fb all kw a d) as [d1|e]; cbn [bindR]; [|eauto]; cbn [put_kws].
    destruct (put_kw c fb all kw d1 k1 v1) as [d2|e] eqn:Ep; cbn [bindR]; [|eauto].
    assert (H2 : fget d2 k <> None) by (rewrite <- E1; apply (put_kw_stores _ _ _ _ _ _ _ _ Ep); [rewrite E1; exact A1|exact Nv]).
    rewrite App; destruct (put_kws c fb all kw b d2) as [d3|e] eqn:Eb; cbn [bindR]; [|eauto]; cbn [put_kws].
    pose proof (Keep b d2 d3 Eb H2) as H3.
    destruct (put_kw_collision c fb all kw d3 k2 v2) as [e ->]; [rewrite E2; exact A2|rewrite E2; exact H3|rewrite E2; exact Hk|].
    cbn [bindR]; eauto. }
  rewrite <- E in G; exact G.
Qed.

(** The fields that a manual record gets besides those of its arguments. *)
Lemma fdel_other : forall f k k2, k <> k2 -> fget (fdel f k) k2 = fget f k2.
Proof. intros f k k2 N; unfold fget, fdel; apply dget_ddel_other; [apply String.eqb_spec|exact N]. Qed.

Ltac keys := repeat (rewrite fget_fset; cbn [String.eqb Ascii.eqb Bool.eqb]).

Definition touched : list string :=
  ["auto"; "service_name"; "exception"; "exception_type"; "exception_message"; "traceback"; "local_variables";
   "success"; "level"; "time"; "function"; "module"].

Lemma fset_other : forall f k v k2, k2 <> k -> fget (fset f k v) k2 = fget f k2.
Proof. intros f k v k2 N; rewrite fget_fset; destruct (String.eqb_spec k2 k); [contradiction|reflexivity]. Qed.
Lemma fset_same : forall f k v, fget (fset f k v) k = Some v.
Proof. intros f k v; rewrite fget_fset, String.eqb_refl; reflexivity. Qed.

Lemma extract_other : forall c w f s l f' k, extract_exception c w f s l = Ok f' ->
  ~ In k ["exception"; "exception_type"; "exception_message"; "traceback"; "local_variables"; "success"; "level"] -> fget f' k = fget f k.
Proof.
  intros c w f s l f' k H N; cbn [In] in N.
  assert (N' : k <> "exception" /\ k <> "exception_type" /\ k <> "exception_message" /\ k <> "traceback" /\
               k <> "local_variables" /\ k <> "success" /\ k <> "level") by (repeat split; intros ->; tauto).
  destruct N' as [N1 [N2 [N3 [N4 [N5 [N6 N7]]]]]].
  unfold extract_exception in H; destruct (fget f "exception") as [x|]; [|injection H as <-; reflexivity].
  assert (M : forall f3, (let f4 := fdel f3 "exception" in
      let f5 := if s then fset f4 "success" (VBool false) else f4 in
      Ok (if l then match fget f5 "level" with Some _ => f5 | None => fset f5 "level" (VInt (c_error c)) end else f5)) = Ok f' ->
      fget f3 k = fget f k -> fget f' k = fget f k).
  { intros f3 Z E; cbv zeta in Z; injection Z as <-.
    assert (F5 : fget (if s then fset (fdel f3 "exception") "success" (VBool false) else fdel f3 "exception") k = fget f k).
    { destruct s; [rewrite fset_other by exact N6|]; rewrite fdel_other by congruence; exact E. }
    destruct l; [|exact F5].
    destruct (fget (if s then _ else _) "level"); [exact F5|rewrite fset_other by exact N7; exact F5]. }
  assert (Mx : forall y, x = y -> (forall e, y = VExc e -> e_exc e = true -> False) -> (forall z, y = VStr z -> False) -> bindR (Ok f) (fun f3 =>
      let f4 := fdel f3 "exception" in
      let f5 := if s then fset f4 "success" (VBool false) else f4 in
      Ok (if l then match fget f5 "level" with Some _ => f5 | None => fset f5 "level" (VInt (c_error c)) end else f5)) = Ok f' -> fget f' k = fget f k).
  { intros y _ _ _ Z; exact (M f Z eq_refl). }
  destruct x as [|b|z|z|i n t m|i n m|e|i]; try exact (M f H eq_refl).
  - apply (M _ H); rewrite fset_other by exact N2; reflexivity.
  - destruct (e_exc e); [|exact (M f H eq_refl)].
    unfold exception_to_dict in H; destruct (estr w e) as [t|e']; cbn [bindR] in H; [|discriminate].
    apply (M _ H).
    destruct (String.eqb (locs w) ""); repeat rewrite fset_other by assumption; reflexivity.
Qed.

(** C34: a manual record keeps every argument's field, except the ones the logger itself fills. *)
Theorem C34_record_keeps_fields : forall c w all args kw f, handle_fields c w all args kw = Ok f ->
  exists p, prepare c [] all args kw = Ok p /\ fget f "auto" = Some (VBool false) /\
    forall k, ~ In k touched -> fget f k = fget p k.
Proof.
  intros c w all args kw f H; unfold handle_fields in H.
  destruct (prepare c [] all args kw) as [p|e]; cbn [bindR] in H; [|discriminate].
  exists p; split; [reflexivity|].
  set (f2 := match c_service c with Some s => fset (fset p "auto" (VBool false)) "service_name" (VStr s) | None => fset p "auto" (VBool false) end) in *.
  destruct (extract_exception c w f2 true true) as [f3|e] eqn:E3; cbn [bindR] in H; [|discriminate].
  injection H as <-.
  assert (Fu : forall k, k <> "function" -> k <> "module" -> fget (extract_function f3) k = fget f3 k).
  { intros k K1 K2; unfold extract_function; destruct (fget f3 "function") as [[]|]; try reflexivity.
    - destruct module; repeat rewrite fset_other by assumption; reflexivity.
    - destruct module; repeat rewrite fset_other by assumption; reflexivity. }
  assert (De : forall g k, k <> "level" -> k <> "time" -> fget (defaults c w g) k = fget g k).
  { intros g k K1 K2; unfold defaults; destruct (fget g "level").
    - destruct (fget g "time"); [reflexivity|apply fset_other; exact K2].
    - destruct (fget (fset g "level" _) "time"); repeat rewrite fset_other by assumption; reflexivity. }
  split.
  - rewrite De, Fu, (extract_other c w f2 true true f3 "auto" E3) by (cbn; intuition discriminate).
    unfold f2; destruct (c_service c); [rewrite fset_other by discriminate|]; apply fset_same.
  - intros k Nk; unfold touched in Nk; cbn [In] in Nk.
    rewrite De by (intros ->; tauto); rewrite Fu by (intros ->; tauto).
    rewrite (extract_other c w f2 true true f3 k E3) by (cbn [In]; tauto).
    unfold f2; destruct (c_service c); repeat rewrite fset_other by (intros ->; tauto); reflexivity.
Qed.

(** C34: the mutual order of aliases matters: exception= then e= silently keeps the second one, e= then exception=
    is reported as a duplicate.  The claim "the same field given twice with different values is always noticed" fails. *)
Definition c0 : cfg := mkCfg 0 1 5 false false None [("info", 2%Z)] ["user"] false true true false.
Definition c0s : cfg := mkCfg 0 1 5 true false None [("info", 2%Z)] ["user"] false true true false.
Theorem C34_duplicates_always_noticed_refuted : exists c args kw f, c_silent c = false /\
  In ("exception", VStr "A") kw /\ In ("e", VStr "B") kw /\ prepare c [] false args kw = Ok f /\
  fget f "exception" = Some (VStr "B") /\ prepare c [] false args (rev kw) = Err EValueError.
Proof.
  exists c0, [], [("exception", VStr "A"); ("e", VStr "B")]; eexists; repeat split; cbn; try tauto.
Qed.

(** Examples. *)
Definition w0 : env := mkEnv (fun _ => "ValueError") (fun _ => Ok "text") "[tb]" "{}" (VOther 99).
Example ex_fields : prepare c0 [] false [VStr "m"] [("level", VStr "info"); ("class_", VClass 3 "K" None); ("user", VOther 8); ("vars", VStr "{}")]
  = Ok [("message", VStr "m"); ("level", VInt 2); ("class", VStr "K"); ("user", VOther 8); ("local_variables", VStr "{}")].
Proof. reflexivity. Qed.
Example ex_distinct : distinct [VStr "m"] [("level", VStr "info"); ("vars", VStr "{}")].
Proof.
  split.
  - intros i j k1 k2 v1 v2 k H1 H2 E1 E2; apply key_spec in E1; apply key_spec in E2.
    destruct i as [|[|[]]], j as [|[|[]]]; cbn in H1, H2; try reflexivity; try discriminate;
      injection H1 as <- <-; injection H2 as <- <-; cbn in E1, E2; congruence.
  - intros _ k0 v [H|[H|[]]] E; injection H as <- <-; apply key_spec in E; discriminate.
Qed.
Example ex_silent_ignored : prepare c0s [] false [VStr "m"; VInt 1] [("success", VInt 1); ("unknown", VInt 1); ("module", VStr "mod")]
  = Ok [("message", VStr "m"); ("module", VStr "mod")].
Proof. reflexivity. Qed.
Example ex_loud : prepare c0 [] false [] [("success", VInt 1)] = Err EValueError.
Proof. reflexivity. Qed.
Example ex_alias_silent : prepare c0s [] false [] [("vars", VStr "a"); ("locals", VStr "a")] = Err EKeyError.
Proof. reflexivity. Qed.
Example ex_level_silent : prepare c0s [] false [] [("level", VStr "nope")] = Err EKeyError.
Proof. reflexivity. Qed.

(** C35: the level of a manual record. *)
Definition level_rule (c : cfg) (p : fields) (l : Z) : Prop :=
  match fget p "level" with
  | Some v => v = VInt l
  | None => l = if match fget p "exception" with Some _ => true | None => false end || negb (succeeded p) then c_error c else c_default c
  end.

(** What the arguments can leave under level: a number. *)
Lemma level_is_int : forall c fb all args kw p, prepare c fb all args kw = Ok p ->
  match fget p "level" with Some v => exists z, v = VInt z | None => True end.
Proof.
  intros c fb all args kw p H; unfold prepare in H.
  assert (Inv : forall rest d p, put_kws c fb all kw rest d = Ok p -> match fget d "level" with Some v => exists z, v = VInt z | None => True end ->
     match fget p "level" with Some v => exists z, v = VInt z | None => True end).
  { clear; induction rest as [|[k v] rest IH]; intros d p H Hd; cbn [put_kws] in H; [injection H as <-; exact Hd|].
    destruct (put_kw c fb all kw d k v) as [d1|e] eqn:E; cbn [bindR] in H; [|discriminate].
    apply (IH d1 p H); clear IH H.
    assert (Nn : forall x, convert_value c (convert_key k) v = Ok x ->
      match fget (not_none d (convert_key k) x) "level" with Some v => exists z, v = VInt z | None => True end).
    { intros x Hx; rewrite not_none_get; destruct (String.eqb_spec "level" (convert_key k)) as [Ek|]; [|exact Hd].
      rewrite <- Ek in Hx; apply convert_spec in Hx; inversion Hx; subst; try congruence; eauto. }
    unfold put_kw, maybe_raise in E; cbv zeta beta in E.
    destruct (memb (convert_key k) fb); [destruct (c_silent c); cbn [bindR] in E; [injection E as <-; exact Hd|discriminate]|].
    assert (St : bindR (convert_value c (convert_key k) v) (fun v' =>
        match fget d (convert_key k) with
        | Some old => match fget kw (convert_key k) with
            | None => Err EKeyError
            | Some orig => if veq old orig then Ok (not_none d (convert_key k) v')
                           else bindR (if c_silent c then Ok tt else Err EValueError) (fun _ => Ok d)
            end
        | None => Ok (not_none d (convert_key k) v')
        end) = Ok d1 -> match fget d1 "level" with Some v => exists z, v = VInt z | None => True end).
    { destruct (convert_value c (convert_key k) v) as [x|e']; cbn [bindR]; [|discriminate].
      destruct (fget d (convert_key k)) as [old|].
      - destruct (fget kw (convert_key k)) as [orig|]; [|discriminate].
        destruct (veq old orig); [intros Z; injection Z as <-; apply Nn; reflexivity|].
        destruct (c_silent c); cbn [bindR]; [intros Z; injection Z as <-; exact Hd|discriminate].
      - intros Z; injection Z as <-; apply Nn; reflexivity. }
    destruct (allowed (convert_key k) v) as [[|]|]; [exact (St E)|destruct (c_silent c); cbn [bindR] in E; [injection E as <-; exact Hd|discriminate]|].
    destruct (memb (convert_key k) (c_extra c)); [exact (St E)|].
    destruct (all || c_unknown c); [exact (St E)|destruct (c_silent c); cbn [bindR] in E; [injection E as <-; exact Hd|discriminate]]. }
  destruct (put_args c args) as [d|e] eqn:Ea; cbn [bindR] in H; [|discriminate].
  apply (Inv kw d p H).
  unfold put_args in Ea; destruct (match args with _ :: _ :: _ => maybe_raise c EValueError | _ => Ok tt end); cbn [bindR] in Ea; [|discriminate].
  injection Ea as <-; destruct args; exact I.
Qed.

Lemma fdel_gone : forall f k, NoDup (map fst f) -> fget (fdel f k) k = None.
Proof. intros f k N; unfold fget, fdel; apply dget_ddel_same; [apply String.eqb_spec|exact N]. Qed.

(** C35: a manual record has the level given, or default_error_level if an exception or success=False was given, or
    default_level; it goes to the engine exactly when that level reaches the threshold and logging is not off. *)
Theorem C35_level_and_threshold : forall c w all off args kw f, handle_fields c w all args kw = Ok f ->
  exists p l, prepare c [] all args kw = Ok p /\ level_rule c p l /\ fget f "level" = Some (VInt l) /\
    handle c w all off args kw = Ok (if (c_level c <=? l)%Z && negb off then Some f else None).
Proof.
  intros c w all off args kw f H.
  assert (H0 := H); unfold handle_fields in H0.
  destruct (prepare c [] all args kw) as [p|e] eqn:Ep; cbn [bindR] in H0; [|discriminate].
  pose proof (level_is_int c [] all args kw p Ep) as Lp.
  set (f2 := match c_service c with Some s => fset (fset p "auto" (VBool false)) "service_name" (VStr s) | None => fset p "auto" (VBool false) end) in *.
  assert (F2 : forall k, k <> "auto" -> k <> "service_name" -> fget f2 k = fget p k).
  { intros k K1 K2; unfold f2; destruct (c_service c); repeat rewrite fset_other by assumption; reflexivity. }
  destruct (extract_exception c w f2 true true) as [f3|e] eqn:E3; cbn [bindR] in H0; [|discriminate].
  injection H0 as H0.
  assert (Fu : forall k, k <> "function" -> k <> "module" -> fget (extract_function f3) k = fget f3 k).
  { intros k K1 K2; unfold extract_function; destruct (fget f3 "function") as [[]|]; try reflexivity.
    - destruct module; repeat rewrite fset_other by assumption; reflexivity.
    - destruct module; repeat rewrite fset_other by assumption; reflexivity. }
  assert (L : exists l, level_rule c p l /\ fget f "level" = Some (VInt l)).
  { rewrite <- H0.
    assert (Dl : forall g, fget (defaults c w g) "level" = match fget g "level" with Some v => Some v | None => Some (VInt (if succeeded g then c_default c else c_error c)) end).
    { intros g; unfold defaults; destruct (fget g "level") as [v|] eqn:Eg.
      - destruct (fget g "time"); [exact Eg|rewrite fset_other by discriminate; exact Eg].
      - destruct (fget (fset g "level" _) "time"); [apply fset_same|rewrite fset_other by discriminate; apply fset_same]. }
    rewrite Dl, Fu by discriminate.
    unfold level_rule.
    unfold extract_exception in E3; rewrite F2 in E3 by discriminate.
    destruct (fget p "exception") as [x|] eqn:Ex.
    - (* an exception was given *)
      assert (M : forall f4, fget f4 "level" = fget p "level" ->
        (let f5 := fdel f4 "exception" in
         let f6 := fset f5 "success" (VBool false) in
         Ok (match fget f6 "level" with Some _ => f6 | None => fset f6 "level" (VInt (c_error c)) end)) = Ok f3 ->
        fget f3 "level" = match fget p "level" with Some v => Some v | None => Some (VInt (c_error c)) end).
      { intros f4 Hf4 Z; cbv zeta in Z; injection Z as <-.
        assert (F6 : fget (fset (fdel f4 "exception") "success" (VBool false)) "level" = fget p "level").
        { rewrite fset_other by discriminate; rewrite fdel_other by discriminate; exact Hf4. }
        rewrite F6; destruct (fget p "level") as [v|] eqn:Ev; [rewrite F6; reflexivity|apply fset_same]. }
      assert (F3 : fget f3 "level" = match fget p "level" with Some v => Some v | None => Some (VInt (c_error c)) end).
      { assert (B : fget f2 "level" = fget p "level") by (apply F2; discriminate).
        destruct x as [|b|z|z|i n t m|i n m|e|i]; cbn [bindR] in E3; try exact (M f2 B E3).
        - apply (fun h => M _ h E3); rewrite fset_other by discriminate; exact B.
        - destruct (e_exc e); [|exact (M f2 B E3)].
          unfold exception_to_dict in E3; destruct (estr w e) as [t|e']; cbn [bindR] in E3; [|discriminate].
          apply (fun h => M _ h E3).
          destruct (String.eqb (locs w) ""); repeat rewrite fset_other by discriminate; exact B. }
      rewrite F3; cbn [orb]; destruct (fget p "level") as [v|].
      + destruct Lp as [z ->]; exists z; split; reflexivity.
      + eexists; split; reflexivity.
    - injection E3 as <-; rewrite F2 by discriminate.
      assert (Su : succeeded (extract_function f2) = succeeded p).
      { unfold succeeded; rewrite Fu by discriminate; rewrite F2 by discriminate; reflexivity. }
      rewrite Su; destruct (fget p "level") as [v|].
      + destruct Lp as [z ->]; exists z; split; reflexivity.
      + cbn [orb]; destruct (succeeded p); eexists; split; reflexivity. }
  destruct L as [l [L1 L2]]; exists p, l; split; [reflexivity|split; [exact L1|split; [exact L2|]]].
  unfold handle; rewrite H; cbn [bindR]; rewrite L2.
  destruct (c_level c <=? l)%Z; [destruct off; reflexivity|reflexivity].
Qed.

Lemma success_bool : forall c all args kw x, expected c [] all args kw "success" x -> exists b, x = VBool b.
Proof.
  intros c all args kw x [[E _]|[k0 [v [_ [_ [[_ A] [Cv _]]]]]]]; [discriminate|].
  inversion Cv; subst; destruct A as [[_ R]|[N _]].
  - inversion R; subst; [cbn [In] in H1; intuition discriminate|eauto].
  - exfalso; apply N; cbn; tauto.
Qed.

(** C35: the same in terms of the arguments of the call only. *)
Theorem C35_level_of_call : forall c w all off args kw f, distinct args kw ->
  (c_silent c = true \/
   (length args <= 1 /\ forall k0 v k, In (k0, v) kw -> canonical k0 k -> accepted c [] all k v)) ->
  (forall k0 v k, In (k0, v) kw -> canonical k0 k -> accepted c [] all k v -> exists x, converted c k v x) ->
  handle_fields c w all args kw = Ok f ->
  exists l, level_of_call c all args kw l /\ fget f "level" = Some (VInt l) /\
    handle c w all off args kw = Ok (if (c_level c <=? l)%Z && negb off then Some f else None).
Proof.
  intros c w all off args kw f D S C H.
  destruct (C34_exactly_the_expected_fields c [] all args kw D S C) as [p [Ep Hp]].
  destruct (C35_level_and_threshold c w all off args kw f H) as [p' [l [Ep' [L [Lf Hh]]]]].
  rewrite Ep in Ep'; injection Ep' as <-.
  exists l; split; [|split; [exact Lf|exact Hh]].
  unfold level_rule in L; destruct (fget p "level") as [v|] eqn:El.
  - subst v; apply lv_given; apply Hp; exact El.
  - assert (Nl : forall y, ~ expected c [] all args kw "level" y) by (intros y Z; apply Hp in Z; congruence).
    destruct (fget p "exception") as [x|] eqn:Ex; cbn [orb] in L.
    + subst l; apply (lv_exception _ _ _ _ x); [exact Nl|apply Hp; exact Ex].
    + unfold succeeded in L; destruct (fget p "success") as [v|] eqn:Es.
      * destruct (success_bool c all args kw v) as [b ->]; [apply Hp; exact Es|]; cbn [truthy] in L; destruct b; cbn [negb] in L; subst l.
        -- apply lv_default; [exact Nl|intros x Z; apply Hp in Z; congruence|intros Z; apply Hp in Z; congruence].
        -- apply lv_failure; [exact Nl|apply Hp; exact Es].
      * cbn [negb] in L; subst l; apply lv_default; [exact Nl|intros x Z; apply Hp in Z; congruence|intros Z; apply Hp in Z; congruence].
Qed.

(** C35: an exception makes the record a failure, whatever success= said; an exception object also gives the record its
    class, its text and a traceback, and a name only the class. *)
Theorem C35_exception_makes_failure : forall c w all args kw f p x, handle_fields c w all args kw = Ok f ->
  prepare c [] all args kw = Ok p -> fget p "exception" = Some x ->
  fget f "success" = Some (VBool false) /\
  (forall s, x = VStr s -> fget f "exception_type" = Some (VStr s)) /\
  (forall e, x = VExc e -> e_exc e = true -> fget f "exception_type" = Some (VStr (cname w (e_cls e))) /\
     (exists t, estr w e = Ok t /\ fget f "exception_message" = Some (VStr t)) /\ fget f "traceback" = Some (VStr (tbk w))).
Proof.
  intros c w all args kw f p x H0 Ep Ex; unfold handle_fields in H0; rewrite Ep in H0; cbn [bindR] in H0.
  set (f2 := match c_service c with Some s => fset (fset p "auto" (VBool false)) "service_name" (VStr s) | None => fset p "auto" (VBool false) end) in *.
  assert (F2 : fget f2 "exception" = Some x).
  { unfold f2; destruct (c_service c); repeat rewrite fset_other by discriminate; exact Ex. }
  destruct (extract_exception c w f2 true true) as [f3|e] eqn:E3; cbn [bindR] in H0; [|discriminate].
  injection H0 as <-.
  assert (K : forall k, k <> "function" -> k <> "module" -> k <> "level" -> k <> "time" ->
    fget (defaults c w (extract_function f3)) k = fget f3 k).
  { intros k K1 K2 K3 K4.
    assert (Fu : fget (extract_function f3) k = fget f3 k).
    { unfold extract_function; destruct (fget f3 "function") as [[]|]; try reflexivity;
        destruct module; repeat rewrite fset_other by assumption; reflexivity. }
    unfold defaults; destruct (fget (extract_function f3) "level").
    - destruct (fget (extract_function f3) "time"); [exact Fu|rewrite fset_other by assumption; exact Fu].
    - destruct (fget (fset (extract_function f3) "level" _) "time"); repeat rewrite fset_other by assumption; exact Fu. }
  repeat rewrite K by discriminate; clear K.
  unfold extract_exception in E3; rewrite F2 in E3.
  assert (M : forall f4, Ok (match fget (fset (fdel f4 "exception") "success" (VBool false)) "level" with
                 | Some _ => fset (fdel f4 "exception") "success" (VBool false)
                 | None => fset (fset (fdel f4 "exception") "success" (VBool false)) "level" (VInt (c_error c)) end) = Ok f3 ->
     fget f3 "success" = Some (VBool false) /\ (forall k, k <> "exception" -> k <> "success" -> k <> "level" -> fget f3 k = fget f4 k)).
  { intros f4 Z; injection Z as <-; destruct (fget (fset (fdel f4 "exception") _ _) "level").
    - split; [apply fset_same|intros k K1 K2 K3; rewrite fset_other by assumption; apply fdel_other; congruence].
    - split; [rewrite fset_other by discriminate; apply fset_same|].
      intros k K1 K2 K3; repeat rewrite fset_other by assumption; apply fdel_other; congruence. }
  destruct x as [|b|z|z|i n t m|i n m|e|i]; cbn [bindR] in E3;
    try (destruct (M f2 E3) as [A _]; split; [exact A|split; intros; discriminate]).
  - destruct (M _ E3) as [A B]; split; [exact A|split; [|intros; discriminate]].
    intros s Z; injection Z as ->; rewrite B by discriminate; apply fset_same.
  - destruct (e_exc e) eqn:Ee.
    2: { destruct (M f2 E3) as [A _]; split; [exact A|split; [intros; discriminate|intros e' Z Z2; congruence]]. }
    unfold exception_to_dict in E3; destruct (estr w e) as [t|e'] eqn:Es; cbn [bindR] in E3; [|discriminate].
    destruct (M _ E3) as [A B]; split; [exact A|split; [intros; discriminate|]].
    intros e0 Z _; injection Z as <-.
    repeat rewrite B by discriminate.
    split; [|split].
    + destruct (String.eqb (locs w) ""); solve [repeat first [apply fset_same|rewrite fset_other by (let Z := fresh in intro Z; discriminate Z)]].
    + exists t; split; [exact Es|]; destruct (String.eqb (locs w) ""); solve [repeat first [apply fset_same|rewrite fset_other by (let Z := fresh in intro Z; discriminate Z)]].
    + destruct (String.eqb (locs w) ""); solve [repeat first [apply fset_same|rewrite fset_other by (let Z := fresh in intro Z; discriminate Z)]].
Qed.

Example ex_level_given : handle c0 w0 false false [] [("level", VStr "info")] =
  Ok (Some [("level", VInt 2); ("auto", VBool false); ("time", VOther 99)]).
Proof. reflexivity. Qed.
Example ex_level_exception : exists f, handle c0 w0 false false [VStr "m"] [("e", VExc (mkE 1 7 true)); ("success", VBool true)] = Ok (Some f) /\
  fget f "level" = Some (VInt 5) /\ fget f "success" = Some (VBool false) /\ fget f "exception_message" = Some (VStr "text").
Proof. eexists; split; [reflexivity|repeat split; reflexivity]. Qed.
Example ex_level_failure : exists f, handle c0 w0 false false [] [("success", VBool false)] = Ok (Some f) /\ fget f "level" = Some (VInt 5).
Proof. eexists; split; reflexivity. Qed.
Example ex_off : handle c0 w0 false true [] [("level", VStr "info")] = Ok None.
Proof. reflexivity. Qed.
Example ex_below : handle (mkCfg 3 1 5 false false None [("info", 2%Z)] [] false true true false) w0 false false [] [("level", VStr "info")] = Ok None.
Proof. reflexivity. Qed.

Print Assumptions C34_exactly_the_expected_fields.
Print Assumptions C34_loud_mode_raises.
Print Assumptions C34_silent_mode_only_KeyError.
Print Assumptions C34_unknown_level_raises.
Print Assumptions C34_two_aliases_raise.
Print Assumptions C34_record_keeps_fields.
Print Assumptions C34_duplicates_always_noticed_refuted.
Print Assumptions C35_level_and_threshold.
Print Assumptions C35_exception_makes_failure.

Print Assumptions C35_level_of_call.
