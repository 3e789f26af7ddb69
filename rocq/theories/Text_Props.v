(** C76: the texts of objects. *)
From Verif Require Import Base Text_Model Text_Spec.
From Coq Require Import Ascii.
Local Open Scope string_scope.
Local Open Scope list_scope.

Lemma app_assoc_s : forall a b c : string, (a ++ (b ++ c) = (a ++ b) ++ c)%string.
Proof. induction a as [|x a IH]; intros b c; [reflexivity|]; cbn; rewrite IH; reflexivity. Qed.
Lemma app_nil_s : forall a : string, (a ++ "" = a)%string.
Proof. induction a as [|x a IH]; [reflexivity|]; cbn; rewrite IH; reflexivity. Qed.
Lemma app_inj_l : forall a b c : string, (a ++ b = a ++ c)%string -> b = c.
Proof. induction a as [|x a IH]; cbn; intros b c E; [exact E|]; injection E as E; exact (IH _ _ E). Qed.
Lemma len_app_s : forall a b : string, String.length (a ++ b)%string = String.length a + String.length b.
Proof. induction a as [|x a IH]; intros b; cbn; [reflexivity|rewrite IH; reflexivity]. Qed.
Lemma app_inj_len : forall a b c d : string, String.length a = String.length b -> (a ++ c = b ++ d)%string -> a = b /\ c = d.
Proof.
  induction a as [|x a IH]; intros [|y b] c d L E; cbn in *; try discriminate L; [auto|].
  injection E as -> E; injection L as L; destruct (IH b c d L E) as [-> ->]; auto.
Qed.
Lemma app_inj_r : forall a b c : string, (a ++ c = b ++ c)%string -> a = b.
Proof.
  intros a b c E; assert (L : String.length (a ++ c)%string = String.length (b ++ c)%string) by (rewrite E; reflexivity).
  rewrite !len_app_s in L; apply (app_inj_len a b c c); [lia|exact E].
Qed.

(** Texts split at the first occurrence of a character. *)
Lemma split_char : forall c a b r r', without c a -> without c b -> (a ++ String c r = b ++ String c r')%string -> a = b /\ r = r'.
Proof.
  intros c; induction a as [|x a IH]; intros [|y b] r r' Wa Wb E; cbn in *.
  - injection E as ->; auto.
  - injection E as -> _; destruct Wb as [N _]; contradiction.
  - injection E as -> _; destruct Wa as [N _]; contradiction.
  - injection E as -> E; destruct (IH b r r' (proj2 Wa) (proj2 Wb) E) as [-> ->]; auto.
Qed.
(** The same, when the text may also end. *)
Definition ends_at (c : ascii) (r : string) : Prop := r = "" \/ exists q, r = String c q.
Lemma split_end : forall c a b r r', without c a -> without c b -> ends_at c r -> ends_at c r' ->
  (a ++ r = b ++ r')%string -> a = b /\ r = r'.
Proof.
  intros c; induction a as [|x a IH]; intros [|y b] r r' Wa Wb Er Er' E; cbn in *.
  - auto.
  - destruct Er as [->|[q ->]]; [discriminate E|]; injection E as -> _; destruct Wb as [N _]; contradiction.
  - destruct Er' as [->|[q ->]]; [discriminate E|]; injection E as -> _; destruct Wa as [N _]; contradiction.
  - injection E as -> E; destruct (IH b r r' (proj2 Wa) (proj2 Wb) Er Er' E) as [-> ->]; auto.
Qed.

Definition tail (sep : string) (fs : list (string * tval)) : string :=
  match fs with [] => "" | _ => (", " ++ fields_text sep fs)%string end.
Lemma fields_text_cons : forall sep f fs, fields_text sep (f :: fs) = (field_text sep f ++ tail sep fs)%string.
Proof. intros sep f [|g fs]; cbn; [rewrite app_nil_s; reflexivity|reflexivity]. Qed.
Lemma tail_end : forall sep fs, ends_at c_comma (tail sep fs).
Proof. intros sep [|f fs]; [left; reflexivity|right; eexists; reflexivity]. Qed.

Lemma value_split : forall v w r r', clear_value v -> clear_value w -> ends_at c_comma r -> ends_at c_comma r' ->
  (shown v ++ r = shown w ++ r')%string -> v = w /\ r = r'.
Proof.
  intros [s|t] [s'|t'] r r' Cv Cw Er Er' E; cbn [shown clear_value] in *.
  - unfold quote in E; cbn in E; injection E as E; rewrite <- !app_assoc_s in E; cbn in E.
    destruct (split_char _ _ _ _ _ Cv Cw E) as [-> ->]; auto.
  - exfalso; unfold quote in E; cbn in E; destruct t' as [|x t']; cbn in E.
    + destruct Er' as [->|[q ->]]; [discriminate E|]; injection E as E; discriminate E.
    + injection E as <- _; destruct Cw as [[N _] _]; apply N; reflexivity.
  - exfalso; unfold quote in E; cbn in E; destruct t as [|x t]; cbn in E.
    + destruct Er as [->|[q ->]]; [discriminate E|]; injection E as E; discriminate E.
    + injection E as -> _; destruct Cv as [[N _] _]; apply N; reflexivity.
  - destruct (split_end _ _ _ _ _ (proj2 Cv) (proj2 Cw) Er Er' E) as [-> ->]; auto.
Qed.

Lemma fields_inj : forall c sep, (forall k, clear_name k -> without c k) -> forall fs gs, clear fs -> clear gs ->
  fields_text (String c sep) fs = fields_text (String c sep) gs -> fs = gs.
Proof.
  intros c sep Hc; induction fs as [|[k v] fs IH]; intros [|[k' v'] gs] Cf Cg E.
  - reflexivity.
  - exfalso; rewrite fields_text_cons in E; unfold field_text in E; cbn in E; destruct k'; discriminate E.
  - exfalso; rewrite fields_text_cons in E; unfold field_text in E; cbn in E; destruct k; discriminate E.
  - inversion Cf as [|? ? [Nk Vk] Cf']; inversion Cg as [|? ? [Nk' Vk'] Cg']; subst; cbn [fst snd] in *.
    rewrite !fields_text_cons in E; unfold field_text in E; cbn [fst snd] in E; rewrite <- !app_assoc_s in E; cbn [String.append] in E.
    destruct (split_char c k k' _ _ (Hc _ Nk) (Hc _ Nk') E) as [-> E2].
    apply app_inj_l in E2.
    destruct (value_split _ _ _ _ Vk Vk' (tail_end _ _) (tail_end _ _) E2) as [-> E3].
    f_equal; apply IH; [exact Cf'|exact Cg'|].
    destruct fs as [|f fs], gs as [|g gs]; cbn [tail] in E3; try discriminate E3; [reflexivity|].
    apply app_inj_l in E3; exact E3.
Qed.

(** A record says "(empty)" exactly when it has no fields. *)
Theorem C76_empty : forall id fields, without c_space id ->
  (item_str id fields = ("<log item #" ++ id ++ " (empty)>")%string <-> fields = None \/ fields = Some []).
Proof.
  intros id fields W; split.
  - destruct fields as [[|f fs]|]; auto; cbn [item_str]; intros E; exfalso.
    apply app_inj_l in E; apply app_inj_l in E; discriminate E.
  - intros [-> | ->]; reflexivity.
Qed.

(** repr() of a record is the text that str() gives. *)
Theorem C76_repr : forall id fields, item_repr id fields = item_str id fields.
Proof. reflexivity. Qed.

(** The text of a record determines the object and, when names and values are clear, all its fields in their order. *)
Theorem C76_record : forall id id' fs gs, without c_space id -> without c_space id' ->
  item_str id (Some fs) = item_str id' (Some gs) -> id = id' /\ (clear fs -> clear gs -> fs = gs).
Proof.
  intros id id' fs gs W W' E.
  assert (Z : forall i l, exists q, item_str i (Some l) = ("<log item #" ++ (i ++ String c_space q))%string).
  { intros i [|f l]; cbn [item_str]; [exists "(empty)>"|exists ("with content: " ++ fields_text " = " (f :: l) ++ ">")%string]; reflexivity. }
  destruct (Z id fs) as [q Q]; destruct (Z id' gs) as [q' Q'].
  assert (Eid : id = id').
  { rewrite Q, Q' in E; apply app_inj_l in E; exact (proj1 (split_char _ _ _ _ _ W W' E)). }
  split; [exact Eid|]; subst id'; intros Cf Cg.
  destruct fs as [|f fs], gs as [|g gs]; cbn [item_str] in E.
  - reflexivity.
  - exfalso; apply app_inj_l in E; apply app_inj_l in E; discriminate E.
  - exfalso; apply app_inj_l in E; apply app_inj_l in E; discriminate E.
  - apply app_inj_l in E; apply app_inj_l in E; apply app_inj_l in E; apply app_inj_r in E.
    apply (fields_inj " "%char "= "); [intros k [H _]; exact H|exact Cf|exact Cg|exact E].
Qed.

(** The same for the object behind log(...), for repr() and for str(). *)
Theorem C76_log_object : forall cls cls' fs gs, without c_paren cls -> without c_paren cls' -> clear fs -> clear gs ->
  (fin_repr cls fs = fin_repr cls' gs \/ fin_str cls fs = fin_str cls' gs) -> cls = cls' /\ fs = gs.
Proof.
  assert (R : forall cls cls' fs gs, without c_paren cls -> without c_paren cls' -> clear fs -> clear gs ->
    fin_repr cls fs = fin_repr cls' gs -> cls = cls' /\ fs = gs).
  { intros cls cls' fs gs W W' Cf Cg E; unfold fin_repr in E; cbn in E.
    destruct (split_char _ _ _ _ _ W W' E) as [-> E2]; split; [reflexivity|].
    apply app_inj_r in E2; apply (fields_inj "="%char ""); [intros k [_ H]; exact H|exact Cf|exact Cg|exact E2]. }
  intros cls cls' fs gs W W' Cf Cg [E|E]; [exact (R _ _ _ _ W W' Cf Cg E)|].
  unfold fin_str in E; apply app_inj_l in E; apply app_inj_r in E; exact (R _ _ _ _ W W' Cf Cg E).
Qed.

(** Tokens and rules: the text determines the kind and a clear content. *)
Theorem C76_token : forall cls cls' v w, without c_paren cls -> without c_paren cls' -> clear_value v -> clear_value w ->
  token_repr cls v = token_repr cls' w -> cls = cls' /\ v = w.
Proof.
  intros cls cls' v w W W' Cv Cw E; unfold token_repr in E; cbn in E.
  destruct (split_char _ _ _ _ _ W W' E) as [-> E2]; split; [reflexivity|].
  apply app_inj_r in E2.
  destruct (value_split v w "" "" Cv Cw (or_introl eq_refl) (or_introl eq_refl)) as [-> _]; [rewrite !app_nil_s; exact E2|reflexivity].
Qed.
Theorem C76_rule : forall cls cls' s s', without c_paren cls -> without c_paren cls' ->
  rule_repr cls s = rule_repr cls' s' -> cls = cls' /\ s = s'.
Proof.
  intros cls cls' s s' W W' E; unfold rule_repr in E; cbn in E.
  destruct (split_char _ _ _ _ _ W W' E) as [-> E2]; split; [reflexivity|].
  injection E2 as E2; apply app_inj_r in E2; exact E2.
Qed.

(** The settings: the text determines every setting up to str(). *)
Lemma concat_join : forall l, String.concat ", " (map (fun kv : string * tval => (fst kv ++ " = " ++ str_of (snd kv))%string) l) =
  fields_text " = " (map (fun kv => (fst kv, TOth (str_of (snd kv)))) l).
Proof. intros l; unfold fields_text; rewrite map_map; reflexivity. Qed.
Theorem C76_settings : forall ps qs,
  Forall (fun kv => clear_name (fst kv) /\ without c_quote (str_of (snd kv)) /\ without c_comma (str_of (snd kv))) ps ->
  Forall (fun kv => clear_name (fst kv) /\ without c_quote (str_of (snd kv)) /\ without c_comma (str_of (snd kv))) qs ->
  store_str ps = store_str qs -> map (fun kv => (fst kv, str_of (snd kv))) ps = map (fun kv => (fst kv, str_of (snd kv))) qs.
Proof.
  intros ps qs Hp Hq E; unfold store_str in E; rewrite !concat_join in E; apply app_inj_l in E; apply app_inj_r in E.
  assert (C : forall l, Forall (fun kv => clear_name (fst kv) /\ without c_quote (str_of (snd kv)) /\ without c_comma (str_of (snd kv))) l ->
    clear (map (fun kv => (fst kv, TOth (str_of (snd kv)))) l)).
  { intros l Hl; apply Forall_map; eapply Forall_impl; [|exact Hl]; cbn; tauto. }
  apply (fields_inj " "%char "= " ltac:(intros k [H _]; exact H) _ _ (C _ Hp) (C _ Hq)) in E.
  apply (f_equal (map (fun kv => (fst kv, str_of (snd kv))))) in E; rewrite !map_map in E; exact E.
Qed.

(** One setting: the text determines its name and, up to str(), its value. *)
Theorem C76_setting : forall n n' v v' id, without c_quote n -> without c_quote n' -> point_str n v id = point_str n' v' id ->
  n = n' /\ str_of v = str_of v'.
Proof.
  intros n n' v v' id W W' E; unfold point_str in E; apply app_inj_l in E; apply app_inj_l in E.
  unfold quote in E; cbn [String.append] in E; destruct (split_char _ _ _ _ _ W W' E) as [-> E2]; split; [reflexivity|].
  apply (app_inj_l " with value ") in E2; apply app_inj_r in E2; exact E2.
Qed.

(** The weak dictionary calls itself empty exactly when it has no entries. *)
Theorem C76_weak_empty : forall cls es, weak_str cls es = ("<" ++ cls ++ " object (empty)>")%string <-> es = [].
Proof.
  intros cls es; split; [|intros ->; reflexivity].
  destruct es as [|e es]; [reflexivity|]; unfold weak_str; intros E; exfalso.
  assert (N : String.concat ", " (map weak_item (e :: es)) <> "").
  { assert (Ne : weak_item e <> "") by (destruct e as [[k [s|t]] r]; cbn; [discriminate|destruct k; discriminate]).
    cbn; destruct (map weak_item es); [exact Ne|]; destruct (weak_item e); [contradiction|discriminate]. }
  destruct (String.eqb_spec (String.concat ", " (map weak_item (e :: es))) ""); [contradiction|].
  apply app_inj_l in E; apply app_inj_l in E; discriminate E.
Qed.

(** Examples. *)
Definition q (s : string) : string := (quote ++ s ++ quote)%string.
Definition ex_fields : list (string * tval) := [("auto", TOth "False"); ("message", TStr "kek"); ("level", TOth "5")].
Example C76_record_example :
  item_str "77" (Some ex_fields) = ("<log item #77 with content: auto = False, message = " ++ q "kek" ++ ", level = 5>")%string /\
  item_str "77" None = "<log item #77 (empty)>" /\
  fin_str "LoggerRouteFinalizer" [("message", TStr "kek"); ("level", TOth "5")] =
    ("<A LoggerRouteFinalizer(message=" ++ q "kek" ++ ", level=5) object, don't use it!>")%string /\
  token_repr "NumberToken" (TOth "5") = "NumberToken(5)" /\
  weak_str "LockedWeakKeyValueDictionary" [("k1", TOth "v1", "r1"); ("k2", TOth "v2", "r2")] =
    "<LockedWeakKeyValueDictionary object with data: {k1: v1, k2: v2}>".
Proof. vm_compute; repeat split. Qed.
Example C76_clear_example : clear ex_fields.
Proof. unfold clear, ex_fields; repeat constructor; cbn; discriminate. Qed.
Example C76_record_use : forall gs, clear gs -> item_str "77" (Some ex_fields) = item_str "77" (Some gs) -> gs = ex_fields.
Proof.
  intros gs C E; symmetry; refine (proj2 (C76_record "77" "77" ex_fields gs _ _ E) C76_clear_example C); cbn; repeat split; discriminate.
Qed.

(** Without clear values the text of a record can be forged: whatever stands between the first and the last string of a
    record, one message with quotes in it gives the same text. *)
Theorem C76_forged_refuted : forall id k s mid k2 s2, exists x,
  item_str id (Some ((k, TStr s) :: mid ++ [(k2, TStr s2)])) = item_str id (Some [(k, TStr x)]).
Proof.
  intros id k s mid k2 s2.
  assert (T : forall l : list (string * tval), exists x, tail " = " (l ++ [(k2, TStr s2)]) = (x ++ quote)%string).
  { induction l as [|[k' v'] l IH].
    - exists (", " ++ k2 ++ " = " ++ quote ++ s2)%string; cbn [app tail fields_text map String.concat]; unfold field_text; cbn [fst snd shown].
      rewrite <- !app_assoc_s; reflexivity.
    - destruct IH as [x Hx]; cbn [app tail]; rewrite fields_text_cons, Hx.
      exists (", " ++ field_text " = " (k', v') ++ x)%string; rewrite <- !app_assoc_s; reflexivity. }
  destruct (T mid) as [x Hx]; exists (s ++ quote ++ x)%string; cbn [item_str].
  do 3 f_equal; f_equal.
  rewrite !fields_text_cons, Hx; unfold field_text; cbn [fst snd shown tail].
  rewrite app_nil_s, <- !app_assoc_s; reflexivity.
Qed.
Example C76_forged_example :
  item_str "77" (Some [("message", TStr ("hi" ++ quote ++ ", level = 5, function = " ++ quote ++ "main")%string)]) =
  item_str "77" (Some [("message", TStr "hi"); ("level", TOth "5"); ("function", TStr "main")]).
Proof. reflexivity. Qed.

(** The text of the settings does not tell a string from another value with the same text, although the code means to put
    strings in quotes. *)
Theorem C76_settings_quotes_refuted : exists ps qs, ps <> qs /\
  Forall (fun kv => clear_name (fst kv) /\ clear_value (snd kv)) ps /\ Forall (fun kv => clear_name (fst kv) /\ clear_value (snd kv)) qs /\
  store_str ps = store_str qs.
Proof.
  exists [("engine", TStr "None")], [("engine", TOth "None")].
  split; [discriminate|split; [|split; [|reflexivity]]]; repeat constructor; cbn; discriminate.
Qed.

(** The text of the weak dictionary shows neither the key nor the value when the value is a string. *)
Theorem C76_weak_string_refuted : exists cls k k' s s' r, k <> k' /\ s <> s' /\
  weak_str cls [(k, TStr s, r)] = weak_str cls [(k', TStr s', r)].
Proof. exists "D", "a", "b", "x", "y", "r"; repeat split; discriminate. Qed.

Print Assumptions C76_repr.
Print Assumptions C76_empty.
Print Assumptions C76_record.
Print Assumptions C76_log_object.
Print Assumptions C76_token.
Print Assumptions C76_rule.
Print Assumptions C76_settings.
Print Assumptions C76_setting.
Print Assumptions C76_weak_empty.
Print Assumptions C76_forged_refuted.
Print Assumptions C76_settings_quotes_refuted.
Print Assumptions C76_weak_string_refuted.
