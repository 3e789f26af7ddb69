(** Lemmas about the file formatter. *)
From Verif Require Import Base Text Json_Model Fmt_Model Fmt_Spec.
From Verif Require Settings_Model.
From Coq Require Import ZArith.
Local Open Scope string_scope.
Local Open Scope list_scope.

(** ** Dictionaries *)
Lemma dset_new : forall {V} (d : list (string * V)) k v, ~ In k (dkeys d) -> dset String.eqb d k v = d ++ [(k, v)].
Proof.
  induction d as [|[k0 v0] d IH]; intros k v N; cbn [dset dkeys map fst] in *; [reflexivity|].
  destruct (String.eqb_spec k k0) as [->|_]; [elim N; left; reflexivity|]. cbn [app]; f_equal. apply IH. intros H; apply N; right; exact H.
Qed.
Definition upd {V} (k : string) (f : V -> V) (kv : string * V) : string * V := if String.eqb k (fst kv) then (fst kv, f (snd kv)) else kv.
Lemma dkeys_upd : forall {V} k (f : V -> V) d, dkeys (map (upd k f) d) = dkeys d.
Proof. induction d as [|[a b] d IH]; [reflexivity|]. unfold dkeys, upd in *; cbn [map fst snd] in *. rewrite IH. destruct (String.eqb k a); reflexivity. Qed.
Lemma upd_absent : forall {V} k (f : V -> V) d, ~ In k (dkeys d) -> map (upd k f) d = d.
Proof.
  induction d as [|[a b] d IH]; intros N; [reflexivity|]. cbn [map]. unfold upd at 1; cbn [fst snd].
  destruct (String.eqb_spec k a) as [->|_]; [elim N; left; reflexivity|]. f_equal. apply IH; intros H; apply N; right; exact H.
Qed.
Lemma dset_old : forall {V} (f : V -> V) d k v, NoDup (dkeys d) -> dget String.eqb d k = Some v -> dset String.eqb d k (f v) = map (upd k f) d.
Proof.
  induction d as [|[a b] d IH]; intros k v ND E; cbn [dget dset map] in *; [discriminate|]. unfold upd at 1; cbn [fst snd].
  cbn in ND; inversion ND as [|x y N ND']; subst.
  destruct (String.eqb_spec k a) as [->|_]; [injection E as ->; f_equal; symmetry; apply upd_absent; exact N|].
  f_equal. apply IH; assumption.
Qed.

Lemma width_spec : forall ns data, NoDup (dkeys data) ->
  width_and_align ns data = fold_left (fun data n => map (upd (fst n) (centred (snd n))) data) ns data.
Proof.
  unfold width_and_align. induction ns as [|[n w] ns IH]; intros data ND; cbn [fold_left fst snd]; [reflexivity|].
  destruct (dget String.eqb data n) as [s|] eqn:E.
  - rewrite (dset_old (centred w) data n s ND E). apply IH. rewrite dkeys_upd; exact ND.
  - rewrite upd_absent by (apply (dget_None String.eqb String.eqb_spec); exact E). apply IH; exact ND.
Qed.

(** ** Base fields *)
Definition base_pieces (l : log) (hs : list (string * Res (option string))) : list (string * string) :=
  flat_map (fun h => match base_value l (fst h) (snd h) with Some s => [(fst h, s)] | None => [] end) hs.
Lemma base_keys_in : forall l hs n, In n (dkeys (base_pieces l hs)) -> In n (map fst hs).
Proof.
  induction hs as [|h hs IH]; intros n H; cbn in H; [destruct H|]. unfold dkeys in H; cbn [base_pieces flat_map] in H. rewrite map_app in H. apply in_app_or in H.
  destruct H as [H|H]; [|right; apply IH; exact H]. destruct (base_value l (fst h) (snd h)); cbn in H; [destruct H as [<-|[]]; left; reflexivity|destruct H].
Qed.
Lemma base_keys_nodup : forall l hs, NoDup (map fst hs) -> NoDup (dkeys (base_pieces l hs)).
Proof.
  induction hs as [|h hs IH]; intros ND; cbn; [constructor|]. inversion ND as [|x y N ND']; subst.
  destruct (base_value l (fst h) (snd h)); cbn [app map]; [|apply IH; exact ND'].
  unfold dkeys; cbn [app map fst]. constructor; [|apply IH; exact ND']. intros H; apply N. apply (base_keys_in l); exact H.
Qed.
Lemma base_fold : forall l hs base, NoDup (map fst hs) -> (forall n, In n (map fst hs) -> ~ In n (dkeys base)) ->
  fold_left (fun base h => match base_value l (fst h) (snd h) with Some s => dset String.eqb base (fst h) s | None => base end) hs base = base ++ base_pieces l hs.
Proof.
  induction hs as [|h hs IH]; intros base ND D; cbn [fold_left base_pieces flat_map]; [rewrite app_nil_r; reflexivity|].
  cbn [map] in ND; inversion ND as [|x y N ND']; subst. destruct (base_value l (fst h) (snd h)) as [s|].
  - rewrite dset_new by (apply D; left; reflexivity). rewrite IH; [rewrite <- app_assoc; reflexivity|exact ND'|].
    intros n Hn. unfold dkeys; rewrite map_app; intros H; apply in_app_or in H. destruct H as [H|[<-|[]]]; [revert H; apply D; right; exact Hn|contradiction].
  - rewrite IH; [reflexivity|exact ND'|]. intros n Hn; apply D; right; exact Hn.
Qed.
Definition base_names : list string :=
  ["time"; "level"; "success"; "auto"; "message"; "function"; "time_of_work"; "input_variables"; "local_variables"; "result"; "exception"; "traceback"].
Lemma base_names_nodup : NoDup base_names.
Proof. repeat constructor; cbn; intuition discriminate. Qed.
Lemma add_base_spec : forall loads show sp e l, add_base_fields loads show sp e l [] = base_pieces l (field_handlers loads show sp e l).
Proof.
  intros. unfold add_base_fields. rewrite base_fold; [reflexivity|apply base_names_nodup|]. intros n _ [].
Qed.

(** ** Extra fields *)
Definition candidate (base : list (string * string)) (f : string * val) : bool :=
  negb (dmem String.eqb base (fst f)) && negb (existsb (String.eqb (fst f)) forbidden_extra_fields) && negb (is_none (snd f)).
Definition extra_piece (f : string * val) : Res (string * string) :=
  match snd f with
  | VStr s => Ok (fst f, fst f ++ ": " ++ quoted s)%string
  | v => bindR (text_of v) (fun s => Ok (fst f, (fst f ++ ": " ++ s)%string))
  end.
Lemma add_extra_one : forall base f, add_extra_field base f =
  if candidate base f then bindR (extra_piece f) (fun p => Ok (base ++ [p])) else Ok base.
Proof.
  intros base [n v]; unfold add_extra_field, candidate, extra_piece; cbn [fst snd].
  destruct (dmem String.eqb base n) eqn:M; cbn [negb andb]; [reflexivity|].
  apply (dmem_false String.eqb String.eqb_spec) in M.
  destruct (existsb (String.eqb n) forbidden_extra_fields); cbn [negb andb]; [reflexivity|].
  destruct v as [|b|z|s|o]; cbn [is_none negb text_of bindR]; try reflexivity; try (rewrite dset_new by exact M; reflexivity).
  destruct (o_text o); cbn [bindR]; [rewrite dset_new by exact M; reflexivity|reflexivity].
Qed.
Lemma extra_piece_name : forall f p, extra_piece f = Ok p -> fst p = fst f.
Proof.
  intros [n v] p; unfold extra_piece; cbn [fst snd]. destruct v as [|b|z|s|o]; cbn [text_of bindR]; try (intros H; injection H as <-; reflexivity).
  destruct (o_text o); cbn [bindR]; [intros H; injection H as <-; reflexivity|discriminate].
Qed.
Lemma add_extra_spec : forall fs base, NoDup (dkeys fs) ->
  add_extra_fields base fs = bindR (mapR extra_piece (filter (candidate base) fs)) (fun ps => Ok (base ++ ps)).
Proof.
  induction fs as [|f fs IH]; intros base ND; cbn [add_extra_fields filter mapR bindR]; [rewrite app_nil_r; reflexivity|].
  cbn [dkeys map] in ND; inversion ND as [|x y N ND']; subst.
  rewrite add_extra_one. destruct (candidate base f) eqn:C; cbn [bindR mapR]; [|apply IH; exact ND'].
  destruct (extra_piece f) as [p|x] eqn:P; cbn [bindR]; [|reflexivity]. rewrite IH by exact ND'.
  assert (F : filter (candidate (base ++ [p])) fs = filter (candidate base) fs).
  { apply filter_ext_in; intros g Hg. unfold candidate. f_equal; f_equal. f_equal. unfold dmem. rewrite (dget_app String.eqb).
    destruct (dget String.eqb base (fst g)); [reflexivity|]. destruct p as [pn ps]; cbn [dget]. pose proof (extra_piece_name _ _ P) as Ep; cbn in Ep.
    destruct (String.eqb_spec (fst g) pn) as [E|_]; [|reflexivity]. elim N. rewrite <- Ep, <- E. apply in_map; exact Hg. }
  rewrite F. destruct (mapR extra_piece (filter (candidate base) fs)) as [ps|x]; cbn [bindR]; [rewrite <- app_assoc; reflexivity|reflexivity].
Qed.
Lemma get_dict_spec : forall loads show sp e l, NoDup (dkeys l) ->
  get_dict loads show sp e l =
  let base := base_pieces l (field_handlers loads show sp e l) in
  bindR (mapR extra_piece (filter (candidate base) l)) (fun ps => Ok (base ++ ps)).
Proof. intros. unfold get_dict. rewrite add_base_spec. apply add_extra_spec; assumption. Qed.

Lemma mapR_ok_keys : forall fs ps, mapR extra_piece fs = Ok ps -> dkeys ps = dkeys fs.
Proof.
  induction fs as [|f fs IH]; intros ps H; cbn [mapR] in H; [injection H as <-; reflexivity|].
  destruct (extra_piece f) as [p|] eqn:P; cbn [bindR] in H; [|discriminate]. destruct (mapR extra_piece fs) as [qs|]; cbn [bindR] in H; [|discriminate].
  injection H as <-. unfold dkeys in *; cbn [map]. rewrite (extra_piece_name _ _ P), (IH qs eq_refl). reflexivity.
Qed.
Lemma mapR_app : forall {A B} (f : A -> Res B) a b, mapR f (a ++ b) = bindR (mapR f a) (fun x => bindR (mapR f b) (fun y => Ok (x ++ y))).
Proof.
  induction a as [|x a IH]; intros b; cbn [app mapR bindR]; [destruct (mapR f b); reflexivity|]. rewrite IH. destruct (f x); cbn [bindR]; [|reflexivity].
  destruct (mapR f a); cbn [bindR]; [|reflexivity]. destruct (mapR f b); reflexivity.
Qed.
Lemma mapR_all : forall {A B} (f : A -> Res B) l, (forall a, In a l -> exists b, f a = Ok b) -> exists bs, mapR f l = Ok bs.
Proof.
  induction l as [|a l IH]; intros H; cbn [mapR]; [eexists; reflexivity|]. destruct (H a (or_introl eq_refl)) as (b & ->); cbn [bindR].
  destruct IH as (bs & ->); [intros x Hx; apply H; right; exact Hx|]. eexists; reflexivity.
Qed.
Lemma mapR_in : forall {A B} (f : A -> Res B) l bs a, mapR f l = Ok bs -> In a l -> exists b, f a = Ok b /\ In b bs.
Proof.
  induction l as [|x l IH]; intros bs a H I; [destruct I|]. cbn [mapR] in H. destruct (f x) as [b|] eqn:E; cbn [bindR] in H; [|discriminate].
  destruct (mapR f l) as [bs'|] eqn:M; cbn [bindR] in H; [|discriminate]. injection H as <-. destruct I as [<-|I].
  - exists b; split; [exact E|left; reflexivity].
  - destruct (IH bs' a eq_refl I) as (c & Ec & Hc). exists c; split; [exact Ec|right; exact Hc].
Qed.
Lemma mapR_Forall2 : forall {A B C} (f : A -> Res B) (g : C -> B) (R : A -> C -> Prop) l m, (forall a c, R a c -> f a = Ok (g c)) -> Forall2 R l m -> mapR f l = Ok (map g m).
Proof.
  intros A B C f g R l m H F. induction F as [|a c l m Ha F IH]; cbn [mapR map]; [reflexivity|]. rewrite (H a c Ha); cbn [bindR]. rewrite IH. reflexivity.
Qed.

(** ** Columns *)
Lemma pad_is : forall n, pad n = blanks n.
Proof. unfold blanks; induction n as [|n IH]; cbn; [reflexivity|]. rewrite IH; reflexivity. Qed.
Lemma pad_length : forall n, String.length (blanks n) = n.
Proof. unfold blanks; induction n as [|n IH]; cbn; [reflexivity|]. rewrite IH; reflexivity. Qed.
Lemma centred_in_column : forall w s, in_column w s (centred w s).
Proof.
  intros w s. unfold centred. set (t := w - String.length s). exists (Nat.div2 t), (t - Nat.div2 t). split; [rewrite !pad_is; reflexivity|].
  pose proof (Nat.div2_odd t) as O. assert (B : Nat.b2n (Nat.odd t) <= 1) by (destruct (Nat.odd t); cbn; lia).
  revert O B. generalize (Nat.b2n (Nat.odd t)) as b. intros b O B. split; [unfold t in *; lia|lia].
Qed.
Lemma str_length_app : forall a b, String.length (a ++ b) = String.length a + String.length b.
Proof. induction a as [|c a IH]; intros b; cbn; [reflexivity|]. rewrite IH; reflexivity. Qed.
Lemma in_column_length : forall w s c, in_column w s c -> String.length c = Nat.max w (String.length s).
Proof. intros w s c (a & b & -> & E & _). rewrite !str_length_app, !pad_length. lia. Qed.

(** ** Level names *)
Definition level_width (e : env) : nat :=
  Nat.max (match Settings_Model.get_all_names (levels e) with [] => 2 | ns => fold_right Nat.max 0 (map String.length ns) end) (String.length "UNKNOWN").
Lemma norms_spec : forall e, norms e = [("level", level_width e); ("success", 7); ("auto", 6)].
Proof. reflexivity. Qed.
Lemma max_spec : forall ns, (forall n, In n ns -> String.length n <= fold_right Nat.max 0 (map String.length ns)) /\
  (ns <> [] -> exists n, In n ns /\ String.length n = fold_right Nat.max 0 (map String.length ns)).
Proof.
  induction ns as [|n ns [IH1 IH2]]; split; intros; try contradiction; cbn [map fold_right] in *.
  - destruct H as [->|H]; [lia|]. specialize (IH1 _ H). lia.
  - destruct ns as [|m ns]; [exists n; split; [left; reflexivity|cbn; lia]|].
    destruct IH2 as (x & I & E); [discriminate|]. destruct (Nat.max_dec (String.length n) (fold_right Nat.max 0 (map String.length (m :: ns)))) as [M|M]; rewrite M.
    + exists n; split; [left; reflexivity|reflexivity].
    + exists x; split; [right; exact I|exact E].
Qed.
Lemma level_width_column : forall e, column (levels e) (level_width e).
Proof.
  intros e. unfold column, level_width, Settings_Model.get_all_names. change (String.length "UNKNOWN") with 7.
  destruct (dkeys (Settings_Model.lv (levels e))) as [|n ns] eqn:E; [split; [lia|split; [intros n []|left; reflexivity]]|].
  destruct (max_spec (n :: ns)) as (A & B). destruct B as (x & I & Ex); [discriminate|]. revert A Ex. generalize (fold_right Nat.max 0 (map String.length (n :: ns))) as m.
  intros m A Ex. split; [lia|]. split; [intros k Hk; specialize (A _ Hk); lia|].
  destruct (Nat.le_gt_cases m 7); [left; lia|]. right; exists x; split; [exact I|lia].
Qed.
