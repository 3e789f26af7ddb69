(** C72: creating a file handler: which arguments are accepted, what the object is, and what happens to the files. *)
From Coq Require Import ZArith Lia ListDec Bool.
From Verif Require Import Base Text Sig_Model Sig_Props Rot_Model Rot_Spec Rot_Props Writer_Model.
From Verif Require Mail_Model Mail_Props.
Local Open Scope string_scope.
Local Open Scope list_scope.
Import Mail_Props.

(** ** What is expected *)
(** Where the records go. *)
Inductive goes_to : list farg -> target -> Prop :=
| G_stdout : goes_to [] TStdout
| G_name s : goes_to [FName s] (TName s)
| G_object i : goes_to [FObj i Good Good Good] (TObj i).

(** The parts of a text between the '>>', from the left. *)
Inductive parted : string -> list string -> Prop :=
| P_end s : (forall x y, s <> (x ++ (">>" ++ y))%string) -> parted s [s]
| P_cut a r l : (forall x y, (a ++ (">>" ++ r) = x ++ (">>" ++ y))%string -> String.length a <= String.length x) -> parted r l -> parted (a ++ (">>" ++ r)) (a :: l).

Section Expected.
  Variable sp : ascii -> bool.
  Variable int_of : string -> option Z.
  (** The kinds of lock asked for. *)
  Definition locks (a : lock_arg) (names : list string) : Prop :=
    match a with
    | LNone => names = []
    | LStr s => names = lock_names sp s /\ not_blank sp s = true /\ Forall (fun x => x = "file" \/ x = "thread") names /\ NoDup names
    | LOther => False
    end.
  (** The limits and the directory that the rotation command asks for; only a named file can be moved. *)
  Definition rotation (a : arg) (t : target) (limits : list Z) (dir : string) : Prop :=
    (a = Mail_Model.ANone /\ limits = [] /\ dir = "logs") \/
    (exists s, a = Mail_Model.AStr s /\ (s = "" \/ exists n, t = TName n) /\
       ((exists rules, parted s [rules] /\ Forall2 (denotes sp int_of) (rule_texts sp rules) limits /\ dir = "logs") \/
        (exists rules d, parted s [rules; d] /\ Forall2 (denotes sp int_of) (rule_texts sp rules) limits /\ dir = match d with "" => "logs" | _ => strip sp d end))).
End Expected.
Definition checked (g : given) : Prop :=
  a_bool (g_errors g) /\ a_function (g_filter g) /\ a_function (g_alt g) /\ a_bool (g_flush g) /\ a_string (g_separator g) /\ a_function (g_formatter g) /\
  (g_rotation g = Mail_Model.ANone \/ a_string (g_rotation g)).
Definition functions (g : given) : list arg := [g_filter g; g_alt g; g_formatter g].
Definition lock_name (s : string) : string := (s ++ ".lock")%string.

(** ** The parts *)
Lemma app_length : forall a b : string, String.length (a ++ b) = String.length a + String.length b.
Proof. induction a as [|c a IH]; intros b; cbn; [reflexivity|rewrite IH; reflexivity]. Qed.
Lemma app_same : forall a b x y : string, (a ++ x = b ++ y)%string -> String.length a = String.length b -> a = b /\ x = y.
Proof.
  induction a as [|c a IH]; intros [|d b] x y E L; cbn in *; try discriminate; [auto|].
  injection E as -> E; destruct (IH b x y E) as [-> ->]; auto.
Qed.
Lemma app_assoc_s : forall a b c : string, ((a ++ b) ++ c = a ++ (b ++ c))%string.
Proof. induction a as [|ch a IHa]; intros; cbn; [reflexivity|rewrite IHa; reflexivity]. Qed.

Lemma parted_one : forall s l m, parted s l -> parted s m -> l = m.
Proof.
  intros s l m P; revert m; induction P as [s N|a r l M P IH]; intros m Q.
  - inversion Q as [s' N'|a r l' M' Q']; subst; [reflexivity|]; exfalso; apply (N a r); reflexivity.
  - inversion Q as [s' N' E|b r' l' M' Q' E]; subst; [exfalso; apply (N' a r); reflexivity|].
    assert (String.length a = String.length b) as L by (pose proof (M b r' (eq_sym E)); pose proof (M' a r E); lia).
    destruct (app_same _ _ _ _ E (eq_sym L)) as [-> E2]; injection E2 as ->; f_equal; apply IH, Q'.
Qed.

Lemma parted_not_nil : forall s l, parted s l -> l <> [].
Proof. intros s l [|]; discriminate. Qed.

(** [split_gg] gives the parts. *)
Lemma gg_step : forall c s, (forall r, String c s <> (">>" ++ r)%string) ->
  split_gg (String c s) = match split_gg s with h :: t => String c h :: t | [] => [String c ""] end.
Proof.
  intros c s N; cbn [split_gg].
  destruct (ascii_dec c ">") as [->|D].
  - destruct s as [|d s]; [reflexivity|]; destruct (ascii_dec d ">") as [->|D2]; [exfalso; apply (N s); reflexivity|].
    destruct d as [[|] [|] [|] [|] [|] [|] [|] [|]]; try reflexivity; contradiction D2; reflexivity.
  - destruct c as [[|] [|] [|] [|] [|] [|] [|] [|]]; try reflexivity; contradiction D; reflexivity.
Qed.

Lemma gg_parted : forall s, parted s (split_gg s).
Proof.
  intros s; remember (String.length s) as n eqn:L; assert (String.length s <= n) as Ln by lia; clear L; revert s Ln.
  induction n as [|n IH]; intros [|c s] Ln; cbn in Ln; try lia.
  - apply P_end; intros [|? x] y E; discriminate.
  - apply P_end; intros [|? x] y E; discriminate.
  - assert ((exists r, String c s = (">>" ++ r)%string) \/ forall r, String c s <> (">>" ++ r)%string) as [[r E]|N].
    { destruct (ascii_dec c ">") as [->|D]; [|right; intros r E; injection E as E _; contradiction].
      destruct s as [|d s]; [right; intros r; discriminate|].
      destruct (ascii_dec d ">") as [->|D]; [left; exists s; reflexivity|right; intros r E; injection E as E _; contradiction]. }
    + rewrite E; change (split_gg (">>" ++ r)) with ("" :: split_gg r).
      apply (P_cut "" r); [intros; cbn; lia|]; apply IH; assert (String.length (String c s) = String.length (">>" ++ r)) as L by (rewrite E; reflexivity); cbn in L; lia.
    + rewrite (gg_step c s N); assert (String.length s <= n) as Ls by lia; specialize (IH s Ls).
      destruct (split_gg s) as [|h t]; [inversion IH|].
      inversion IH as [s' N' E1 E2|a r l M P E1 E2]; subst.
      * apply P_end; intros [|d x] y E; [apply (N y); exact E|]; injection E as -> E; apply (N' x y E).
      * apply (P_cut (String c h) r); [|exact P]; intros [|d x] y E; [exfalso; apply (N y); exact E|].
        injection E as -> E; cbn; specialize (M x y E); lia.
Qed.

Section C72.
  Variable isident : string -> bool.
  Variable sp : ascii -> bool.
  Variable int_of : string -> option Z.
  Variable cannot : string -> option exn.
  Hypothesis dot_no : isident "." = false.
  (** The names of units are not numbers. *)
  Hypothesis units : forall b p, In (b, p) unit_power -> int_of b = None.
  Notation make := (make isident sp int_of cannot).

  Lemma a_string_dec : forall a, (Mail_Model.is_str a = true /\ a_string a) \/ (Mail_Model.is_str a = false /\ ~ a_string a).
  Proof.
    intros [|s|b|z|i o]; [right|left|right..]; (split; [reflexivity|try (exists s; reflexivity); try (intros [? Q]; discriminate)]).
  Qed.
  Lemma a_bool_dec : forall a, (Mail_Model.is_bool a = true /\ a_bool a) \/ (Mail_Model.is_bool a = false /\ ~ a_bool a).
  Proof.
    intros [|s|b|z|i o]; [right|right|left|right..]; (split; [reflexivity|try (exists b; reflexivity); try (intros [? Q]; discriminate)]).
  Qed.

  Lemma checks : forall g, (forall a, In a (functions g) -> real a) ->
    let r1 := do_input_proves isident [("only_errors", g_errors g); ("filter", g_filter g); ("alt", g_alt g)] in
    let r2 := do_input_proves isident [("forced_flush", g_flush g); ("separator", g_separator g); ("formatter", g_formatter g); ("rotation", g_rotation g)] in
    (checked g /\ r1 = Ok tt /\ r2 = Ok tt) \/ (~ checked g /\ (r1 = Err EValueError \/ r1 = Ok tt /\ r2 = Err EValueError)).
  Proof.
    intros [fl fm ro fs se er fi al lo] R.
    assert (F : forall a, In a [fi; al; fm] -> (Mail_Model.none_or_handler isident a = Ok true /\ a_function a) \/
      (~ a_function a /\ (Mail_Model.none_or_handler isident a = Ok false \/ Mail_Model.none_or_handler isident a = Err EValueError))).
    { intros a I; destruct (function_check isident dot_no a (R a I)) as [E [T|[T|T]]]; [left; split; [exact T|apply E, T]|right..];
        (split; [intros Q; apply E in Q; rewrite T in Q; discriminate|auto]). }
    assert (Q : (none_or_str ro = true /\ (ro = Mail_Model.ANone \/ a_string ro)) \/ (none_or_str ro = false /\ ~ (ro = Mail_Model.ANone \/ a_string ro))).
    { destruct ro as [|s|b|z|i o]; [left; split; auto|left; split; [reflexivity|right; exists s; reflexivity]|right..];
        (split; [reflexivity|intros [E|[? E]]; discriminate]). }
    unfold checked; cbn -[Mail_Model.is_str Mail_Model.is_bool Mail_Model.none_or_handler none_or_str].
    destruct (a_bool_dec er) as [[E1 P1]|[E1 P1]]; rewrite E1; cbn -[Mail_Model.is_str Mail_Model.is_bool Mail_Model.none_or_handler none_or_str]; [|right; tauto].
    destruct (F fi) as [[E2 P2]|[P2 [E2|E2]]]; [cbn; auto| | |]; rewrite E2; cbn -[Mail_Model.is_str Mail_Model.is_bool Mail_Model.none_or_handler none_or_str]; [|right; tauto..].
    destruct (F al) as [[E3 P3]|[P3 [E3|E3]]]; [cbn; auto| | |]; rewrite E3; cbn -[Mail_Model.is_str Mail_Model.is_bool Mail_Model.none_or_handler none_or_str]; [|right; tauto..].
    destruct (a_bool_dec fs) as [[E4 P4]|[E4 P4]]; rewrite E4; cbn -[Mail_Model.is_str Mail_Model.is_bool Mail_Model.none_or_handler none_or_str]; [|right; tauto].
    destruct (a_string_dec se) as [[E5 P5]|[E5 P5]]; rewrite E5; cbn -[Mail_Model.is_str Mail_Model.is_bool Mail_Model.none_or_handler none_or_str]; [|right; tauto].
    destruct (F fm) as [[E6 P6]|[P6 [E6|E6]]]; [cbn; auto| | |]; rewrite E6; cbn -[Mail_Model.is_str Mail_Model.is_bool Mail_Model.none_or_handler none_or_str]; [|right; tauto..].
    destruct Q as [[E7 P7]|[E7 P7]]; rewrite E7; cbn -[Mail_Model.is_str Mail_Model.is_bool Mail_Model.none_or_handler none_or_str]; [left|right]; tauto.
  Qed.

  (** The file is opened for appending: what is in it stays. *)
  Definition opened (fs fs1 : files) (s : string) : Prop :=
    forall n, dget String.eqb fs1 n = if String.eqb n s then (match dget String.eqb fs s with Some x => Some x | None => Some "" end) else dget String.eqb fs n.
  Lemma get_file : forall fs l,
    (exists t, goes_to l t /\ ((exists s, t = TName s /\
         ((exists e, cannot s = Some e /\ get_file_object cannot fs l = (fs, Err e)) \/
          (exists fs1, cannot s = None /\ get_file_object cannot fs l = (fs1, Ok t) /\ opened fs fs1 s))) \/
       ((forall s, t <> TName s) /\ get_file_object cannot fs l = (fs, Ok t)))) \/
    ((forall t, ~ goes_to l t) /\ get_file_object cannot fs l = (fs, Err EValueError)).
  Proof.
    intros fs [|[s|i r w c] [|y l]]; cbn.
    - left; exists TStdout; split; [constructor|right; split; [discriminate|reflexivity]].
    - left; exists (TName s); split; [constructor|left; exists s; split; [reflexivity|]]; unfold open_a.
      destruct (cannot s) as [e|] eqn:C; [left; exists e; auto|right; eexists; split; [reflexivity|split; [reflexivity|]]].
      intros n; unfold dmem; destruct (dget String.eqb fs s) as [x|] eqn:D.
      + destruct (String.eqb_spec n s) as [->|]; [exact D|reflexivity].
      + rewrite (dget_dset String.eqb String.eqb_spec); reflexivity.
    - right; split; [intros t H; inversion H|reflexivity].
    - destruct r, w, c; (right; split; [intros t H; inversion H|reflexivity]) || idtac.
      left; exists (TObj i); split; [constructor|right; split; [discriminate|reflexivity]].
    - right; split; [intros t H; inversion H|reflexivity].
  Qed.

  Lemma lock_types : forall a,
    (exists names types, locks sp a names /\ get_lock_types sp a = Ok types /\ forall x, existsb (String.eqb x) types = true <-> In x names) \/
    ((forall names, ~ locks sp a names) /\ get_lock_types sp a = Err EValueError).
  Proof.
    assert (B : forall l x, existsb (String.eqb x) l = true <-> In x l).
    { intros l x; rewrite existsb_exists; split; [intros (y & H & E); apply String.eqb_eq in E; subst; exact H|].
      intros H; exists x; split; [exact H|apply String.eqb_refl]. }
    intros [|s|].
    - left; exists [], []; repeat split; cbn; [discriminate|tauto].
    - destruct (C43_parse sp s) as [G N]; set (names := lock_names sp s) in *.
      destruct (bool_dec (not_blank sp s) true) as [D1|D1]; [|right; split; [intros l (-> & X & _); contradiction|apply N; tauto]].
      destruct (Forall_dec (fun x => x = "file" \/ x = "thread")) with (l := names) as [D2|D2];
        [intros x; destruct (string_dec x "file") as [->|]; [left; auto|]; destruct (string_dec x "thread") as [->|]; [left; auto|right; intros [E|E]; contradiction]| |].
      + destruct (NoDup_dec string_dec names) as [D3|D3]; [|right; split; [intros l (-> & _ & _ & X); contradiction|apply N; tauto]].
        destruct G as (l & E & _ & H); [auto|]; left; exists names, l; split; [cbn; auto|split; [exact E|]]; intros x; rewrite B; apply H.
      + right; split; [intros l (-> & _ & X & _); contradiction|apply N; tauto].
    - right; split; [intros l []|reflexivity].
  Qed.

  Lemma rotation_ok : forall ro t, (ro = Mail_Model.ANone \/ a_string ro) ->
    let r := rotator_init sp int_of (source ro) (match filename t with Some _ => true | None => false end) in
    (exists limits dir, rotation sp int_of ro t limits dir /\ r = Ok (limits, dir)) \/ ((forall limits dir, ~ rotation sp int_of ro t limits dir) /\ r = Err EValueError).
  Proof.
    intros ro t [->|[s ->]] r; subst r; cbn [source].
    - left; exists [], "logs"; split; [left; auto|reflexivity].
    - assert (RT : rule_texts sp "" = []) by reflexivity.
      assert (D : (s <> "" /\ filename t = None) \/ (s = "" \/ exists n, t = TName n)).
      { destruct s; [right; left; reflexivity|]; destruct t; [left; split; [discriminate|reflexivity]..|right; right; eauto]. }
      destruct D as [[D1 D2]|D].
      { right; split.
        - intros limits dir [(X & _)|(s' & X & Y & _)]; [discriminate|]; injection X as <-; destruct Y as [Y|[n ->]]; [contradiction|discriminate].
        - rewrite D2; destruct s; [contradiction|reflexivity]. }
      assert (U : rotator_init sp int_of (Some s) (match filename t with Some _ => true | None => false end) =
        match split_gg s with
        | [_] => match extract_rules sp int_of s with Ok zs => Ok (zs, "logs") | Err e => Err e end
        | [a; b] => match extract_rules sp int_of a with Ok zs => Ok (zs, match b with "" => "logs" | _ => strip sp b end) | Err e => Err e end
        | _ => Err EValueError
        end).
      { unfold rotator_init, rules_string, where_to_rotate; destruct D as [->|[n ->]]; cbn [filename negb].
        - reflexivity.
        - assert (extract_rules sp int_of "" = Ok []) as E0 by reflexivity.
          destruct s as [|c s]; [reflexivity|]; destruct (split_gg (String c s)) as [|a [|b [|d l]]]; [reflexivity| | |reflexivity].
          + destruct (extract_rules sp int_of (String c s)); reflexivity.
          + destruct a as [|x a]; [rewrite E0; destruct b; reflexivity|]; destruct b; destruct (extract_rules sp int_of (String x a)); reflexivity. }
      rewrite U; pose proof (gg_parted s) as P.
      assert (One : forall l, parted s l -> l = split_gg s) by (intros l Q; apply (parted_one s l _ Q P)).
      assert (Only : forall limits dir, rotation sp int_of (Mail_Model.AStr s) t limits dir ->
        (exists rules, split_gg s = [rules] /\ Forall2 (denotes sp int_of) (rule_texts sp rules) limits /\ dir = "logs") \/
        (exists rules d, split_gg s = [rules; d] /\ Forall2 (denotes sp int_of) (rule_texts sp rules) limits /\ dir = match d with "" => "logs" | _ => strip sp d end)).
      { intros limits dir [(X & _)|(s' & X & _ & [(ru & Q & F & Ed)|(ru & d & Q & F & Ed)])]; [discriminate|injection X as <-..].
        - left; exists ru; split; [symmetry; apply One, Q|auto].
        - right; exists ru, d; split; [symmetry; apply One, Q|auto]. }
      destruct (split_gg s) as [|a [|b [|c l]]] eqn:Sg.
      + exfalso; apply (parted_not_nil _ _ P); reflexivity.
      + assert (a = s) as -> by (inversion P as [|a' r l M P' E1 E2]; subst; [reflexivity|exfalso; apply (parted_not_nil _ _ P'); reflexivity]).
        destruct (C41_rules sp int_of units s) as [A B]; destruct (extract_rules sp int_of s) as [zs|e] eqn:Er.
        * left; exists zs, "logs"; split; [|reflexivity]; right; exists s; split; [reflexivity|split; [exact D|]]; left; exists s; split; [exact P|split; [apply A; reflexivity|reflexivity]].
        * right; assert (forall zs, ~ Forall2 (denotes sp int_of) (rule_texts sp s) zs) as No by (intros zs H; apply A in H; discriminate).
          split; [|pose proof (B No) as X; injection X as ->; reflexivity].
          intros limits dir H; destruct (Only _ _ H) as [(ru & X & F & _)|(ru & d & X & F & _)]; [injection X as <-; exact (No _ F)|discriminate].
      + destruct (C41_rules sp int_of units a) as [A B]; destruct (extract_rules sp int_of a) as [zs|e] eqn:Er.
        * left; eexists zs, _; split; [|reflexivity]; right; exists s; split; [reflexivity|split; [exact D|]]; right; exists a, b; split; [exact P|split; [apply A; reflexivity|reflexivity]].
        * right; assert (forall zs, ~ Forall2 (denotes sp int_of) (rule_texts sp a) zs) as No by (intros zs H; apply A in H; discriminate).
          split; [|pose proof (B No) as X; injection X as ->; reflexivity].
          intros limits dir H; destruct (Only _ _ H) as [(ru & X & F & _)|(ru & d & X & F & _)]; [discriminate|injection X as <- <-; exact (No _ F)].
      + right; split; [|reflexivity].
        intros limits dir H; destruct (Only _ _ H) as [(ru & X & F & _)|(ru & d & X & F & _)]; discriminate.
  Qed.

  (** The lock file that is wanted. *)
  Definition wants (t : target) (names : list string) (n : string) : Prop := exists s, t = TName s /\ s <> "" /\ In "file" names /\ n = lock_name s.
  Lemma double : forall fs t a,
    (exists names, locks sp a names /\
      let thread := existsb (String.eqb "thread") names in
      ((forall n, ~ wants t names n) /\ double_lock sp cannot fs (filename t) a = (fs, Ok (thread, None)) \/
       exists n, wants t names n /\
         ((exists e, cannot n = Some e /\ double_lock sp cannot fs (filename t) a = (fs, Err e)) \/
          (cannot n = None /\ double_lock sp cannot fs (filename t) a = (dset String.eqb fs n "", Ok (thread, Some n)))))) \/
    ((forall names, ~ locks sp a names) /\ double_lock sp cannot fs (filename t) a = (fs, Err EValueError)).
  Proof.
    intros fs t a; unfold double_lock; destruct (lock_types a) as [(names & types & L & E & H)|[L E]]; rewrite E; [left|right; auto].
    exists names; split; [exact L|]; set (thread := existsb (String.eqb "thread") names).
    assert (Et : existsb (String.eqb "thread") types = thread).
    { unfold thread; destruct (existsb (String.eqb "thread") types) eqn:X.
      - symmetry; apply existsb_exists; exists "thread"; split; [apply H, X|reflexivity].
      - destruct (existsb (String.eqb "thread") names) eqn:Y; [|reflexivity]; apply existsb_exists in Y; destruct Y as (y & Y & Q).
        apply String.eqb_eq in Q; subst y; apply H in Y; congruence. }
    rewrite Et; pose proof (H "file") as Hf; destruct (existsb (String.eqb "file") types) eqn:X.
    - destruct t as [|i|s]; cbn [filename]; [left; split; [intros n (s' & Q & _); discriminate|reflexivity]..|].
      destruct s as [|c s]; [left; split; [intros n (s' & Q & N & _); injection Q as <-; contradiction|reflexivity]|].
      right; exists (lock_name (String c s)); split; [exists (String c s); split; [reflexivity|split; [discriminate|split; [apply Hf; reflexivity|reflexivity]]]|].
      unfold open_w, lock_name; destruct (cannot (String c s ++ ".lock")) as [e|] eqn:C; [left; exists e; auto|right; auto].
    - left; split; [intros n (s & _ & _ & F & _); apply Hf in F; discriminate|]; destruct (filename t); reflexivity.
  Qed.

  (** All that can happen. *)
  Definition refused (fs fs' : files) (r : Res writer) (g : given) : Prop :=
    (fs' = fs /\ r = Err EValueError /\ (~ checked g \/ forall t, ~ goes_to (g_files g) t)) \/
    (checked g /\ exists t, goes_to (g_files g) t /\
      ((exists s e, t = TName s /\ cannot s = Some e /\ fs' = fs /\ r = Err e) \/
       (exists fs1, (forall s, t = TName s -> cannot s = None /\ opened fs fs1 s) /\ ((forall s, t <> TName s) -> fs1 = fs) /\
         ((fs' = fs1 /\ r = Err EValueError /\ forall names, ~ locks sp (g_lock g) names) \/
          (exists names, locks sp (g_lock g) names /\
            ((exists n e, wants t names n /\ cannot n = Some e /\ fs' = fs1 /\ r = Err e) \/
             (r = Err EValueError /\ (forall limits dir, ~ rotation sp int_of (g_rotation g) t limits dir) /\
              ((forall n, ~ wants t names n) /\ fs' = fs1 \/ exists n, wants t names n /\ cannot n = None /\ fs' = dset String.eqb fs1 n "")))))))).
  Definition created (fs fs' : files) (w : writer) (g : given) : Prop :=
    checked g /\ exists t names limits dir fs1, goes_to (g_files g) t /\ locks sp (g_lock g) names /\ rotation sp int_of (g_rotation g) t limits dir /\
      (forall s, t = TName s -> cannot s = None /\ opened fs fs1 s) /\ ((forall s, t <> TName s) -> fs1 = fs) /\
      w_target w = t /\ w_thread_lock w = existsb (String.eqb "thread") names /\ w_limits w = limits /\ w_to w = dir /\
      w_flush w = g_flush g /\ w_errors w = g_errors g /\ w_filter w = g_filter g /\ w_alt w = g_alt g /\ w_formatter w = get_formatter g /\
      ((forall n, ~ wants t names n) /\ fs' = fs1 /\ w_lock_file w = None \/
       exists n, wants t names n /\ cannot n = None /\ fs' = dset String.eqb fs1 n "" /\ w_lock_file w = Some n).

  Lemma all_cases : forall fs g, (forall a, In a (functions g) -> real a) ->
    let (fs', r) := make fs g in
    match r with Ok w => created fs fs' w g | Err _ => refused fs fs' r g end.
  Proof.
    intros fs g R; unfold Writer_Model.make.
    destruct (checks g R) as [(C & -> & ->)|(C & [->|[-> ->]])]; [|left; auto..].
    destruct (get_file fs (g_files g)) as [(t & G & K)|[G ->]]; [|left; auto].
    assert (exists e s, t = TName s /\ cannot s = Some e /\ get_file_object cannot fs (g_files g) = (fs, Err e) \/
            exists fs1, get_file_object cannot fs (g_files g) = (fs1, Ok t) /\ (forall s, t = TName s -> cannot s = None /\ opened fs fs1 s) /\ ((forall s, t <> TName s) -> fs1 = fs)) as K'.
    { destruct K as [(s & -> & [(e & Ce & E)|(fs1 & Ce & E & O)])|[N E]].
      - exists e, s; left; auto.
      - exists EValueError, s; right; exists fs1; split; [exact E|split; [intros s' Q; injection Q as <-; auto|intros N; exfalso; apply (N s); reflexivity]].
      - exists EValueError, ""; right; exists fs; split; [exact E|split; [intros s Q; exfalso; exact (N s Q)|auto]]. }
    destruct K' as (e & s & [(Et & Ce & ->)|(fs1 & -> & O & Sm)]).
    { right; split; [exact C|exists t; split; [exact G|left; exists s, e; auto]]. }
    pose proof C as (_ & _ & _ & _ & _ & _ & Cr).
    destruct (double fs1 t (g_lock g)) as [(names & L & K2)|[L ->]].
    2: { right; split; [exact C|exists t; split; [exact G|right; exists fs1; split; [exact O|split; [exact Sm|left; auto]]]]. }
    cbn zeta in K2; destruct K2 as [[Nw ->]|(n & Wn & [(e2 & Ce & ->)|(Ce & ->)])].
    - destruct (rotation_ok (g_rotation g) t Cr) as [(limits & dir & Ro & ->)|[Ro ->]].
      + split; [exact C|]; exists t, names, limits, dir, fs1; repeat (split; [first [assumption|reflexivity]|]); left; auto.
      + right; split; [exact C|exists t; split; [exact G|right; exists fs1; split; [exact O|split; [exact Sm|right; exists names; split; [exact L|right]]]]]; auto.
    - right; split; [exact C|exists t; split; [exact G|right; exists fs1; split; [exact O|split; [exact Sm|right; exists names; split; [exact L|left; exists n, e2; auto]]]]].
    - destruct (rotation_ok (g_rotation g) t Cr) as [(limits & dir & Ro & ->)|[Ro ->]].
      + split; [exact C|]; exists t, names, limits, dir, fs1; repeat (split; [first [assumption|reflexivity]|]); right; exists n; auto.
      + right; split; [exact C|exists t; split; [exact G|right; exists fs1; split; [exact O|split; [exact Sm|right; exists names; split; [exact L|right]]]]].
        split; [reflexivity|split; [exact Ro|right; exists n; auto]].
  Qed.

  Lemma goes_one : forall l t u, goes_to l t -> goes_to l u -> t = u.
  Proof. intros l t u H K; destruct H; inversion K; reflexivity. Qed.
  Lemma locks_one : forall a l m, locks sp a l -> locks sp a m -> l = m.
  Proof. intros [|s|] l m; cbn; [congruence| |tauto]; intros (-> & _) (-> & _); reflexivity. Qed.

  (** C72: a handler is created exactly if the checked arguments are right, the file arguments say where to write, the kinds of lock and the
      rotation command can be read, and the system opens the file and the lock file. *)
  Theorem C72_accepted : forall fs g, (forall a, In a (functions g) -> real a) ->
    (is_ok (snd (make fs g)) = true <->
     checked g /\ exists t names limits dir, goes_to (g_files g) t /\ locks sp (g_lock g) names /\ rotation sp int_of (g_rotation g) t limits dir /\
       (forall s, t = TName s -> cannot s = None /\ (s <> "" -> In "file" names -> cannot (s ++ ".lock")%string = None))).
  Proof.
    intros fs g R; pose proof (all_cases fs g R) as A; destruct (make fs g) as [fs' [w|e]]; cbn [snd is_ok].
    - split; [intros _|reflexivity]; destruct A as (C & t & names & limits & dir & fs1 & G & L & Ro & O & Sm & A); split; [exact C|].
      exists t, names, limits, dir; repeat (split; [assumption|]); intros s Es; split; [apply O, Es|].
      intros Ns F; assert (wants t names (lock_name s)) as W by (exists s; auto).
      destruct A as (_ & _ & _ & _ & _ & _ & _ & _ & _ & [(Nw & _)|(n & (s' & Es' & _ & _ & ->) & Cn & _)]); [exfalso; apply (Nw _ W)|].
      rewrite Es in Es'; injection Es' as <-; exact Cn.
    - split; [discriminate|]; intros (C & t & names & limits & dir & G & L & Ro & O); exfalso.
      destruct A as [(_ & _ & [N|N])|(_ & t' & G' & A)]; [contradiction|apply (N t G)|].
      assert (t' = t) as -> by (eapply goes_one; eassumption).
      destruct A as [(s & e' & Es & Ce & _)|(fs1 & _ & _ & [(_ & _ & N)|(names' & L' & A)])]; [destruct (O s Es); congruence|apply (N names L)|].
      assert (names' = names) as -> by (eapply locks_one; eassumption).
      destruct A as [(n & e' & (s & Es & Ns & F & ->) & Ce & _)|(_ & N & _)]; [|apply (N limits dir Ro)].
      destruct (O s Es) as [_ Q]; specialize (Q Ns F); unfold lock_name in Ce; congruence.
  Qed.

  (** C72: the object: where it writes, which locks it has, its rotation and its formatter; the other arguments are stored. *)
  Theorem C72_object : forall fs g fs' w, (forall a, In a (functions g) -> real a) -> make fs g = (fs', Ok w) ->
    goes_to (g_files g) (w_target w) /\ rotation sp int_of (g_rotation g) (w_target w) (w_limits w) (w_to w) /\
    (exists names, locks sp (g_lock g) names /\ (w_thread_lock w = true <-> In "thread" names) /\
       forall n, w_lock_file w = Some n <-> In "file" names /\ exists s, w_target w = TName s /\ s <> "" /\ n = (s ++ ".lock")%string) /\
    (w_formatter w = FBase (g_separator g) /\ g_formatter g = Mail_Model.ANone \/ exists i o, g_formatter g = Mail_Model.AObj i o /\ w_formatter w = FUser i) /\
    w_flush w = g_flush g /\ w_errors w = g_errors g /\ w_filter w = g_filter g /\ w_alt w = g_alt g.
  Proof.
    intros fs g fs' w R E; pose proof (all_cases fs g R) as A; rewrite E in A.
    destruct A as (C & t & names & limits & dir & fs1 & G & L & Ro & O & Sm & -> & Th & -> & -> & -> & -> & -> & -> & Fm & A).
    split; [exact G|split; [exact Ro|split; [|split; [|auto]]]].
    - exists names; split; [exact L|split].
      + rewrite Th, existsb_exists; split; [intros (x & H & Q); apply String.eqb_eq in Q; subst x; exact H|intros H; exists "thread"; auto].
      + intros n; destruct A as [(Nw & _ & ->)|(m & (s & Es & Ns & F & ->) & _ & _ & ->)]; split.
        * discriminate.
        * intros (F & s & Es & Ns & ->); exfalso; apply (Nw (lock_name s)); exists s; auto.
        * intros Q; injection Q as <-; split; [exact F|exists s; auto].
        * intros (_ & s' & Es' & _ & ->); rewrite Es in Es'; injection Es' as <-; reflexivity.
    - rewrite Fm; unfold get_formatter; destruct C as (_ & _ & _ & _ & _ & [->|(i & d & -> & _)] & _); [left; auto|right; exists i, (Callable (params d)); auto].
  Qed.

  (** C72: the files: the file that is named is there afterwards with everything that was in it; the lock file is emptied; nothing else
      changes. *)
  Theorem C72_files : forall fs g fs' w, (forall a, In a (functions g) -> real a) -> make fs g = (fs', Ok w) ->
    forall n, dget String.eqb fs' n =
      if (match w_lock_file w with Some m => String.eqb n m | None => false end) then Some ""
      else match w_target w with TName s => if String.eqb n s then Some (match dget String.eqb fs s with Some x => x | None => "" end) else dget String.eqb fs n | _ => dget String.eqb fs n end.
  Proof.
    intros fs g fs' w R E n; pose proof (all_cases fs g R) as A; rewrite E in A.
    destruct A as (C & t & names & limits & dir & fs1 & G & L & Ro & O & Sm & -> & _ & _ & _ & _ & _ & _ & _ & _ & A).
    assert (X : forall n, dget String.eqb fs1 n = match t with TName s => if String.eqb n s then Some (match dget String.eqb fs s with Some x => x | None => "" end) else dget String.eqb fs n | _ => dget String.eqb fs n end).
    { intros m; destruct t as [|i|s]; [rewrite Sm; [reflexivity|discriminate]..|]; destruct (O s eq_refl) as [_ Q]; rewrite Q.
      destruct (dget String.eqb fs s); reflexivity. }
    destruct A as [(_ & -> & ->)|(m & _ & _ & -> & ->)]; [apply X|].
    rewrite (dget_dset String.eqb String.eqb_spec), X; reflexivity.
  Qed.

  (** C72: a refusal is a ValueError or the error of the system. *)
  Theorem C72_refusals : forall fs g fs' e, (forall a, In a (functions g) -> real a) -> make fs g = (fs', Err e) ->
    e = EValueError \/ exists s, g_files g = [FName s] /\ (cannot s = Some e \/ cannot (s ++ ".lock")%string = Some e).
  Proof.
    intros fs g fs' e R E; pose proof (all_cases fs g R) as A; rewrite E in A.
    assert (T : forall t s, goes_to (g_files g) t -> t = TName s -> g_files g = [FName s]) by (intros t s G ->; inversion G; reflexivity).
    destruct A as [(_ & Q & _)|(_ & t & G & A)]; [left; congruence|].
    destruct A as [(s & e' & Es & Ce & _ & Q)|(fs1 & _ & _ & [(_ & Q & _)|(names & L & A)])]; [right; exists s; split; [eauto|left; congruence]|left; congruence|].
    destruct A as [(n & e' & (s & Es & _ & _ & ->) & Ce & _ & Q)|(Q & _)]; [right; exists s; split; [eauto|right; unfold lock_name in Ce; congruence]|left; congruence].
  Qed.

  (** C72: wrong checked arguments, several files or a file that is neither a name nor a file object: refused before any file is touched. *)
  Theorem C72_refused_before : forall fs g, (forall a, In a (functions g) -> real a) ->
    ~ checked g \/ (forall t, ~ goes_to (g_files g) t) -> make fs g = (fs, Err EValueError).
  Proof.
    intros fs g R H; pose proof (all_cases fs g R) as A; destruct (make fs g) as [fs' [w|e]].
    - exfalso; destruct A as (C & t & names & limits & dir & fs1 & G & _); destruct H as [H|H]; [contradiction|apply (H t G)].
    - destruct A as [(-> & -> & _)|(C & t & G & _)]; [reflexivity|exfalso; destruct H as [H|H]; [contradiction|apply (H t G)]].
  Qed.

  (** C72: created or refused, a file keeps its text unless it is the lock file of the file named; and no file appears but these two. *)
  Theorem C72_keeps : forall fs g n, (forall a, In a (functions g) -> real a) -> let fs' := fst (make fs g) in
    dget String.eqb fs' n = dget String.eqb fs n \/
    exists s, g_files g = [FName s] /\ dget String.eqb fs' n = Some "" /\
      (n = s /\ dget String.eqb fs n = None \/ n = (s ++ ".lock")%string /\ exists names, locks sp (g_lock g) names /\ In "file" names).
  Proof.
    intros fs g n R fs'; unfold fs'; pose proof (all_cases fs g R) as A.
    assert (T : forall t s, goes_to (g_files g) t -> t = TName s -> g_files g = [FName s]) by (intros t s G ->; inversion G; reflexivity).
    assert (F1 : forall t fs1, goes_to (g_files g) t -> (forall s, t = TName s -> cannot s = None /\ opened fs fs1 s) -> ((forall s, t <> TName s) -> fs1 = fs) ->
      dget String.eqb fs1 n = dget String.eqb fs n \/ exists s, g_files g = [FName s] /\ dget String.eqb fs1 n = Some "" /\ n = s /\ dget String.eqb fs n = None).
    { intros t fs1 G O Sm; destruct t as [|i|s]; [left; rewrite Sm; [reflexivity|discriminate]..|].
      destruct (O s eq_refl) as [_ Q]; specialize (Q n); destruct (String.eqb_spec n s) as [->|]; [|left; exact Q].
      destruct (dget String.eqb fs s) as [x|] eqn:D; [left; exact Q|right; exists s; repeat split; auto; apply (T _ _ G eq_refl)]. }
    assert (F2 : forall t fs1 names m, goes_to (g_files g) t -> (forall s, t = TName s -> cannot s = None /\ opened fs fs1 s) -> ((forall s, t <> TName s) -> fs1 = fs) ->
      locks sp (g_lock g) names -> wants t names m -> dget String.eqb (dset String.eqb fs1 m "") n = dget String.eqb fs n \/
      exists s, g_files g = [FName s] /\ dget String.eqb (dset String.eqb fs1 m "") n = Some "" /\
        (n = s /\ dget String.eqb fs n = None \/ n = (s ++ ".lock")%string /\ exists names, locks sp (g_lock g) names /\ In "file" names)).
    { intros t fs1 names m G O Sm L (s & Es & _ & F & ->); rewrite (dget_dset String.eqb String.eqb_spec).
      destruct (String.eqb_spec n (lock_name s)) as [->|]; [right; exists s; split; [eauto|split; [reflexivity|right; split; [reflexivity|eauto]]]|].
      destruct (F1 t fs1 G O Sm) as [Q|(s' & Q1 & Q2 & Q3)]; [left; exact Q|right; exists s'; auto]. }
    assert (W : forall fs1, (dget String.eqb fs1 n = dget String.eqb fs n \/ exists s, g_files g = [FName s] /\ dget String.eqb fs1 n = Some "" /\ n = s /\ dget String.eqb fs n = None) ->
      dget String.eqb fs1 n = dget String.eqb fs n \/ exists s, g_files g = [FName s] /\ dget String.eqb fs1 n = Some "" /\
        (n = s /\ dget String.eqb fs n = None \/ n = (s ++ ".lock")%string /\ exists names, locks sp (g_lock g) names /\ In "file" names))
      by (intros fs1 [Q|(s & Q1 & Q2 & Q3)]; [left; exact Q|right; exists s; auto]).
    destruct (make fs g) as [fs2 [w|e]]; cbn [fst] in *.
    - destruct A as (C & t & names & limits & dir & fs1 & G & L & Ro & O & Sm & _ & _ & _ & _ & _ & _ & _ & _ & _ & [(_ & -> & _)|(m & Wm & _ & -> & _)]);
        [apply W; eauto|eapply F2; eauto].
    - destruct A as [(-> & _)|(_ & t & G & [(s & e' & _ & _ & -> & _)|(fs1 & O & Sm & [(-> & _)|(names & L & [(m & e' & _ & _ & -> & _)|(_ & _ & [(_ & ->)|(m & Wm & _ & ->)])])])])];
        [left; reflexivity|left; reflexivity|apply W; eauto|apply W; eauto|apply W; eauto|eapply F2; eauto].
  Qed.

  (** C72: so, however many handlers a program creates or fails to create, a log whose name does not end with ".lock" keeps its text. *)
  Theorem C72_logs_survive : forall gs fs n text, (forall g a, In g gs -> In a (functions g) -> real a) ->
    (forall s, n <> (s ++ ".lock")%string) -> dget String.eqb fs n = Some text ->
    dget String.eqb (fold_left (fun fs g => fst (make fs g)) gs fs) n = Some text.
  Proof.
    induction gs as [|g gs IH]; intros fs n text R N E; cbn [fold_left]; [exact E|].
    apply IH; [intros; eapply R; [right|]; eassumption|exact N|].
    destruct (C72_keeps fs g n (fun a H => R g a (or_introl eq_refl) H)) as [Q|(s & _ & _ & [(_ & Q)|(Q & _)])]; [congruence|congruence|exfalso; apply (N s Q)].
  Qed.
End C72.

(** *** Concrete cases *)
Definition mk := make (fun s => negb (String.eqb s ".")) ws ints (fun s => if String.eqb s "no/way" then Some EFileNotFound else None).
Definition named (s : string) : given :=
  mkGiven [FName s] Mail_Model.ANone Mail_Model.ANone (Mail_Model.ABool true) (Mail_Model.AStr "x") (Mail_Model.ABool false) Mail_Model.ANone Mail_Model.ANone (LStr "thread").
Definition with_locks (g : given) (l : string) : given :=
  mkGiven (g_files g) (g_formatter g) (g_rotation g) (g_flush g) (g_separator g) (g_errors g) (g_filter g) (g_alt g) (LStr l).
Definition with_rotation (g : given) (r : string) : given :=
  mkGiven (g_files g) (g_formatter g) (Mail_Model.AStr r) (g_flush g) (g_separator g) (g_errors g) (g_filter g) (g_alt g) (g_lock g).
Example C72_case_new : mk [] (with_rotation (with_locks (named "a.log") "file+thread") "5 kb >> old") =
  ([("a.log", ""); ("a.log.lock", "")],
   Ok (mkWriter (TName "a.log") true (Some "a.log.lock") (Mail_Model.ABool true) (FBase (Mail_Model.AStr "x")) [5120%Z] "old" (Mail_Model.ABool false) Mail_Model.ANone Mail_Model.ANone)).
Proof. vm_compute; reflexivity. Qed.
Example C72_case_stdout : mk [("a.log", "text")] defaults =
  ([("a.log", "text")],
   Ok (mkWriter TStdout true None (Mail_Model.ABool true) (FBase (Mail_Model.AStr (String (ascii_of_nat 10) ""))) [] "logs" (Mail_Model.ABool false) Mail_Model.ANone Mail_Model.ANone)).
Proof. vm_compute; reflexivity. Qed.
Example C72_case_refused : snd (mk [] (with_rotation defaults "5 kb")) = Err EValueError /\ mk [("a", "t")] (named "no/way") = ([("a", "t")], Err EFileNotFound) /\
  is_ok (snd (mk [] (with_rotation defaults ""))) = true.
Proof. vm_compute; auto. Qed.

Example C72_case_hypotheses : (forall b p, In (b, p) unit_power -> ints b = None) /\ negb (String.eqb "." ".") = false.
Proof. split; [|reflexivity]; intros b p H; repeat (destruct H as [H|H]; [injection H as <- <-; reflexivity|]); destruct H. Qed.

(** If only the name of the file is given, the handler has a lock for threads and makes no lock file. *)
Definition only_named (s : string) : given :=
  mkGiven [FName s] (g_formatter defaults) (g_rotation defaults) (g_flush defaults) (g_separator defaults) (g_errors defaults) (g_filter defaults)
          (g_alt defaults) (g_lock defaults).
Theorem C72_default_lock : forall fs s fs' w, mk fs (only_named s) = (fs', Ok w) -> w_thread_lock w = true /\ w_lock_file w = None.
Proof.
  intros fs s fs' w H; unfold mk, make in H.
  match type of H with (match ?x with Ok _ => _ | Err _ => _ end) = _ => destruct x; [|discriminate H] end.
  match type of H with (match ?x with Ok _ => _ | Err _ => _ end) = _ => destruct x; [|discriminate H] end.
  match type of H with (match ?x with (_, _) => _ end) = _ => destruct x as [fs1 [t|e]]; [|discriminate H] end.
  unfold double_lock in H; change (g_lock (only_named s)) with (LStr "thread") in H.
  match type of H with context [get_lock_types ?a ?b] => let v := eval vm_compute in (get_lock_types a b) in change (get_lock_types a b) with v in H end.
  cbn in H.
  injection H as _ <-; split; reflexivity.
Qed.

(** A handler that was refused leaves no trace: no, if the rotation or the lock is wrong the file has been created. *)
Theorem C72_refused_leaves_nothing_refuted : exists g g2, mk [] g = ([("a.log", "")], Err EValueError) /\ mk [] g2 = ([("a.log", "")], Err EValueError) /\
  checked g /\ checked g2 /\ functions g = [Mail_Model.ANone; Mail_Model.ANone; Mail_Model.ANone] /\ functions g2 = functions g.
Proof.
  exists (with_rotation (named "a.log") "5 parsec"), (with_locks (named "a.log") "wheel").
  split; [vm_compute; reflexivity|split; [vm_compute; reflexivity|]].
  unfold checked, a_bool, a_string, a_function; cbn; repeat split; eauto.
Qed.

(** No log loses text by the creation of a handler: the log of another handler does, if it has the name of the lock file. *)
Theorem C72_no_log_is_emptied_refuted : exists fs g fs' w, dget String.eqb fs "app.lock" = Some "record" /\
  mk fs g = (fs', Ok w) /\ w_target w = TName "app" /\ dget String.eqb fs' "app.lock" = Some "".
Proof.
  exists [("app.lock", "record")], (with_locks (named "app") "file"); do 2 eexists; split; [reflexivity|].
  split; [vm_compute; reflexivity|split; reflexivity].
Qed.

(** Who asks for a file lock gets one: not without the name of a file. *)
Theorem C72_file_lock_given_refuted : exists g w, g_lock g = LStr "file" /\ mk [] g = ([], Ok w) /\ w_thread_lock w = false /\ w_lock_file w = None.
Proof. exists (with_locks defaults "file"); eexists; split; [reflexivity|split; [vm_compute; reflexivity|split; reflexivity]]. Qed.

Print Assumptions C72_accepted.
Print Assumptions C72_object.
Print Assumptions C72_files.
Print Assumptions C72_refusals.
Print Assumptions C72_refused_before.
Print Assumptions C72_keeps.
Print Assumptions C72_logs_survive.
Print Assumptions C72_refused_leaves_nothing_refuted.
Print Assumptions C72_no_log_is_emptied_refuted.
Print Assumptions C72_file_lock_given_refuted.
Print Assumptions C72_default_lock.
