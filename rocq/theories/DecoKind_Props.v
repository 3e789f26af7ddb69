(** C75: which calls the decorators of a class leave as they were: methods, static methods, class methods, callable
    attributes and data, with inheritance. *)
From Verif Require Import Base DecoClass_Model DecoClass_Spec DecoClass_Proofs DecoKind_Model DecoKind_Spec DecoKind_Proofs.
Local Open Scope string_scope.
Local Open Scope list_scope.

Section Props.
  Context {P : Type}.
  Variable mro : nat -> list nat.
  Variable bodies : nat -> list (string * member).

  Definition program (os : list (kop P)) : world P := krun mro (kstart bodies) os.

  Lemma program_Inv : forall os n, hierarchy mro bodies -> agrees mro bodies n ->
    Inv mro bodies n (under_class os) (fun c => in_body os c n) (program os).
  Proof.
    intros os n H A; apply krun_Inv; [exact H|exact A| |apply kstart_Inv; exact H].
    apply Forall_forall; intros [c k d|c ms p|c b] Hi; cbn.
    - intros ->; exists d; exact Hi.
    - left; exists ms, p; exact Hi.
    - right; exists b; exact Hi.
  Qed.

  Lemma program_find : forall os n c m, hierarchy mro bodies -> agrees mro bodies n -> defines mro bodies c n m ->
    exists d e, find (own (program os)) (mro c) n = Some e /\ In d (mro c) /\
      realises mro (under_class os) (fun c => in_body os c n) d m e.
  Proof.
    intros os n c m H A D; pose proof (program_Inv os n H A) as I.
    destruct (lookup_some _ _ _ _ _ _ _ _ I D) as [e F].
    destruct (lookup _ _ _ A _ _ _ _ _ I F) as [d [m' [Hd [D' R]]]].
    rewrite (first_det _ _ H _ _ _ _ D D'); exists d, e; auto.
  Qed.

  (** A method (a function in the body of a class or of a base of it) receives what it would receive without decorators,
      called on an instance or on the class, after any decorators of any classes and functions. *)
  Theorem C75_methods : forall os n a i args, hierarchy mro bodies -> agrees mro bodies n ->
    defines mro bodies (class_of a) n (MFun i) ->
    call mro (program os) a n args = Ok (User i, receiver a (MFun i) ++ args).
  Proof.
    intros os n a i args H A D; destruct (program_find os n _ _ H A D) as [d [e [F [Hd [x [-> Ax]]]]]].
    unfold call, taken; rewrite F; destruct a as [c|c k]; cbn.
    - rewrite Ax; reflexivity.
    - rewrite (acts_plain _ _ Ax); cbn; rewrite Ax; reflexivity.
  Qed.

  (** A static method and a callable attribute receive what they would receive without decorators, called on the class. *)
  Theorem C75_through_the_class : forall os n c m f args, hierarchy mro bodies -> agrees mro bodies n ->
    defines mro bodies c n m -> (exists i, m = MStatic i) \/ (exists i, m = MOther i) -> runs m = Some f ->
    call mro (program os) (OnClass c) n args = Ok (f, args).
  Proof.
    intros os n c m f args H A D Hm Hf; destruct (program_find os n _ _ H A D) as [d [e [F [Hd R]]]].
    unfold call, taken; cbn [class_of]; rewrite F.
    destruct Hm as [[i ->]|[i ->]]; cbn in Hf; injection Hf as <-.
    - destruct R as [x [[->|[-> _]] Ax]]; cbn; rewrite Ax; reflexivity.
    - destruct R as [x [-> [Ax _]]]; cbn; rewrite Ax; reflexivity.
  Qed.

  (** A class method called on the class receives that class or a base of it that is under a class decorator. *)
  Theorem C75_class_method : forall os n c i args, hierarchy mro bodies -> agrees mro bodies n ->
    defines mro bodies c n (MClass i) ->
    exists k, (k = c \/ In k (mro c) /\ under_class os k) /\
      call mro (program os) (OnClass c) n args = Ok (User i, VCls k :: args).
  Proof.
    intros os n c i args H A D; destruct (program_find os n _ _ H A D) as [d [e [F [Hd [x R]]]]].
    unfold call, taken; cbn [class_of]; rewrite F.
    destruct R as [[-> Ax]|[-> [k [Hk [Tk Ax]]]]].
    - exists c; split; [left; reflexivity|]; cbn; rewrite Ax; reflexivity.
    - exists k; split; [right; split; [exact (h_trans _ _ H _ _ _ Hd Hk)|exact Tk]|]; cbn; rewrite Ax; reflexivity.
  Qed.
  Corollary C75_class_method_own : forall os n c i args, hierarchy mro bodies -> agrees mro bodies n ->
    defines mro bodies c n (MClass i) -> (forall k, In k (mro c) -> under_class os k -> k = c) ->
    call mro (program os) (OnClass c) n args = Ok (User i, VCls c :: args).
  Proof.
    intros os n c i args H A D U; destruct (C75_class_method os n c i args H A D) as [k [[->|[Hk Uk]] E]]; [exact E|].
    rewrite (U k Hk Uk) in E; exact E.
  Qed.

  (** A class without class decorators on it and its bases keeps all its attributes, whatever happens to other classes and
      to the functions in the bodies. *)
  Theorem C75_without_class_decorators : forall os n a m f args, hierarchy mro bodies -> agrees mro bodies n ->
    defines mro bodies (class_of a) n m -> runs m = Some f ->
    (forall k, In k (mro (class_of a)) -> ~ under_class os k /\ ((exists i, m = MOther i) -> ~ in_body os k n)) ->
    call mro (program os) a n args = Ok (f, receiver a m ++ args).
  Proof.
    intros os n a m f args H A D Hf U; destruct (program_find os n _ _ H A D) as [d [e [F [Hd R]]]].
    destruct m as [i|i|i|i|]; cbn in Hf; [injection Hf as <-..|discriminate Hf].
    - exact (C75_methods os n a i args H A D).
    - unfold call, taken; rewrite F.
      destruct R as [x [[->|[_ Td]] Ax]]; [|destruct (proj1 (U d Hd) Td)].
      destruct a; cbn; rewrite Ax; reflexivity.
    - unfold call, taken; rewrite F.
      destruct R as [x [[-> Ax]|[_ [k [Hk [Tk _]]]]]]; [|destruct (proj1 (U k (h_trans _ _ H _ _ _ Hd Hk)) Tk)].
      destruct a; cbn; rewrite Ax; reflexivity.
    - unfold call, taken; rewrite F.
      destruct R as [x [-> [Ax [->|[Td|Bd]]]]].
      + destruct a; reflexivity.
      + destruct (proj1 (U d Hd) Td).
      + destruct (proj2 (U d Hd) (ex_intro _ i eq_refl) Bd).
  Qed.

  (** What cannot be called (data, properties) is never replaced, and no attribute appears that no body defines. *)
  Theorem C75_data : forall os n a, hierarchy mro bodies -> agrees mro bodies n ->
    defines mro bodies (class_of a) n MData -> taken mro (program os) a n = Ok None.
  Proof.
    intros os n a H A D; destruct (program_find os n _ _ H A D) as [d [e [F [Hd R]]]].
    unfold taken; rewrite F; cbn in R; subst e; destruct a; reflexivity.
  Qed.
  Theorem C75_no_new_names : forall os n a, hierarchy mro bodies -> agrees mro bodies n ->
    (forall m, ~ defines mro bodies (class_of a) n m) -> taken mro (program os) a n = Err EAttributeError.
  Proof.
    intros os n a H A D; pose proof (program_Inv os n H A) as I; unfold taken.
    destruct (find (own (program os)) (mro (class_of a)) n) as [e|] eqn:F; [|reflexivity].
    destruct (lookup _ _ _ A _ _ _ _ _ I F) as [d [m [_ [D' _]]]]; destruct (D m D').
  Qed.

  (** Under single inheritance all names agree. *)
  Theorem C75_single_inheritance : forall n, single mro -> agrees mro bodies n.
  Proof. intros n S c before d after m E; unfold defines; rewrite (S c before d after E); tauto. Qed.

  (** Decorating a class changes nothing for classes that do not descend from it. *)
  Theorem C75_other_classes : forall (w : world P) c a n o, ~ In c (mro (class_of a)) ->
    (exists ms p, o = KLog c ms p) \/ (exists b, o = KUnlog c b) ->
    taken mro (kstep mro w o) a n = taken mro w a n.
  Proof.
    intros w c a n o N Ho; unfold taken.
    assert (E : forall d, In d (mro (class_of a)) -> own (kstep mro w o) d = own w d).
    { intros d Hd; assert (d <> c) by (intros ->; contradiction).
      destruct Ho as [[ms [p ->]]|[b ->]]; cbn [kstep]; [apply log_class_own; assumption|unfold unlog_cls; apply each_own; assumption]. }
    rewrite (find_ext (own (kstep mro w o)) (own w)); [reflexivity|]; intros d Hd; rewrite (E d Hd); reflexivity.
  Qed.

  (** The exact effect.  After a class decorator for all methods, at any moment of a program, a covered attribute behaves as
      a plain function that calls what the class gave before: on an instance it receives the instance in addition. *)
  Lemma covered_names : forall (w : world P) c n (q : string -> bool), can_call mro w c n = true -> q n = true ->
    In n (filter (fun k => can_call mro w c k && q k) (names mro w c)).
  Proof.
    intros w c n q Ca Q; apply filter_In; split; [|rewrite Ca, Q; reflexivity].
    unfold names; apply nodup_In; apply in_flat_map.
    unfold can_call, in_class in Ca; destruct (find (own w) (mro c) n) as [e|] eqn:F; [|discriminate Ca].
    destruct (find_some n _ _ _ F) as [before [d [after [E [D _]]]]].
    exists d; split; [rewrite E; apply in_or_app; right; left; reflexivity|].
    apply (dget_In _ String.eqb_spec) in D; apply (in_map fst) in D; exact D.
  Qed.

  Lemma after_each : forall (w : world P) c ns d n x a before after args, d <> HOrig -> RInv (reg_of w) -> NoDup ns ->
    (forall k, In k ns -> can_call mro w c k = true) -> In n ns ->
    mro (class_of a) = before ++ c :: after -> (forall b, In b before -> b <> c -> dget String.eqb (own w b) n = None) ->
    taken mro w (OnClass c) n = Ok (Some x) ->
    call mro (fst (each_name mro w c ns d)) a n args =
      Ok (calls x (match a with OnInst _ i => VInst i :: args | OnClass _ => args end)).
  Proof.
    intros w c ns d n x a before after args Nd I ND Ca Hn E Nb Hx.
    destruct (each_all mro d c Nd ns w I ND Ca) as [_ [_ Z]].
    destruct (Z n Hn) as [x' [y [Ix [D [Fy S]]]]].
    assert (x' = x).
    { unfold taken in Hx; unfold in_class in Ix; cbn [class_of] in Hx.
      destruct (find (own w) (mro c) n); congruence. }
    subst x'.
    unfold call, taken; rewrite E.
    rewrite (find_after (own (fst (each_name mro w c ns d))) c n (EObj y)); [|exact D|].
    2:{ intros b Hb Nc; rewrite each_own by exact Nc; apply Nb; assumption. }
    destruct a as [k|k i]; cbn; [|rewrite Fy; cbn]; rewrite S; reflexivity.
  Qed.

  Theorem C75_after_the_decorator : forall os o c n x a before after args,
    (exists p, o = KLog c [] p /\ ~ dunder_start n /\ ~ dunder_end n) \/ (exists b, o = KUnlog c b /\ ~ dunder_start n) ->
    mro (class_of a) = before ++ c :: after ->
    (forall b, In b before -> b <> c -> ~ In n (map fst (bodies b)) /\ ~ under_class os b) ->
    taken mro (program os) (OnClass c) n = Ok (Some x) ->
    call mro (program (os ++ [o])) a n args =
      Ok (calls x (match a with OnInst _ i => VInst i :: args | OnClass _ => args end)).
  Proof.
    intros os o c n x a before after args Ho E Nb Hx.
    unfold program, krun; rewrite fold_left_app; cbn [fold_left]; fold (krun mro (@kstart P bodies) os); fold (program os).
    set (w := program os) in *.
    assert (I : RInv (reg_of w)) by (apply krun_RInv; split; intros ? ? []).
    assert (Ca : can_call mro w c n = true).
    { unfold can_call, in_class; unfold taken in Hx; cbn [class_of] in Hx.
      destruct (find (own w) (mro c) n) as [e|]; [|discriminate Hx]; injection Hx as ->; reflexivity. }
    assert (Nw : forall b, In b before -> b <> c -> dget String.eqb (own w b) n = None).
    { intros b Hb Nc; destruct (Nb b Hb Nc) as [Hn U]; apply krun_none; [exact U|].
      cbn; rewrite dget_map.
      destruct (dget String.eqb (bodies b) n) as [m|] eqn:D; [|reflexivity].
      apply (dget_In _ String.eqb_spec) in D; apply (in_map fst) in D; contradiction. }
    assert (St : ~ dunder_start n -> starts_with "__" n = false).
    { intros Nd; destruct (starts_with "__" n) eqn:Q; [apply starts_iff in Q; contradiction|reflexivity]. }
    assert (En : ~ dunder_end n -> ends_with "__" n = false).
    { intros Nd; destruct (ends_with "__" n) eqn:Q; [apply ends_iff in Q; contradiction|reflexivity]. }
    destruct Ho as [[p [-> [N1 N2]]]|[b [-> N1]]]; cbn [kstep].
    - unfold log_class.
      assert (Z : snd (each_name mro w c (loggable mro w c) (HMeth p)) = None /\
                  fst (each_name mro w c (loggable mro w c) (HMeth p)) = fst (log_class mro w c [] p)).
      { unfold log_class; destruct (each_all mro (HMeth p) c ltac:(discriminate) (loggable mro w c) w I) as [Z _].
        - apply NoDup_filter, NoDup_nodup.
        - intros k Hk; apply filter_In in Hk as [_ Hk]; apply andb_prop in Hk; tauto.
        - destruct (each_name mro w c (loggable mro w c) (HMeth p)) as [w1 e1]; cbn in Z; rewrite Z; auto. }
      destruct Z as [_ Z]; unfold log_class in Z; rewrite <- Z.
      apply (after_each w c _ _ n x a before after); auto; try discriminate.
      + apply NoDup_filter, NoDup_nodup.
      + intros k Hk; apply filter_In in Hk as [_ Hk]; apply andb_prop in Hk; tauto.
      + apply (covered_names w c n (fun k => negb (starts_with "__" k) && negb (ends_with "__" k)) Ca).
        rewrite (St N1), (En N2); reflexivity.
    - unfold unlog_cls.
      apply (after_each w c _ _ n x a before after); auto; try discriminate.
      + apply NoDup_filter, NoDup_nodup.
      + intros k Hk; apply filter_In in Hk as [_ Hk]; apply andb_prop in Hk; tauto.
      + apply filter_In; split; [|rewrite Ca, (St N1); reflexivity].
        pose proof (covered_names w c n (fun _ => true) Ca eq_refl) as Q; apply filter_In in Q; tauto.
  Qed.

  (** Hence one decorator on a class leaves a call as it was exactly when the attribute is a method, or the call goes
      through the class and does not hand a subclass to a class method. *)
  Theorem C75_exactly_which : forall (p : P) c n m f a before after args, hierarchy mro bodies -> agrees mro bodies n ->
    ~ dunder_start n -> ~ dunder_end n -> mro (class_of a) = before ++ c :: after ->
    (forall b, In b before -> ~ In n (map fst (bodies b))) ->
    defines mro bodies c n m -> runs m = Some f ->
    (call mro (program [KLog c [] p]) a n args = Ok (f, receiver a m ++ args) <->
     (exists i, m = MFun i) \/ (exists k, a = OnClass k /\ forall i, m = MClass i -> k = c)).
  Proof.
    intros p c n m f a before after args H A N1 N2 E Nb D Hf.
    assert (D' : defines mro bodies (class_of a) n m).
    { unfold defines; rewrite E; apply first_skip; [exact Nb|]; apply (A _ _ _ _ m E); exact D. }
    assert (X : exists x, taken mro (program []) (OnClass c) n = Ok (Some x) /\
                forall l, calls x l = (f, receiver (OnClass c) m ++ l)).
    { destruct (program_find [] n c m H A D) as [d [e [F [Hd R]]]].
      unfold taken; cbn [class_of]; rewrite F.
      assert (U : forall k, ~ @under_class P [] k) by (intros k [[? [? []]]|[? []]]).
      destruct m as [i|i|i|i|]; cbn in Hf; [injection Hf as <-..|discriminate Hf]; destruct R as [x R]; cbn.
      - destruct R as [-> Ax]; exists x; split; [reflexivity|exact Ax].
      - destruct R as [[->|[-> Td]] Ax]; exists x; (split; [reflexivity|exact Ax]).
      - destruct R as [[-> Ax]|[_ [k [_ [Tk _]]]]]; [|destruct (U k Tk)].
        exists (Bound x (VCls c)); split; [reflexivity|]; intros l; cbn; apply Ax.
      - destruct R as [-> [Ax _]]; exists x; split; [reflexivity|exact Ax]. }
    destruct X as [x [Hx Cx]].
    change [KLog c [] p] with ([] ++ [@KLog P c [] p]).
    rewrite (C75_after_the_decorator [] (KLog c [] p) c n x a before after args); auto.
    2:{ left; exists p; auto. }
    2:{ intros b Hb _; split; [exact (Nb b Hb)|]; intros [[? [? []]]|[? []]]. }
    rewrite Cx.
    assert (Len : forall (u v : list val), Ok (f, u) = Ok (f, v) -> u = v) by (intros u v Q; injection Q as Q; exact Q).
    assert (Ne : forall (v : val) l, v :: l <> l) by (intros v l Q; apply (f_equal (@length val)) in Q; cbn in Q; lia).
    destruct m as [i|i|i|i|]; [| | | |discriminate Hf]; destruct a as [k|k j]; cbn [receiver app].
    - split; [intros _; left; exists i; reflexivity|reflexivity].
    - split; [intros _; left; exists i; reflexivity|reflexivity].
    - split; [intros _; right; exists k; split; [reflexivity|discriminate]|reflexivity].
    - split; [intros Q; destruct (Ne _ _ (Len _ _ Q))|intros [[? Q]|[? [Q _]]]; discriminate Q].
    - split.
      + intros Q; apply Len in Q; injection Q as ->; right; exists k; auto.
      + intros [[? Q]|[? [Q Z]]]; [discriminate Q|]; injection Q as <-; rewrite (Z i eq_refl); reflexivity.
    - split; [intros Q; apply Len in Q; injection Q as _ Q; destruct (Ne _ _ Q)|intros [[? Q]|[? [Q _]]]; discriminate Q].
    - split; [intros _; right; exists k; split; [reflexivity|discriminate]|reflexivity].
    - split; [intros Q; destruct (Ne _ _ (Len _ _ Q))|intros [[? Q]|[? [Q _]]]; discriminate Q].
  Qed.
End Props.

(** Examples.  Class 0 has a method, a static method, a class method, a nested class and data; class 1 inherits from 0 and
    has its own method; class 2 is alone. *)
Definition ex_mro (c : nat) : list nat := match c with 1 => [1; 0] | _ => [c] end.
Definition ex_bodies (c : nat) : list (string * member) :=
  match c with
  | 0 => [("meth", MFun 10); ("stat", MStatic 11); ("clas", MClass 12); ("Inner", MOther 13); ("size", MData); ("__init__", MFun 14)]
  | 1 => [("more", MFun 20)]
  | 2 => [("meth", MFun 30)]
  | _ => []
  end.
Lemma ex_single : single ex_mro.
Proof.
  intros c before d after E; destruct c as [|[|c]]; cbn in E.
  - destruct before as [|? [|]]; cbn in E; [injection E as <- <-; reflexivity|discriminate E..].
  - destruct before as [|b [|b' [|]]]; cbn in E; [injection E as <- <-; reflexivity|injection E as <- <- <-; reflexivity|discriminate E..].
  - destruct before as [|? [|]]; cbn in E; [injection E as <- <-; reflexivity|discriminate E..].
Qed.
Lemma ex_hierarchy : hierarchy ex_mro ex_bodies.
Proof.
  split.
  - intros c; destruct c as [|[|[|c]]]; cbn; repeat constructor; cbn; intuition discriminate.
  - intros [|[|c]]; cbn; eexists; reflexivity.
  - intros c d e; destruct c as [|[|c]]; cbn; intros Hd He.
    + destruct Hd as [<-|[]]; exact He.
    + destruct Hd as [<-|[<-|[]]]; cbn in He; tauto.
    + destruct Hd as [<-|[]]; exact He.
Qed.
Lemma ex_defines : defines ex_mro ex_bodies 1 "meth" (MFun 10) /\ defines ex_mro ex_bodies 1 "stat" (MStatic 11) /\
  defines ex_mro ex_bodies 1 "clas" (MClass 12) /\ defines ex_mro ex_bodies 1 "Inner" (MOther 13) /\ defines ex_mro ex_bodies 1 "size" MData.
Proof. repeat split; (apply first_later; [cbn; intuition discriminate|apply first_here; cbn; tauto]). Qed.

(** class 0 and class 1 are decorated, class 0 twice, the method also in the body. *)
Definition ex_os : list (kop nat) :=
  [KBody 0 "meth" (HLog 7); KLog 0 [] 1; KLog 1 ["meth"; "more"] 2; KUnlog 0 None].
Example C75_methods_example :
  call ex_mro (program ex_mro ex_bodies ex_os) (OnInst 1 5) "meth" [VOth 9] = Ok (User 10, [VInst 5; VOth 9]) /\
  call ex_mro (program ex_mro ex_bodies ex_os) (OnClass 1) "stat" [VOth 9] = Ok (User 11, [VOth 9]) /\
  call ex_mro (program ex_mro ex_bodies ex_os) (OnClass 1) "Inner" [VOth 9] = Ok (Other 13, [VOth 9]) /\
  call ex_mro (program ex_mro ex_bodies ex_os) (OnClass 0) "clas" [VOth 9] = Ok (User 12, [VCls 0; VOth 9]) /\
  taken ex_mro (program ex_mro ex_bodies ex_os) (OnInst 1 5) "size" = Ok None /\
  call ex_mro (program ex_mro ex_bodies ex_os) (OnInst 2 5) "meth" [] = Ok (User 30, [VInst 5]).
Proof. vm_compute; repeat split. Qed.
Example C75_methods_by_theorem :
  call ex_mro (program ex_mro ex_bodies ex_os) (OnInst 1 5) "meth" [VOth 9] = Ok (User 10, [VInst 5; VOth 9]).
Proof. exact (C75_methods ex_mro ex_bodies ex_os "meth" (OnInst 1 5) 10 [VOth 9] ex_hierarchy (C75_single_inheritance _ _ _ ex_single) (proj1 ex_defines)). Qed.
(** Decorated by the class: one wrapper around the function of the base, in the subclass only. *)
Example C75_wrapped_example :
  taken ex_mro (program ex_mro ex_bodies [KLog 1 [] 2]) (OnInst 1 5) "meth" = Ok (Some (Bound (Log 1 2 (User 10)) (VInst 5))) /\
  taken ex_mro (program ex_mro ex_bodies [@KLog nat 1 [] 2]) (OnInst 0 5) "meth" = Ok (Some (Bound (User 10) (VInst 5))) /\
  taken ex_mro (program ex_mro ex_bodies [@KLog nat 0 [] 2]) (OnInst 0 5) "__init__" = Ok (Some (Bound (User 14) (VInst 5))).
Proof. vm_compute; repeat split. Qed.

(** Without the restriction to calls through the class, C75_through_the_class fails: a static method of a logged class that
    is called on an instance receives the instance in addition. *)
Theorem C75_static_on_instance_refuted : exists mro bodies (os : list (kop nat)) n a i args,
  hierarchy mro bodies /\ agrees mro bodies n /\ defines mro bodies (class_of a) n (MStatic i) /\
  call mro (program mro bodies os) a n args = Ok (User i, VInst 5 :: args) /\
  call mro (@program nat mro bodies []) a n args = Ok (User i, args).
Proof.
  exists ex_mro, ex_bodies, [KLog 0 [] 1], "stat", (OnInst 1 5), 11, [VOth 9].
  split; [exact ex_hierarchy|split; [apply C75_single_inheritance, ex_single|split; [apply ex_defines|vm_compute; split; reflexivity]]].
Qed.

(** A class method of a logged class that is called on an instance receives the class and then the instance; called on a
    subclass it receives the decorated class instead of the subclass. *)
Theorem C75_class_method_refuted : exists mro bodies (os : list (kop nat)) n i args,
  hierarchy mro bodies /\ agrees mro bodies n /\ defines mro bodies 1 n (MClass i) /\
  call mro (program mro bodies os) (OnInst 1 5) n args = Ok (User i, VCls 0 :: VInst 5 :: args) /\
  call mro (program mro bodies os) (OnClass 1) n args = Ok (User i, VCls 0 :: args) /\
  call mro (@program nat mro bodies []) (OnInst 1 5) n args = Ok (User i, VCls 1 :: args) /\
  call mro (@program nat mro bodies []) (OnClass 1) n args = Ok (User i, VCls 1 :: args).
Proof.
  exists ex_mro, ex_bodies, [KLog 0 [] 1], "clas", 12, [VOth 9].
  split; [exact ex_hierarchy|split; [apply C75_single_inheritance, ex_single|split; [apply ex_defines|vm_compute; repeat split]]].
Qed.

(** A nested class is replaced by a function: it is no class any more (no isinstance, no subclassing), and called on an
    instance it receives the instance in addition. *)
Theorem C75_nested_class_refuted : exists mro bodies (os : list (kop nat)) n i args,
  hierarchy mro bodies /\ defines mro bodies 1 n (MOther i) /\
  taken mro (@program nat mro bodies []) (OnClass 1) n = Ok (Some (Other i)) /\
  (exists x, taken mro (program mro bodies os) (OnClass 1) n = Ok (Some x) /\ is_function x = true) /\
  call mro (program mro bodies os) (OnInst 1 5) n args = Ok (Other i, VInst 5 :: args).
Proof.
  exists ex_mro, ex_bodies, [KLog 0 [] 1], "Inner", 13, [VOth 9].
  split; [exact ex_hierarchy|split; [apply ex_defines|vm_compute; split; [reflexivity|split; [eexists; split; reflexivity|reflexivity]]]].
Qed.

(** A class decorator with a list of methods changes methods that are not in the list: a static method becomes a method. *)
Theorem C75_not_listed_refuted : exists mro bodies (os : list (kop nat)) n m i args,
  hierarchy mro bodies /\ agrees mro bodies n /\ os = [KLog 0 [m] 1] /\ m <> n /\ defines mro bodies 0 n (MStatic i) /\
  call mro (program mro bodies os) (OnInst 0 5) n args = Ok (User i, VInst 5 :: args).
Proof.
  exists ex_mro, ex_bodies, [KLog 0 ["meth"] 1], "stat", "meth", 11, [VOth 9].
  split; [exact ex_hierarchy|split; [apply C75_single_inheritance, ex_single|split; [reflexivity|split; [discriminate|split; [|vm_compute; reflexivity]]]]].
  apply first_here; cbn; tauto.
Qed.

(** The decorators in the body of a class win over those of the class for methods and static methods (C22, C23), but not for
    class methods: an explicitly logged one is logged twice, and an unlogged one is logged. *)
Theorem C75_class_method_priority_refuted : exists mro bodies n i x y,
  hierarchy mro bodies /\ defines mro bodies 0 n (MClass i) /\
  taken mro (program mro bodies [KBody 0 n (HLog 7); KLog 0 [] 1]) (OnClass 0) n = Ok (Some x) /\
  marks x = [ByLog 1; ByLog 7] /\
  taken mro (program mro bodies [KBody 0 n (HUnlog None); KLog 0 [] 1]) (OnClass 0) n = Ok (Some y) /\
  marks y = [ByLog 1; ByUnlog None].
Proof.
  exists ex_mro, ex_bodies, "clas", 12, (Log 3 1 (Bound (Log 0 7 (User 12)) (VCls 0))), (Log 3 1 (Bound (Unlog 0 None (User 12)) (VCls 0))).
  split; [exact ex_hierarchy|split; [apply first_here; cbn; tauto|vm_compute; repeat split]].
Qed.
Example C75_static_method_priority_example :
  taken ex_mro (program ex_mro ex_bodies [KBody 0 "stat" (HLog 7); KLog 0 [] 1]) (OnClass 0) "stat" = Ok (Some (Log 0 7 (User 11))) /\
  match taken ex_mro (program ex_mro ex_bodies [KBody 0 "stat" (HUnlog None); KLog 0 [] 1]) (OnClass 0) "stat" with
  | Ok (Some x) => marks x = [ByUnlog None] | _ => False end.
Proof. vm_compute; split; reflexivity. Qed.

(** Without [agrees] (a diamond of classes) even methods are not left as they were: class 3 inherits from 2 and 1, both of
    which inherit from 0; the method of 0 is overridden in 1; @log on class 2 makes instances of 3 run the method of 0. *)
Definition dia_mro (c : nat) : list nat := match c with 0 => [0] | 1 => [1; 0] | 2 => [2; 0] | 3 => [3; 2; 1; 0] | _ => [c] end.
Definition dia_bodies (c : nat) : list (string * member) :=
  match c with 0 => [("meth", MFun 10)] | 1 => [("meth", MFun 20)] | _ => [] end.
Lemma dia_hierarchy : hierarchy dia_mro dia_bodies.
Proof.
  split.
  - intros c; destruct c as [|[|c]]; cbn; repeat constructor; cbn; intuition discriminate.
  - intros [|[|[|[|c]]]]; cbn; eexists; reflexivity.
  - intros c d e; destruct c as [|[|[|[|c]]]]; cbn; intros Hd He.
    + destruct Hd as [<-|[]]; exact He.
    + destruct Hd as [<-|[<-|[]]]; cbn in He; tauto.
    + destruct Hd as [<-|[<-|[]]]; cbn in He; tauto.
    + destruct Hd as [<-|[<-|[<-|[<-|[]]]]]; cbn in He; tauto.
    + destruct Hd as [<-|[]]; exact He.
Qed.
Theorem C75_diamond_refuted : exists mro bodies (os : list (kop nat)) n a i j args,
  hierarchy mro bodies /\ i <> j /\ defines mro bodies (class_of a) n (MFun i) /\ ~ under_class os (class_of a) /\
  call mro (@program nat mro bodies []) a n args = Ok (User i, receiver a (MFun i) ++ args) /\
  call mro (program mro bodies os) a n args = Ok (User j, receiver a (MFun i) ++ args).
Proof.
  exists dia_mro, dia_bodies, [KLog 2 [] 1], "meth", (OnInst 3 5), 20, 10, [VOth 9].
  split; [exact dia_hierarchy|split; [discriminate|split]].
  - apply first_later; [intros []|apply first_later; [intros []|apply first_here; cbn; tauto]].
  - split; [intros [[ms [p [Q|[]]]]|[b [Q|[]]]]; discriminate Q|vm_compute; split; reflexivity].
Qed.

Print Assumptions C75_methods.
Print Assumptions C75_through_the_class.
Print Assumptions C75_class_method.
Print Assumptions C75_class_method_own.
Print Assumptions C75_without_class_decorators.
Print Assumptions C75_data.
Print Assumptions C75_no_new_names.
Print Assumptions C75_single_inheritance.
Print Assumptions C75_other_classes.
Print Assumptions C75_after_the_decorator.
Print Assumptions C75_exactly_which.
Print Assumptions C75_static_on_instance_refuted.
Print Assumptions C75_class_method_refuted.
Print Assumptions C75_nested_class_refuted.
Print Assumptions C75_not_listed_refuted.
Print Assumptions C75_class_method_priority_refuted.
Print Assumptions C75_diamond_refuted.
