(** C39, C59: concrete runs, and what does not hold. *)
From Verif Require Import Base File_Model File_Props File_More File_Size.
Local Open Scope string_scope.
Local Open Scope list_scope.

Definition fconf1 : fconf := mkF "app.log" (fun _ => 0) true true false.
Definition fgo (d : option string) : choice := mkC d true true.
(** [n] steps of thread [t] with the same choice. *)
Definition steps (t n : nat) (ch : choice) : list sched := repeat (Run t ch) n.
(** A record without rotation takes seven steps, with rotation eleven. *)
Definition put1 (t : nat) : list sched := steps t 7 (fgo None).
Definition put1_rot (t : nat) (d : string) : list sched := steps t 11 (fgo (Some d)).

(** Two threads of one handler; both rotate; nothing is lost, everything is in order. *)
Definition ex_progs : nat -> list (list nat) := fun t => match t with 0 => [[1; 2]; [3]] | 1 => [[4; 5; 6]] | _ => [] end.
Definition ex_sched : list sched :=
  put1 0 ++ steps 1 3 (fgo (Some "logs/1")) ++ steps 0 1 (fgo None) ++ steps 1 8 (fgo (Some "logs/1")) ++ steps 0 10 (fgo (Some "logs/2")).
Example ex_rotation :
  match frun nat fconf1 (fstart nat fconf1 [("other.log", [7])] [0] ex_progs) ex_sched with
  | Some (s, ev) => moved nat ev = ["logs/1"; "logs/2"] /\ map (fun n => map snd (contents nat s n)) ["logs/1"; "logs/2"; "app.log"; "other.log"] = [[0; 1; 2]; [4; 5; 6]; [3]; [7]] /\
      accepted nat 0 ev = [1; 2; 4; 5; 6; 3] /\ buffer nat s 0 = []
  | None => False
  end.
Proof. vm_compute; repeat split. Qed.

(** The same without forced_flush: the text waits in the buffer and goes to the rotated file when it is closed. *)
Example ex_buffered :
  let c := mkF "app.log" (fun _ => 0) true false false in
  match frun nat c (fstart nat c [] [] ex_progs) (steps 0 5 (fgo None) ++ [Emit 0 1] ++ steps 0 9 (fgo (Some "logs/1"))) with
  | Some (s, ev) => map snd (contents nat s "logs/1") = [1; 2] /\ map snd (contents nat s "app.log") = [] /\ buffer nat s 0 = [3]
  | None => False
  end.
Proof. vm_compute; repeat split. Qed.

(** C39: new names are needed: a second file moved to the same name replaces the first one, and its text is lost. *)
Theorem C39_names_repeat_refuted : ~ (forall p0 l s ev, frun nat fconf1 (fstart nat fconf1 [] [] p0) l = Some (s, ev) ->
  forall x, In x (accepted nat 0 ev) -> (exists n, In (Some 0, x) (contents nat s n)) \/ In x (buffer nat s 0)).
Proof.
  intros H.
  destruct (frun nat fconf1 (fstart nat fconf1 [] [] (fun t => match t with 0 => [[1]; [2]; [3]] | _ => [] end))
     (put1 0 ++ put1_rot 0 "logs/1" ++ put1_rot 0 "logs/1")) as [[s ev]|] eqn:E; [|vm_compute in E; discriminate].
  specialize (H _ _ _ _ E 1); vm_compute in E; injection E as <- <-; destruct H as [[n H]|[]].
  - left; reflexivity.
  - unfold contents, read in H; cbn -[String.eqb] in H; destruct (String.eqb n "logs/1"); [|destruct (String.eqb n "app.log")];
      cbn in H; repeat (destruct H as [H|H]; [discriminate|]); exact H.
Qed.

(** C39: a directory on another file system: shutil.move copies and removes, the file object still writes to the removed file;
    what was in the buffer is lost (without forced_flush). *)
Theorem C39_other_file_system_refuted : ~ (forall c p0 l s ev, f_locked c = true -> frun nat c (fstart nat c [] [] p0) l = Some (s, ev) -> new_names nat c [] ev ->
  forall h, by_handler nat h (everything nat s (f_name c) ev) ++ buffer nat s h = accepted nat h ev).
Proof.
  intros H; set (c := mkF "app.log" (fun _ => 0) true false true).
  destruct (frun nat c (fstart nat c [] [] ex_progs) (steps 0 5 (fgo None) ++ steps 0 9 (fgo (Some "logs/1")))) as [[s ev]|] eqn:E; [|vm_compute in E; discriminate].
  specialize (H c _ _ _ _ eq_refl E); vm_compute in E; injection E as <- <-; unfold new_names in H; cbn in H.
  assert (N : NoDup ["logs/1"] /\ (forall d, "logs/1" = d \/ False -> d <> "app.log" /\ ~ False)).
  { split; [constructor; [intros []|constructor]|intros d [<-|[]]; split; [discriminate|tauto]]. }
  specialize (H N 0).
  vm_compute in H; discriminate.
Qed.

(** C39: without the thread lock a record can find the file closed (between close and open of another thread) and is refused. *)
Theorem C39_no_lock_refuted : ~ (forall c p0 l s ev, (forall t ch, In (Run t ch) l -> c_open ch = true) ->
  frun nat c (fstart nat c [] [] p0) l = Some (s, ev) -> forall h w, ~ In (ERejected nat h w) ev).
Proof.
  intros H; set (c := mkF "app.log" (fun _ => 0) false true false).
  set (l := steps 1 4 (fgo None) ++ steps 0 6 (fgo (Some "logs/1")) ++ steps 1 1 (fgo None)).
  destruct (frun nat c (fstart nat c [] [] ex_progs) l) as [[s ev]|] eqn:E; [|vm_compute in E; discriminate].
  refine (H c _ l s ev _ E 0 [4; 5; 6] _).
  - intros t ch Q; unfold l, steps in Q; repeat (apply in_app_or in Q; destruct Q as [Q|Q]); apply repeat_spec in Q; injection Q as _ ->; reflexivity.
  - vm_compute in E; injection E as <- <-; cbn; auto.
Qed.
(** With the lock the same schedule is not possible: the second thread waits. *)
Example ex_lock_waits : frun nat fconf1 (fstart nat fconf1 [] [] ex_progs) (steps 1 3 (fgo None) ++ steps 0 6 (fgo (Some "logs/1")) ++ steps 1 1 (fgo None)) = None.
Proof. vm_compute; reflexivity. Qed.

(** C39: when the file cannot be opened again after a move, all later records are refused (and every move fails: no file). *)
Theorem C39_reopen_failure_refuted : ~ (forall p0 l s ev, frun nat fconf1 (fstart nat fconf1 [] [] p0) l = Some (s, ev) -> forall h w, ~ In (ERejected nat h w) ev).
Proof.
  intros H.
  destruct (frun nat fconf1 (fstart nat fconf1 [] [] (fun t => match t with 0 => [[1]; [2]] | _ => [] end))
     (steps 0 9 (mkC (Some "logs/1") true false) ++ steps 0 7 (fgo (Some "logs/2")))) as [[s ev]|] eqn:E; [|vm_compute in E; discriminate].
  refine (H _ _ _ _ E 0 [2] _); vm_compute in E; injection E as <- <-; cbn; auto 10.
Qed.

(** C59: two handlers of one file (two processes): both see a large file, the second one moves the new, small file: the lock of the
    rotator is not shared. *)
Theorem C59_two_handlers_refuted : ~ (forall c limit p0 l s ev, f_locked c = true -> frun nat c (fstart nat c [] [] p0) l = Some (s, ev) -> by_rule nat limit ev ->
  forall h d n, In (EMoved nat h d n) ev -> limit <= n).
Proof.
  intros H; set (c := mkF "app.log" (fun t => t) true true false).
  destruct (frun nat c (fstart nat c [] [] ex_progs)
     (put1 0 ++ steps 1 3 (fgo (Some "logs/1")) ++ steps 0 7 (fgo (Some "logs/2")) ++ steps 1 2 (fgo None))) as [[s ev]|] eqn:E; [|vm_compute in E; discriminate].
  specialize (H c 2 _ _ _ _ eq_refl E); vm_compute in E; injection E as <- <-.
  assert (B : forall h d n, In (EMoved nat h d n) [EChecked nat 0 (Some 0) false; EAccepted nat 0 [1; 2]; EChecked nat 1 (Some 2) true; EChecked nat 0 (Some 2) true; EMoved nat 0 "logs/2" 2; EMoved nat 1 "logs/1" 0] -> 2 <= n).
  { apply H; intros h sz Q; cbn in Q; destruct Q as [Q|[Q|[Q|[Q|[Q|[Q|[]]]]]]]; try discriminate; injection Q as _ <-; exists 2; (split; [reflexivity|apply le_n]). }
  specialize (B 1 "logs/1" 0 ltac:(cbn; auto 10)); inversion B.
Qed.
(** C59: several threads of one handler can exceed the limit by more than one record: both have passed the check. *)
Theorem C59_overshoot_of_threads_refuted : ~ (forall limit p0 l s ev, 0 < limit -> no_fault l ->
  frun nat fconf1 (fstart nat fconf1 [] [] p0) l = Some (s, ev) -> exact_rule nat limit ev -> (forall t, pcs nat s t = Idle nat) ->
  exists n, size nat fconf1 s = Some n /\ below limit n (last_len nat ev)).
Proof.
  intros H; set (l := steps 0 3 (fgo None) ++ steps 1 3 (fgo None) ++ steps 0 4 (fgo None) ++ steps 1 4 (fgo None)).
  destruct (frun nat fconf1 (fstart nat fconf1 [] [] (fun t => match t with 0 => [[1; 2; 3; 4; 5]] | 1 => [[6]] | _ => [] end)) l) as [[s ev]|] eqn:E; [|vm_compute in E; discriminate].
  assert (NF : no_fault l).
  { intros t ch Q; unfold l, steps in Q; repeat (apply in_app_or in Q; destruct Q as [Q|Q]); apply repeat_spec in Q; injection Q as _ ->; split; reflexivity. }
  specialize (H 1 _ l s ev (le_n 1) NF E); vm_compute in E; injection E as <- <-.
  destruct H as (n & N & B).
  - intros h sz b Q; cbn in Q; destruct Q as [Q|[Q|[Q|[Q|[]]]]]; try discriminate; injection Q as _ <- <-; reflexivity.
  - intros t; cbn; destruct t as [|[|t]]; reflexivity.
  - vm_compute in N; injection N as <-; cbn in B; repeat apply le_S_n in B; inversion B.
Qed.
(** A run to which C59_overshoot and C59_no_small_file_moved apply. *)
Example ex_size_rule :
  match frun nat fconf1 (fstart nat fconf1 [] [] (fun t => match t with 0 => [[1; 2]; [3; 4]; [5]] | _ => [] end)) (put1 0 ++ put1 0 ++ put1_rot 0 "logs/1") with
  | Some (s, ev) => ev = [EChecked nat 0 (Some 0) false; EAccepted nat 0 [1; 2]; EChecked nat 0 (Some 2) false; EAccepted nat 0 [3; 4];
                          EChecked nat 0 (Some 4) true; EMoved nat 0 "logs/1" 4; EAccepted nat 0 [5]] /\ size nat fconf1 s = Some 1
  | None => False
  end.
Proof. vm_compute; split; reflexivity. Qed.

Print Assumptions C39_nothing_lost.
Print Assumptions C39_one_handler.
Print Assumptions C39_other_files.
Print Assumptions C39_every_record_accepted.
Print Assumptions C39_flushed.
Print Assumptions C39_names_repeat_refuted.
Print Assumptions C39_other_file_system_refuted.
Print Assumptions C39_no_lock_refuted.
Print Assumptions C39_reopen_failure_refuted.
Print Assumptions C59_no_small_file_moved.
Print Assumptions C59_overshoot.
Print Assumptions C59_two_handlers_refuted.
Print Assumptions C59_overshoot_of_threads_refuted.
