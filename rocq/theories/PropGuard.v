(** PropGuard.v -- C44: a rejected operator prevents every effect. *)
From Verif Require Import Base Mon PyDict KeypathModel Values OGraphModel MGraphModel ChainModel TypesModel ObjModel ObjExample IoModel
  IoBase IoExample CivilSpec IoEffects SaveSpec SaveProofs PropUpdate.
From Verif Require LeafModel.
Open Scope string_scope.
Open Scope list_scope.

(** The check of an action ends as its guards decide, asked in order. *)
Theorem C44_guards_decide :
  forall (P : program) (n : nat) (o : oid) (a : action) (w : world) (r : res unit) (w' : world),
    guard P n o a w = (r, w') <-> exists v, permission P n o a w v w' /\ r = outcome v.
Proof. exact guard_permission. Qed.
Print Assumptions C44_guards_decide.

(** When they do not accept, each of the three methods ends there: with the error, in the
    state the guards left, and the only things that have run are the guards. *)
Theorem C44_rejected_save :
  forall (P : program) (n : nat) (o : oid) (all skip : bool) (w : world) (v : verdict) (w' : world),
    permission P (S n) o (cu w o) w v w' -> v <> Accept ->
    save P (S n) o all skip w = (outcome v, w') /\ exists l, since w w' l /\ Forall guard_event l.
Proof.
  intros P n o all skip w v w' H N. split; [| exact (permission_log _ _ _ _ _ _ _ H)].
  rewrite save_eq, (permission_guard _ _ _ _ _ _ _ H). destruct v; [contradiction | reflexivity | reflexivity].
Qed.
Print Assumptions C44_rejected_save.
Theorem C44_rejected_delete :
  forall (P : program) (n : nat) (o : oid) (w : world) (v : verdict) (w' : world),
    permission P n o ADelete w v w' -> v <> Accept ->
    delete P n o w = (outcome v, w') /\ exists l, since w w' l /\ Forall guard_event l.
Proof.
  intros P n o w v w' H N. split; [| exact (permission_log _ _ _ _ _ _ _ H)].
  unfold delete, bind at 1. rewrite (permission_guard _ _ _ _ _ _ _ H). destruct v; [contradiction | reflexivity | reflexivity].
Qed.
Print Assumptions C44_rejected_delete.
Theorem C44_rejected_tojson :
  forall (P : program) (n : nat) (o : oid) (iw rv : bool) (on : option bool) (w : world) (v : verdict) (w' : world),
    permission P n o ARead w v w' -> v <> Accept ->
    (exists e, outcome v = Err e /\ tojson P n o iw rv on w = (Err e, w')) /\
    exists l, since w w' l /\ Forall guard_event l.
Proof.
  intros P n o iw rv on w v w' H N. split; [| exact (permission_log _ _ _ _ _ _ _ H)].
  unfold tojson, bind at 1. rewrite (permission_guard _ _ _ _ _ _ _ H). destruct v; [contradiction | |]; eexists; split; reflexivity.
Qed.
Print Assumptions C44_rejected_tojson.

(** Guards and no operator: unauthorized, and not even a guard has run. *)
Theorem C44_no_operator :
  forall (P : program) (n : nat) (o : oid) (w : world) (iw rv all skip : bool) (on : option bool),
    operator_of w o = VNone ->
    (p_guards P (wclass w o) (cu w o) <> [] -> save P (S n) o all skip w = (Err (EUnauthorized "no operator"), w)) /\
    (p_guards P (wclass w o) ADelete <> [] -> delete P n o w = (Err (EUnauthorized "no operator"), w)) /\
    (p_guards P (wclass w o) ARead <> [] -> tojson P n o iw rv on w = (Err (EUnauthorized "no operator"), w)).
Proof.
  intros P n o w iw rv all skip on N. repeat split; intros G.
  - apply (C44_rejected_save P n o all skip w (Reject "no operator") w); [apply pm_nobody; assumption | discriminate].
  - apply (C44_rejected_delete P n o w (Reject "no operator") w); [apply pm_nobody; assumption | discriminate].
  - destruct (C44_rejected_tojson P n o iw rv on w (Reject "no operator") w) as [(e & E & T) _];
      [apply pm_nobody; assumption | discriminate |]. injection E as <-. exact T.
Qed.
Print Assumptions C44_no_operator.

(** When the guards accept, what follows is what happens in a program without guards, from
    the state they left. *)
Definition unguarded (P : program) : program :=
  {| p_ct := p_ct P; p_oeq := p_oeq P; p_getter := p_getter P; p_setter := p_setter P; p_str := p_str P;
     p_arith := p_arith P; p_lim := p_lim P; p_isa := p_isa P; p_enums := p_enums P; p_call := p_call P;
     p_guards := fun _ _ => []; p_hooks := p_hooks P; p_write := p_write P; p_delete := p_delete P |}.

Theorem C44_accepted_delete :
  forall (P : program) (n : nat) (o : oid) (w w' : world),
    permission P n o ADelete w Accept w' -> delete P n o w = delete (unguarded P) n o w'.
Proof.
  intros P n o w w' H. unfold delete at 1, bind at 1. rewrite (permission_guard _ _ _ _ _ _ _ H). reflexivity.
Qed.
Print Assumptions C44_accepted_delete.
Theorem C44_accepted_tojson :
  forall (P : program) (n : nat) (o : oid) (iw rv : bool) (on : option bool) (w w' : world),
    permission P n o ARead w Accept w' -> tojson P n o iw rv on w = tojson (unguarded P) n o iw rv on w'.
Proof.
  intros P n o iw rv on w w' H. unfold tojson at 1, bind at 1. rewrite (permission_guard _ _ _ _ _ _ _ H). reflexivity.
Qed.
Print Assumptions C44_accepted_tojson.
(** Saving can go on to save other objects, whose guards are asked in turn; for the object
    itself the hooks come next, and an exception then is theirs or a later one's. *)
Theorem C44_accepted_save :
  forall (P : program) (n : nat) (o : oid) (all skip : bool) (w w' : world),
    permission P (S n) o (cu w o) w Accept w' ->
    exists r w2, hooked P o (p_hooks P (wclass w' o) (cu w' o)) w' r w2 /\
      match r with
      | Err e => save P (S n) o all skip w = (Err e, w2)
      | Ok _ => forall e wv, skip = false -> validate P (S n) o (Some all) w2 = (Err e, wv) ->
                  save P (S n) o all skip w = (Err e, wv)
      end.
Proof.
  intros P n o all skip w w' H. destruct (run_hooks P o (cu w' o) w') as [r w2] eqn:E. exists r, w2.
  split; [apply run_hooks_hooked, E |]. rewrite save_eq, (permission_guard _ _ _ _ _ _ _ H). cbn [outcome]. rewrite E.
  destruct r as [[] | e]; [| reflexivity]. intros e wv -> V. rewrite V. reflexivity.
Qed.
Print Assumptions C44_accepted_save.

(** A chain given as a guard that fails in its eager part raises a validation error, not
    the unauthorized error (jsonclassify.py:583-584 are outside the try). *)
Theorem C44_eager_guard_refuted :
  ~ (forall (P : program) (n : nat) (o : oid) (a : action) (w : world) (e : exn) (w' : world),
       guard P n o a w = (Err e, w') -> (forall k, e <> EUser k) -> exists m, e = EUnauthorized m).
Proof.
  intros H.
  pose (P := mkprog up_ct (fun _ _ => [PTypes [tint; MEager]]) no_hooks).
  pose (w := snd (opby P 0%nat (VInt 5) up_world)).
  destruct (guard P 9 0%nat ADelete w) as [[[] | e] w'] eqn:E; [vm_compute in E; discriminate E |].
  assert (Q : fst (guard P 9 0%nat ADelete w) = Err e) by (rewrite E; reflexivity).
  vm_compute in Q. injection Q as <-.
  destruct (H P 9%nat 0%nat ADelete w _ w' E) as (m & M); discriminate.
Qed.
Print Assumptions C44_eager_guard_refuted.

(** Three guards, of which the second rejects with a message: deleting runs the first two
    and nothing else.  With the third in its place, deletion goes on. *)
Definition gd_prog (ps : list param) : program :=
  mkprog up_ct (fun _ a => match a with ADelete => ps | _ => [] end) (fun _ _ => [0%nat]).
Definition gd_world : world := snd (opby up_prog 0%nat (VInt 5) up_world).
Example C44_example :
  operator_of gd_world 0%nat = VInt 5 /\
  (let P := gd_prog [PCall 1%nat; PCall 3%nat; PCall 0%nat] in
   (exists w', permission P 9 0%nat ADelete gd_world (Reject "no") w') /\
   fst (delete P 9 0%nat gd_world) = Err (EUnauthorized "no") /\
   w_log (snd (delete P 9 0%nat gd_world)) = [EvCall KGuard 1%nat; EvCall KGuard 3%nat]) /\
  (let P := gd_prog [PCall 1%nat; PCall 2%nat] in
   fst (delete P 9 0%nat gd_world) = Err (EUnauthorized "cannot delete")) /\
  (let P := gd_prog [PCall 1%nat; PTypes [MInstance "Account"]; PCall 0%nat] in
   fst (delete P 9 0%nat gd_world) = Ok tt /\
   w_log (snd (delete P 9 0%nat gd_world)) =
     [EvCall KGuard 1%nat; EvCall KGuard 0%nat; EvCall KHook 0%nat; EvDelete 0%nat]).
Proof.
  cbn zeta. split; [vm_compute; reflexivity |]. split; [split |].
  - eexists. apply pm_asked; [discriminate | vm_compute; discriminate |].
    change (p_guards _ _ ADelete) with [PCall 1%nat; PCall 3%nat; PCall 0%nat].
    eapply ask_next; [eapply an_yes with (v := VBool true); [eexists; split; reflexivity | auto] |].
    eapply ask_stop; [eapply an_message; eexists; split; reflexivity | discriminate].
  - split; vm_compute; reflexivity.
  - repeat split; vm_compute; reflexivity.
Qed.
