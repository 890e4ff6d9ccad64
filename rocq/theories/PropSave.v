(** PropSave.v -- C45: the phases of a save. *)
From Verif Require Import Base Mon PyDict KeypathModel Values OGraphModel MGraphModel ChainModel TypesModel ObjModel ObjExample IoModel
  IoBase IoExample CivilSpec IoEffects SaveSpec SaveProofs UnlinkedProofs PropUpdate.
From Verif Require LeafModel.
Open Scope string_scope.
Open Scope list_scope.

(** A save that fails at a stage before the write is exactly that stage's failure: its
    exception and state are those of the save. *)
Theorem C45_stage_failure_ends :
  forall (P : program) (n : nat) (o : oid) (all skip : bool) (w : world) (s : stage) (e : exn) (w' : world) (l : list event),
    course P (S n) o all skip w s (Err e) w' l -> save P (S n) o all skip w = (Err e, w').
Proof. exact course_stops. Qed.
Print Assumptions C45_stage_failure_ends.

(** Every save either fails at one of the stages, with no store event at all, or passes
    them all in order and then writes the object before anything else. *)
Theorem C45_phases_in_order :
  forall (P : program) (n : nat) (o : oid) (all skip : bool) (w : world) (r : res unit) (w' : world),
    save P (S n) o all skip w = (r, w') ->
    (exists s e l, course P (S n) o all skip w s (Err e) w' l /\ r = Err e /\ since w w' l /\
                   forall x, ~ In (EvWrite x) l /\ ~ In (EvDelete x) l) \/
    (exists w4 l l', course P (S n) o all skip w Setting (Ok tt) w4 l /\
                     (forall x, ~ In (EvWrite x) l /\ ~ In (EvDelete x) l) /\
                     since w w' (l ++ EvWrite o :: l')).
Proof.
  intros P n o all skip w r w' H.
  assert (N : forall l, Forall no_store l -> forall x, ~ In (EvWrite x) l /\ ~ In (EvDelete x) l).
  { intros l F x. rewrite Forall_forall in F. split; intros I; apply F in I; exact I. }
  destruct (save_course P n o all skip w) as [(s & e & w1 & l & C & E) | (w4 & l & C & E)].
  - left. rewrite E in H. injection H as <- <-. exists s, e, l. split; [exact C |]. split; [reflexivity |].
    split; [exact (course_since _ _ _ _ _ _ _ _ _ _ C) | apply N, (course_no_store _ _ _ _ _ _ _ _ _ _ C)].
  - right. destruct (finish_log P n o all skip (fun b => save_grows P n b all skip) w4) as (l' & F).
    rewrite <- E, H in F. cbn in F. exists w4, l, l'. split; [exact C |].
    split; [apply N, (course_no_store _ _ _ _ _ _ _ _ _ _ C) |].
    eapply since_trans; [exact (course_since _ _ _ _ _ _ _ _ _ _ C) | exact F].
Qed.
Print Assumptions C45_phases_in_order.

(** If anything was written: the guards accepted, all hooks returned, validation (unless
    skipped) succeeded and the setters returned, each from the state the one before left. *)
Theorem C45_written_means_passed :
  forall (P : program) (n : nat) (o : oid) (all skip : bool) (w : world) (r : res unit) (w' : world) (l : list event) (x : oid),
    save P (S n) o all skip w = (r, w') -> since w w' l -> In (EvWrite x) l ->
    exists w1 w2 w3 w4,
      permission P (S n) o (cu w o) w Accept w1 /\
      hooked P o (p_hooks P (wclass w1 o) (cu w1 o)) w1 (Ok tt) w2 /\
      (if skip then w3 = w2 else validate P (S n) o (Some all) w2 = (Ok tt, w3)) /\
      set_on_save P (S n) o w3 = (Ok tt, w4) /\
      exists before after, l = before ++ EvWrite o :: after /\ since w w4 before /\ ~ In (EvWrite x) before.
Proof.
  intros P n o all skip w r w' l x H S I.
  destruct (C45_phases_in_order P n o all skip w r w' H) as [(s & e & l0 & C & E & S0 & N) | (w4 & l0 & l1 & C & N & S0)];
    unfold since in S, S0; rewrite S in S0; apply app_inv_head in S0; subst l.
  - destruct (N x). contradiction.
  - pose proof (course_since _ _ _ _ _ _ _ _ _ _ C) as Sc.
    pose proof (course_runs _ _ _ _ _ _ _ _ _ _ C) as (w1 & w2 & w3 & G & Hk & V & T).
    exists w1, w2, w3, w4. split.
    { apply guard_permission in G. destruct G as (v & Pv & Ev). destruct v; try discriminate Ev. exact Pv. }
    split; [apply run_hooks_hooked, Hk |]. split; [destruct skip; [injection V as ->; reflexivity | exact V] |].
    split; [exact T |]. exists l0, l1. split; [reflexivity |]. split; [exact Sc | apply N].
Qed.
Print Assumptions C45_written_means_passed.

(** Deleting: guards, then hooks, then the store. *)
Theorem C45_delete_in_order :
  forall (P : program) (n : nat) (o : oid) (w : world) (r : res unit) (w' : world) (l : list event),
    delete P n o w = (r, w') -> since w w' l ->
    (forall x, ~ In (EvWrite x) l) /\
    (forall x, In (EvDelete x) l ->
       exists w1 w2 lg, permission P n o ADelete w Accept w1 /\ since w w1 lg /\ Forall guard_event lg /\
         hooked P o (p_hooks P (wclass w1 o) ADelete) w1 (Ok tt) w2 /\
         l = lg ++ map (EvCall KHook) (p_hooks P (wclass w1 o) ADelete) ++ [EvDelete o]).
Proof.
  intros P n o w r w' l H S. unfold delete, bind at 1 in H.
  destruct (guard P n o ADelete w) as [r1 w1] eqn:G. pose proof (proj1 (guard_permission _ _ _ _ _ _ _) G) as (v & Pv & Ev).
  destruct (permission_log _ _ _ _ _ _ _ Pv) as (lg & Sg & Fg).
  assert (Ng : forall x, ~ In (EvWrite x) lg /\ ~ In (EvDelete x) lg).
  { intros x. rewrite Forall_forall in Fg. split; intros I; apply Fg in I; exact I. }
  destruct r1 as [[] | e].
  2:{ injection H as <- <-. unfold since in *. rewrite S in Sg. apply app_inv_head in Sg. subst l.
      split; [intros x; apply Ng |]. intros x I. exfalso. apply (proj2 (Ng x) I). }
  assert (v = Accept) as -> by (destruct v; try discriminate Ev; reflexivity).
  unfold bind at 1 in H. destruct (run_hooks P o ADelete w1) as [r2 w2] eqn:K. apply run_hooks_hooked in K.
  pose proof (hooked_log _ _ _ _ _ _ K) as (d & rest & Ed & Sd & Rd).
  assert (Nd : forall x, ~ In (EvWrite x) (map (EvCall KHook) d) /\ ~ In (EvDelete x) (map (EvCall KHook) d)).
  { intros x. split; intros I; apply in_map_iff in I; destruct I as (? & I & _); discriminate I. }
  destruct r2 as [[] | e].
  2:{ injection H as <- <-. pose proof (since_trans _ _ _ _ _ Sg Sd) as T. unfold since in *. rewrite S in T. apply app_inv_head in T. subst l.
      split; [intros x I; apply in_app_iff in I; destruct I as [I | I]; [apply (proj1 (Ng x) I) | apply (proj1 (Nd x) I)] |].
      intros x I. exfalso. apply in_app_iff in I. destruct I as [I | I]; [apply (proj2 (Ng x) I) | apply (proj2 (Nd x) I)]. }
  rewrite (Rd eq_refl), app_nil_r in Ed. subst d.
  assert (S3 : since w2 w' [EvDelete o]).
  { unfold bind, modW in H. unfold since. rewrite <- (f_equal snd H : snd _ = w'), liftH_log. reflexivity. }
  pose proof (since_trans _ _ _ _ _ Sg (since_trans _ _ _ _ _ Sd S3)) as T. unfold since in *. rewrite S in T. apply app_inv_head in T. subst l.
  split.
  - intros x I. rewrite !in_app_iff in I. destruct I as [I | [I | [I | []]]]; [apply (proj1 (Ng x) I) | apply (proj1 (Nd x) I) | discriminate I].
  - intros x _. exists w1, w2, lg. auto.
Qed.
Print Assumptions C45_delete_in_order.

(** What is written can be invalid: the setters run after validation, and what they set is
    not checked by the modifiers before them. *)
Definition c_counter : cdef := mkc "Counter"
  [ f_id; mkf "n" "n_id" [tint; MLeaf (LeafModel.LMax (PVal (VInt 5))); MSetonsave (PCall 4%nat) false] ].
Definition sv_prog : program := mkprog (fun c => if String.eqb c "Counter" then Some c_counter else None)
  (fun _ _ => [PCall 0%nat; PCall 1%nat]) (fun _ _ => [2%nat; 4%nat]).
Definition sv_world (n : value) (unlinked : list (string * list value)) : world := mkw
  {| h_obj := fun o => {| o_class := "Counter"; o_attr := fun k => sget k [("id", VInt (Z.of_nat o)); ("n", n)];
       o_new := true; o_modified := false; o_mfields := []; o_prev := []; o_lkeys := [];
       o_raw := []; o_unlinked := match o with 0%nat => unlinked | _ => [] end; o_operator := VInt 1 |};
     h_next := 9%nat; h_graph := {| graphs := repeat [] 2; graph_of := fun o => Nat.min o 1 |} |}.

Theorem C45_written_valid_refuted :
  ~ (forall (P : program) (n : nat) (o : oid) (w w' : world),
       save P (S n) o true false w = (Ok tt, w') -> In (EvWrite o) (w_log w') -> fst (is_valid P (S n) o w') = Ok true).
Proof.
  intros H.
  destruct (save sv_prog 9 0%nat true false (sv_world (VInt 3) [])) as [r w'] eqn:E.
  assert (Er : r = Ok tt) by (rewrite <- (f_equal fst E : fst _ = r); vm_compute; reflexivity). subst r.
  specialize (H sv_prog 8%nat 0%nat _ w' E). rewrite <- (f_equal snd E : snd _ = w') in H.
  specialize (H ltac:(vm_compute; tauto)). vm_compute in H. discriminate H.
Qed.
Print Assumptions C45_written_valid_refuted.

(** A save that is stopped by validation, and one that writes. *)
Example C45_example :
  (let w := sv_world (VInt 6) [] in
   fst (save sv_prog 9 0%nat true false w) = Err (EValidation [("n", "value is not less than or equal")]) /\
   w_log (snd (save sv_prog 9 0%nat true false w)) =
     [EvCall KGuard 0%nat; EvCall KGuard 1%nat; EvCall KHook 2%nat; EvCall KHook 4%nat]) /\
  (let w := sv_world (VInt 3) [] in
   fst (save sv_prog 9 0%nat true false w) = Ok tt /\
   w_log (snd (save sv_prog 9 0%nat true false w)) =
     [EvCall KGuard 0%nat; EvCall KGuard 1%nat; EvCall KHook 2%nat; EvCall KHook 4%nat; EvCall KSave 4%nat; EvWrite 0%nat]).
Proof. cbn zeta. repeat split; vm_compute; reflexivity. Qed.

(** ** C54: the objects that were unlinked from the saved one *)

(** After the write, of the objects unlinked from a field those at every second place are
    taken out of the pool and saved, in order, up to the first exception; the others are
    neither saved nor taken out.  (The loop removes the item it is at from the list it goes
    through.)  The objects are distinct, and saving one leaves the pool alone. *)
Theorem C54_every_second_saved :
  forall (P : program) (n : nat) (o : oid) (all skip : bool) (w w4 : world) (l : list event) (h5 : heap)
         (name : string) (bs : list oid),
    course P (S n) o all skip w Setting (Ok tt) w4 l ->
    p_write P o (w_heap w4) = (Ok tt, h5) ->
    let w5 := set_heap h5 (add_log (EvWrite o) w4) in
    o_unlinked (wobj w5 o) = [(name, map VObj bs)] -> NoDup bs ->
    (forall h a b, In a bs -> In b bs -> (veq (p_oeq P h) (VObj a) (VObj b) = true <-> a = b)) ->
    calm P (fun b => save P n b all skip) o name (every_other bs) w5 ->
    save P (S n) o all skip w = for_st (every_other bs) (round P (fun b => save P n b all skip) o name) w5.
Proof.
  intros P n o all skip w w4 l h5 name bs C W w5 U ND Eq Cm.
  rewrite (course_goes _ _ _ _ _ _ _ _ C). unfold finish. unfold bind at 1, modW. unfold bind at 1, liftH.
  change (w_heap (add_log (EvWrite o) w4)) with (w_heap w4). rewrite W. fold w5.
  unfold bind at 1, getW at 1. rewrite U. cbn [map fst for_st]. unfold bind at 1 2, getW at 1.
  assert (Hp : pool w5 o name = map VObj bs).
  { unfold pool. rewrite U. cbn. rewrite String.eqb_refl. reflexivity. }
  rewrite Hp, map_length.
  pose proof (pool_rounds P (fun b => save P n b all skip) o name bs ND Eq (length bs) bs [] (length bs) w5
                (le_n _) (incl_refl _) ND (le_n _) Hp Cm) as R.
  cbn [length] in R. rewrite R.
  destruct (for_st _ _ w5) as [[[] | e] w6]; reflexivity.
Qed.
Print Assumptions C54_every_second_saved.

Theorem C54_all_unlinked_saved_refuted :
  ~ (forall (P : program) (n : nat) (o b : oid) (name : string) (w w' : world),
       save P (S n) o false false w = (Ok tt, w') -> In (VObj b) (pool w o name) -> In (EvWrite b) (w_log w')).
Proof.
  intros H.
  destruct (save sv_prog 9 0%nat false false (sv_world (VInt 3) [("posts", [VObj 1%nat; VObj 2%nat; VObj 3%nat])])) as [r w'] eqn:E.
  assert (Er : r = Ok tt) by (rewrite <- (f_equal fst E : fst _ = r); vm_compute; reflexivity). subst r.
  specialize (H sv_prog 8%nat 0%nat 2%nat "posts" _ w' E ltac:(vm_compute; tauto)).
  rewrite <- (f_equal snd E : snd _ = w') in H. vm_compute in H.
  repeat (destruct H as [H | H]; [discriminate H |]). exact H.
Qed.
Print Assumptions C54_all_unlinked_saved_refuted.

Lemma calm_by P f o name b l w :
  let w1 := snd (take_out P o name b w) in
  fst (take_out P o name b w) = Ok tt -> fst (f b w1) = Ok tt -> pool (snd (f b w1)) o name = pool w1 o name ->
  calm P f o name l (snd (f b w1)) -> calm P f o name (b :: l) w.
Proof.
  cbn zeta. intros A B C D. eapply calm_next; [| | exact C | exact D].
  - destruct (take_out P o name b w). cbn in *. subst. reflexivity.
  - destruct (f b (snd (take_out P o name b w))). cbn in *. subst. reflexivity.
Qed.
Example C54_example :
  let w := sv_world (VInt 3) [("posts", [VObj 1%nat; VObj 2%nat; VObj 3%nat])] in
  let done := save sv_prog 9 0%nat false false w in
  fst done = Ok tt /\
  filter (fun e => match e with EvWrite _ => true | _ => false end) (w_log (snd done)) = [EvWrite 0%nat; EvWrite 1%nat; EvWrite 3%nat] /\
  pool (snd done) 0%nat "posts" = [VObj 2%nat] /\
  exists w4 l, course sv_prog 9 0%nat false false w Setting (Ok tt) w4 l /\
    let w5 := set_heap (w_heap w4) (add_log (EvWrite 0%nat) w4) in
    o_unlinked (wobj w5 0%nat) = [("posts", map VObj [1%nat; 2%nat; 3%nat])] /\
    calm sv_prog (fun b => save sv_prog 8 b false false) 0%nat "posts" (every_other [1%nat; 2%nat; 3%nat]) w5.
Proof.
  cbn zeta. split; [vm_compute; reflexivity |]. split; [vm_compute; reflexivity |]. split; [vm_compute; reflexivity |].
  destruct (save_course sv_prog 8 0%nat false false (sv_world (VInt 3) [("posts", [VObj 1%nat; VObj 2%nat; VObj 3%nat])]))
    as [(s & e & w' & l & _ & E) | (w4 & l & C & _)].
  { apply (f_equal fst) in E. vm_compute in E. discriminate E. }
  exists w4, l. split; [exact C |].
  apply course_runs in C. destruct C as (w1 & w2 & w3 & G & Hk & V & T).
  apply (f_equal snd) in G, Hk, V, T. cbn [snd] in G, Hk, V, T. subst w1 w2 w3 w4.
  split; [vm_compute; reflexivity |]. cbn [every_other].
  apply calm_by; [vm_compute; reflexivity | vm_compute; reflexivity | vm_compute; reflexivity |].
  apply calm_by; [vm_compute; reflexivity | vm_compute; reflexivity | vm_compute; reflexivity | apply calm_nil].
Qed.
