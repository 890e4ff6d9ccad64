(** SaveProofs.v -- lemmas for C44 and C45. *)
From Verif Require Import Base Mon PyList PyDict KeypathModel Values OGraphModel ChainModel ChainSpec ChainProofs TypesModel ObjModel
  IoModel IoBase Sound ObjSound LeafSound IoSound CivilSpec IoEffects SaveSpec.
From Verif Require LeafModel.
Open Scope string_scope.
Open Scope list_scope.

Lemma since_refl w : since w w [].
Proof. unfold since. rewrite app_nil_r. reflexivity. Qed.
Lemma since_trans a b c l l' : since a b l -> since b c l' -> since a c (l ++ l').
Proof. unfold since. intros E E'. rewrite E', E, app_assoc. reflexivity. Qed.

(** ** Logs of the phases *)
Lemma log_validate P n ts c : @sound Silent world (logged field_event) _ (t_validate (interp P n) ts c).
Proof.
  apply (@i_t_validate Silent P (logged field_event) (log_steps P field_event)); intros m c';
  apply (log_interp P n m c').
Qed.
Lemma log_transform P n ts c : @sound Silent world (logged field_event) _ (t_transform (interp P n) ts c).
Proof.
  apply (@i_t_transform Silent P (logged field_event) (log_steps P field_event)); intros m c';
  apply (log_interp P n m c').
Qed.

Lemma field_is_guard e : field_event e -> guard_event e.
Proof. destruct e as [[] ? | |]; cbn; auto. Qed.
Lemma logged_mono (p q : event -> Prop) w w' : (forall e, p e -> q e) -> logged p w w' -> logged q w w'.
Proof. intros H (l & E & F). exists l. split; [exact E |]. eapply Forall_impl; eassumption. Qed.
Lemma logged_mg p w w' g g' : logged p (set_mg g w) w' -> logged p w (set_mg g' w').
Proof. intros H. exact H. Qed.

(** ** One guard *)
Lemma calls_call P k f o w r w' :
  call P k f (root_ctx o cfg0 w) [VObj o; operator_of w o] w = (r, w') <-> calls P k f o w r w'.
Proof.
  unfold call, calls, bind, modW, liftH. cbn.
  destruct (p_call P f (root_ctx o cfg0 w) [VObj o; operator_of w o] (w_heap w)) as [r0 h] eqn:E. split.
  - intros H. injection H as <- <-. exists h. split; reflexivity.
  - intros (h' & H & ->). injection H as <- <-. reflexivity.
Qed.

Lemma chain_cases P n ts o w (good bad : st world unit) :
  with_new_mgraph (checked (interp P n) ts (root_ctx o cfg0 w) good bad) w =
  let c := root_ctx o cfg0 w in
  let '(r, w') := match t_transform (interp P n) ts c (set_mg [] w) with
                  | (Ok v, w0) => match t_validate (interp P n) ts (nval c v) w0 with
                                  | (Ok _, w1) => good w1
                                  | (Err (EValidation _), w1) => bad w1
                                  | (Err e, w1) => (Err e, w1)
                                  end
                  | (Err e, w0) => (Err e, w0)
                  end in (r, set_mg (w_mg w) w').
Proof.
  unfold with_new_mgraph, checked, bind, on_validation. cbv zeta.
  destruct (t_transform _ ts _ _) as [[v | e] w0]; [| reflexivity].
  destruct (t_validate _ ts _ w0) as [[u | e] w1]; [reflexivity |]. destruct e; reflexivity.
Qed.

Lemma guard_one_answers P n o a p w r w' :
  guard_one P n o a p w = (r, w') <-> exists v, answers P n o a p w v w' /\ r = outcome v.
Proof.
  split.
  - destruct p as [x | f | ts]; unfold guard_one.
    + intros H. injection H as <- <-. exists (Raise ETypeError). split; [constructor | reflexivity].
    + unfold bind at 1 2 3, getW. fold (operator_of w o).
      destruct (call P KGuard f (root_ctx o cfg0 w) [VObj o; operator_of w o] w) as [[v | e] w1] eqn:E;
        apply calls_call in E.
      * destruct (is_none v || is_true v) eqn:Y.
        -- intros H. injection H as <- <-. exists Accept. split; [| reflexivity]. eapply an_yes; [exact E |].
           destruct v as [| [] | | | | | | | | | |]; try discriminate Y; auto.
        -- intros H. destruct v as [| [] | | | | | | | | | |]; try discriminate Y; injection H as <- <-;
             (eexists; split; [first [eapply an_message; exact E | eapply an_no; [exact E | discriminate ..]] | reflexivity]).
      * intros H. injection H as <- <-. exists (Raise e). split; [apply an_raises, E | reflexivity].
    + unfold bind, getW. rewrite chain_cases. cbv zeta.
      destruct (t_transform (interp P n) ts (root_ctx o cfg0 w) (set_mg [] w)) as [[v | e] w0] eqn:T.
      * destruct (t_validate (interp P n) ts (nval (root_ctx o cfg0 w) v) w0) as [[[] | e] w1] eqn:V.
        -- intros H. injection H as <- <-. exists Accept. split; [| reflexivity]. apply an_valid. exists w1.
           cbv zeta. rewrite T. auto.
        -- assert (Z : forall (e0 : exn), e = e0 -> (forall msgs, e0 <> EValidation msgs) ->
                    answers P n o a (PTypes ts) w (Raise e0) (set_mg (w_mg w) w1)).
           { intros e0 -> N. apply an_breaks; [| right; exact N]. exists w1. cbv zeta. rewrite T. auto. }
           destruct e eqn:Ee; intros H; injection H as <- <-;
             try (eexists; split; [apply Z; [reflexivity | intros msgs0; discriminate] | reflexivity]).
           eexists. split; [eapply an_invalid; eassumption | reflexivity].
      * intros H. injection H as <- <-. exists (Raise e). split; [| reflexivity]. apply an_breaks.
        -- exists w0. cbv zeta. rewrite T. auto.
        -- left. exists w0. exact T.
  - intros (v & A & ->). destruct A as [f w v w' C Y | f w s w' C | f w v w' C N1 N2 N3 | f w e w' C | ts w w' C | ts w v w0 msgs w1 T V
      | ts w e w' C N | x w]; unfold guard_one.
    + unfold bind at 1 2 3, getW. apply calls_call in C. fold (operator_of w o). rewrite C. destruct Y as [-> | ->]; reflexivity.
    + unfold bind at 1 2 3, getW. apply calls_call in C. fold (operator_of w o). rewrite C. reflexivity.
    + unfold bind at 1 2 3, getW. apply calls_call in C. fold (operator_of w o). rewrite C.
      destruct v as [| [] | | | | | | | | | |]; cbn; try reflexivity; try congruence.
    + unfold bind at 1 2 3, getW. apply calls_call in C. fold (operator_of w o). rewrite C. reflexivity.
    + unfold bind, getW. rewrite chain_cases. cbv zeta. destruct C as (w1 & C & ->). cbv zeta in C.
      destruct (t_transform _ ts _ _) as [[v | e] w0]; [rewrite C; reflexivity | destruct C; discriminate].
    + unfold bind, getW. rewrite chain_cases. cbv zeta. rewrite T, V. reflexivity.
    + unfold bind, getW. rewrite chain_cases. cbv zeta. destruct C as (w1 & C & ->). cbv zeta in C.
      destruct (t_transform _ ts _ _) as [[v | e'] w0].
      * rewrite C. destruct N as [(w0' & N) | N]; [discriminate N |]. destruct e; try reflexivity. exfalso. eapply N. reflexivity.
      * destruct C as [C ->]. injection C as <-. reflexivity.
    + reflexivity.
Qed.

Lemma asked_for P n o a ps : forall w r w',
  for_st ps (guard_one P n o a) w = (r, w') <-> exists v, asked P n o a ps w v w' /\ r = outcome v.
Proof.
  induction ps as [| p ps IH]; intros w r w'; cbn [for_st].
  - split.
    + intros H. injection H as <- <-. exists Accept. split; constructor.
    + intros (v & A & ->). inversion A; subst. reflexivity.
  - unfold bind. split.
    + destruct (guard_one P n o a p w) as [[[] | e] w1] eqn:G; pose proof (proj1 (guard_one_answers P n o a p w _ w1) G) as (v & A & E).
      * destruct v; try discriminate E. intros H. apply IH in H. destruct H as (v & Q & ->). exists v. split; [| reflexivity].
        eapply ask_next; eassumption.
      * intros H. injection H as <- <-. exists v. split; [| exact E]. apply ask_stop; [exact A |]. intros ->. discriminate E.
    + intros (v & A & ->). inversion A as [| p0 ps0 w0 w1 v0 w2 G Q | p0 ps0 w0 v0 w1 G N]; subst.
      * assert (G' : guard_one P n o a p w = (Ok tt, w1)) by (apply guard_one_answers; exists Accept; auto).
        rewrite G'. apply IH. eauto.
      * assert (G' : guard_one P n o a p w = (outcome v, w')) by (apply guard_one_answers; eauto).
        rewrite G'. destruct v; [congruence | reflexivity | reflexivity].
Qed.

Lemma is_none_iff v : is_none v = true <-> v = VNone.
Proof. destruct v; cbn; split; congruence. Qed.

Lemma guard_eq P n o a w :
  guard P n o a w = match p_guards P (wclass w o) a with
                    | [] => (Ok tt, w)
                    | ps => if is_none (operator_of w o) then (Err (EUnauthorized "no operator"), w)
                            else for_st ps (guard_one P n o a) w
                    end.
Proof.
  unfold guard, bind at 1, getW at 1. destruct (p_guards P (wclass w o) a) as [| p ps]; [reflexivity |].
  unfold bind at 1, getW at 1. fold (operator_of w o). destruct (is_none (operator_of w o)); reflexivity.
Qed.
Lemma guard_permission P n o a w r w' :
  guard P n o a w = (r, w') <-> exists v, permission P n o a w v w' /\ r = outcome v.
Proof.
  rewrite guard_eq. split.
  - destruct (p_guards P (wclass w o) a) as [| p ps] eqn:G.
    + intros H. injection H as <- <-. exists Accept. split; [apply pm_open, G | reflexivity].
    + destruct (is_none (operator_of w o)) eqn:N.
      * intros H. injection H as <- <-. exists (Reject "no operator"). split; [| reflexivity].
        apply pm_nobody; [rewrite G; discriminate | apply is_none_iff, N].
      * intros H. apply asked_for in H. destruct H as (v & A & ->). exists v. split; [| reflexivity].
        apply pm_asked; [rewrite G; discriminate | | rewrite G; exact A]. intros E. apply is_none_iff in E. congruence.
  - intros (v & A & ->). inversion A as [G | G N | v0 w0 G N Q]; subst.
    + rewrite G. reflexivity.
    + destruct (p_guards P (wclass w' o) a) as [| p ps]; [congruence |]. rewrite (proj2 (is_none_iff _) N). reflexivity.
    + destruct (is_none (operator_of w o)) eqn:E; [apply is_none_iff in E; contradiction |].
      destruct (p_guards P (wclass w o) a) as [| p ps] eqn:Gs; [congruence |].
      apply asked_for. eauto.
Qed.

(** ** The events of guards, hooks, validation and setters *)
Lemma log_guard_one P n o a p w : logged guard_event w (snd (guard_one P n o a p w)).
Proof.
  destruct p as [x | f | ts]; unfold guard_one.
  - apply logged_refl.
  - unfold bind at 1 2 3, getW.
    pose proof (log_call P guard_event KGuard f (root_ctx o cfg0 w) [VObj o; o_operator (wobj w o)] Logic.I w) as [L _].
    destruct (call P KGuard f _ _ w) as [[v | e] w1]; cbn in L |- *; [| exact L].
    destruct (is_none v || is_true v); [exact L |]. destruct v; exact L.
  - unfold bind, getW. rewrite chain_cases. cbv zeta.
    pose proof (log_transform P n ts (root_ctx o cfg0 w) (set_mg [] w)) as [L _].
    destruct (t_transform (interp P n) ts (root_ctx o cfg0 w) (set_mg [] w)) as [[v | e] w0]; cbn in L.
    + pose proof (log_validate P n ts (nval (root_ctx o cfg0 w) v) w0) as [L' _].
      pose proof (logged_trans _ _ _ _ L L') as L2.
      destruct (t_validate _ ts _ w0) as [[[] | e] w1]; cbn in L2;
        (eapply logged_mono; [exact field_is_guard |]).
      * exact L2.
      * destruct e; exact L2.
    + cbn. eapply logged_mono; [exact field_is_guard | exact L].
Qed.
Lemma log_guards P n o a ps : forall w, logged guard_event w (snd (for_st ps (guard_one P n o a) w)).
Proof.
  induction ps as [| p ps IH]; intros w; cbn [for_st]; [apply logged_refl |]. unfold bind.
  pose proof (log_guard_one P n o a p w) as L. destruct (guard_one P n o a p w) as [[[] | e] w1]; [| exact L].
  eapply logged_trans; [exact L | apply IH].
Qed.
Lemma log_guard P n o a w : logged guard_event w (snd (guard P n o a w)).
Proof.
  rewrite guard_eq. destruct (p_guards P (wclass w o) a); [apply logged_refl |].
  destruct (is_none _); [apply logged_refl | apply log_guards].
Qed.
Lemma permission_log P n o a w v w' : permission P n o a w v w' -> exists l, since w w' l /\ Forall guard_event l.
Proof.
  intros H. pose proof (log_guard P n o a w) as (l & E & F).
  rewrite (proj2 (guard_permission P n o a w (outcome v) w')) in E by eauto. exists l. auto.
Qed.

Lemma hooks_hooked P o hs : forall w r w',
  for_st hs (fun f => do* op <- getW (fun w => o_operator (wobj w o)); do* c <- getW (root_ctx o cfg0);
                      call P KHook f c [VObj o; op] >> ret tt) w = (r, w') <-> hooked P o hs w r w'.
Proof.
  induction hs as [| f hs IH]; intros w r w'; cbn [for_st].
  - split; [intros H; injection H as <- <-; constructor | intros H; inversion H; reflexivity].
  - unfold bind at 1 2 3 4, getW at 1 2. fold (operator_of w o). split.
    + destruct (call P KHook f (root_ctx o cfg0 w) [VObj o; operator_of w o] w) as [[v | e] w1] eqn:E; apply calls_call in E.
      * cbn. intros H. apply IH in H. eapply hk_next; eassumption.
      * intros H. injection H as <- <-. apply hk_stop, E.
    + intros H. inversion H as [| f0 l0 w0 v w1 r0 w2 C Q | f0 l0 w0 e w1 C]; subst; apply calls_call in C; rewrite C.
      * cbn. apply IH, Q.
      * reflexivity.
Qed.
Lemma run_hooks_hooked P o a w r w' : run_hooks P o a w = (r, w') <-> hooked P o (p_hooks P (wclass w o) a) w r w'.
Proof. unfold run_hooks, bind at 1, getW at 1. apply hooks_hooked. Qed.

Lemma hooked_log P o hs w r w' : hooked P o hs w r w' ->
  exists done rest, hs = done ++ rest /\ since w w' (map (EvCall KHook) done) /\ (r = Ok tt -> rest = []).
Proof.
  induction 1 as [w | f l w v w1 r w2 C H (d & rest & -> & S & R) | f l w e w1 C].
  - exists [], []. split; [reflexivity |]. split; [apply since_refl | auto].
  - exists (f :: d), rest. split; [reflexivity |]. split; [| exact R].
    cbn [map]. apply (since_trans w w1 w2 [EvCall KHook f]); [| exact S]. destruct C as (h & _ & ->). reflexivity.
  - exists [f], l. split; [reflexivity |]. split; [| discriminate]. destruct C as (h & _ & ->). reflexivity.
Qed.

Lemma validate_log P n o mode w : logged field_event w (snd (validate P n o mode w)).
Proof.
  unfold validate, bind, getW, with_new_mgraph.
  match goal with |- context [m_validate ?m ?c] => pose proof (proj1 (log_interp P n (MInstance (wclass w o)) c) (set_mg [] w)) as [L _] end.
  unfold self_mod. destruct (m_validate _ _ (set_mg [] w)). exact L.
Qed.
Lemma set_on_save_log P n o w : logged save_event w (snd (set_on_save P n o w)).
Proof.
  unfold set_on_save, bind, getW, with_new_mgraph.
  pose proof (log_serialize P n (MInstance (wclass w o)) (root_ctx o cfg0 w) (set_mg [] w)) as [L _].
  unfold self_mod. destruct (m_serialize _ _ (set_mg [] w)) as [[v | e] w1]; exact L.
Qed.

(** ** The course of a save *)
Lemma course_since P n o all skip w s r w' l : course P n o all skip w s r w' l -> since w w' l.
Proof.
  induction 1; try assumption; eapply since_trans; eassumption.
Qed.

Definition no_store (e : event) : Prop := match e with EvWrite _ | EvDelete _ => False | _ => True end.
Lemma course_no_store P n o all skip w s r w' l : course P n o all skip w s r w' l -> Forall no_store l.
Proof.
  induction 1 as [v w1 l _ _ F | w1 l hs r w2 _ IH _ _ _ | w2 l r w3 lv _ IH _ _ _ F | | w3 l r w4 ls _ IH _ _ F];
    try assumption; try (apply Forall_app; split; [exact IH |]).
  - eapply Forall_impl; [| exact F]. intros [[] ? | |]; cbn; auto.
  - apply Forall_forall. intros e He. apply in_map_iff in He. destruct He as (f & <- & _). exact Logic.I.
  - eapply Forall_impl; [| exact F]. intros [[] ? | |]; cbn; auto.
  - eapply Forall_impl; [| exact F]. intros [[] ? | |]; cbn; auto.
Qed.

(** what save does after the setters *)
Definition finish (P : program) (n : nat) (o : oid) (all skip : bool) : st world unit :=
  modW (add_log (EvWrite o)) >> liftH (p_write P o) >>
  do* names <- getW (fun w => map fst (o_unlinked (wobj w o)));
  for_st names (fun name =>
    do* l <- getW (fun w => pool w o name);
    save_pool P (fun b => save P n b all skip) (length l) o name 0).

Lemma save_eq P n o all skip w :
  save P (S n) o all skip w =
  match guard P (S n) o (cu w o) w with
  | (Err e, w1) => (Err e, w1)
  | (Ok _, w1) =>
      match run_hooks P o (cu w1 o) w1 with
      | (Err e, w2) => (Err e, w2)
      | (Ok _, w2) =>
          match (if skip then (Ok tt, w2) else validate P (S n) o (Some all) w2) with
          | (Err e, w3) => (Err e, w3)
          | (Ok _, w3) =>
              match set_on_save P (S n) o w3 with
              | (Err e, w4) => (Err e, w4)
              | (Ok _, w4) => finish P n o all skip w4
              end
          end
      end
  end.
Proof.
  cbn [save]. unfold bind at 1 2, getW at 1. fold (cu w o).
  destruct (guard P (S n) o (cu w o) w) as [[[] | e] w1]; [| reflexivity].
  unfold bind at 1 2, getW at 1. fold (cu w1 o).
  destruct (run_hooks P o (cu w1 o) w1) as [[[] | e] w2]; [| reflexivity].
  unfold bind at 1.
  destruct skip; cbn [ret];
    [| destruct (validate P (S n) o (Some all) w2) as [[[] | e] w3]; [| reflexivity]].
  - unfold bind at 1. destruct (set_on_save P (S n) o w2) as [[[] | e] w4]; [| reflexivity]. reflexivity.
  - unfold bind at 1. destruct (set_on_save P (S n) o w3) as [[[] | e] w4]; [| reflexivity]. reflexivity.
Qed.

(** the log never shrinks *)
Definition grows (w w' : world) : Prop := exists l, since w w' l.
Lemma grows_refl w : grows w w.
Proof. exists []. apply since_refl. Qed.
Lemma grows_trans a b c : grows a b -> grows b c -> grows a c.
Proof. intros (l & H) (l' & H'). exists (l ++ l'). eapply since_trans; eassumption. Qed.
Lemma logged_grows p w w' : logged p w w' -> grows w w'.
Proof. intros (l & H & _). exists l. exact H. Qed.
Lemma for_grows {A} (f : A -> st world unit) l : (forall x w, grows w (snd (f x w))) -> forall w, grows w (snd (for_st l f w)).
Proof.
  intros H. induction l as [| x l IH]; intros w; cbn [for_st]; [apply grows_refl |]. unfold bind.
  pose proof (H x w) as G. destruct (f x w) as [[[] | e] w1]; [| exact G]. eapply grows_trans; [exact G | apply IH].
Qed.
Lemma pool_grows P (f : oid -> st world unit) o name : (forall b w, grows w (snd (f b w))) -> forall k i w,
  grows w (snd (save_pool P f k o name i w)).
Proof.
  intros H. induction k as [| k IH]; intros i w; cbn [save_pool]; [apply grows_refl |].
  unfold bind at 1, getW at 1. destruct (nth_error (pool w o name) i) as [x |]; [| apply grows_refl].
  unfold bind at 1 2.
  set (w1 := snd (liftH (del_unlinked (p_oeq P) o name x) w)).
  assert (G1 : grows w w1) by (exists []; unfold since; rewrite app_nil_r; apply liftH_log).
  destruct (liftH (del_unlinked (p_oeq P) o name x) w) as [[[] | e] w1'] eqn:E; cbn in w1; subst w1; [| exact G1].
  destruct x; try exact G1.
  pose proof (H o0 w1') as G2. destruct (f o0 w1') as [[[] | e] w2]; [| eapply grows_trans; eassumption].
  eapply grows_trans; [exact G1 |]. eapply grows_trans; [exact G2 | apply IH].
Qed.
Lemma finish_log P n o all skip : (forall b w, grows w (snd (save P n b all skip w))) -> forall w,
  exists l, since w (snd (finish P n o all skip w)) (EvWrite o :: l).
Proof.
  intros H w. unfold finish. unfold bind at 1, modW at 1. unfold bind at 1.
  set (w0 := add_log (EvWrite o) w).
  assert (G : grows w0 (snd ((fun w0 => match liftH (p_write P o) w0 with
      | (Ok _, w1) => (do* names <- getW (fun w => map fst (o_unlinked (wobj w o)));
          for_st names (fun name => do* l <- getW (fun w => pool w o name);
             save_pool P (fun b => save P n b all skip) (length l) o name 0)) w1
      | (Err e, w1) => (Err e, w1) end) w0))).
  { cbv beta.
    assert (G1 : grows w0 (snd (liftH (p_write P o) w0))) by (exists []; unfold since; rewrite app_nil_r; apply liftH_log).
    destruct (liftH (p_write P o) w0) as [[[] | e] w1]; [| exact G1].
    eapply grows_trans; [exact G1 |]. unfold bind at 1, getW at 1. apply for_grows.
    intros name w2. unfold bind, getW. apply pool_grows. exact H. }
  destruct G as (l & G). exists l. unfold since in *. cbv beta in G. rewrite G. unfold w0, add_log. cbn. rewrite <- app_assoc. reflexivity.
Qed.
Lemma save_grows P n : forall o all skip w, grows w (snd (save P n o all skip w)).
Proof.
  induction n as [| n IH]; intros o all skip w; [apply grows_refl |]. rewrite save_eq.
  pose proof (logged_grows _ _ _ (log_guard P (S n) o (cu w o) w)) as G.
  destruct (guard P (S n) o (cu w o) w) as [[[] | e] w1]; [| exact G]. eapply grows_trans; [exact G |]. clear G.
  assert (G : grows w1 (snd (run_hooks P o (cu w1 o) w1))).
  { destruct (run_hooks P o (cu w1 o) w1) as [r w2] eqn:E. apply run_hooks_hooked, hooked_log in E.
    destruct E as (d & rest & _ & S & _). exists (map (EvCall KHook) d). exact S. }
  destruct (run_hooks P o (cu w1 o) w1) as [[[] | e] w2]; [| exact G]. eapply grows_trans; [exact G |]. clear G.
  assert (G : grows w2 (snd (if skip then (Ok tt, w2) else validate P (S n) o (Some all) w2))).
  { destruct skip; [apply grows_refl | apply (logged_grows _ _ _ (validate_log P (S n) o (Some all) w2))]. }
  destruct (if skip then (Ok tt, w2) else validate P (S n) o (Some all) w2) as [[[] | e] w3]; [| exact G].
  eapply grows_trans; [exact G |]. clear G.
  pose proof (logged_grows _ _ _ (set_on_save_log P (S n) o w3)) as G.
  destruct (set_on_save P (S n) o w3) as [[[] | e] w4]; [| exact G]. eapply grows_trans; [exact G |].
  destruct (finish_log P n o all skip (fun b => IH b all skip) w4) as (l & F). exists (EvWrite o :: l). exact F.
Qed.

Lemma save_course P n o all skip w :
  (exists s e w' l, course P (S n) o all skip w s (Err e) w' l /\ save P (S n) o all skip w = (Err e, w')) \/
  (exists w4 l, course P (S n) o all skip w Setting (Ok tt) w4 l /\ save P (S n) o all skip w = finish P n o all skip w4).
Proof.
  rewrite save_eq.
  destruct (guard P (S n) o (cu w o) w) as [r w1] eqn:G.
  pose proof (log_guard P (S n) o (cu w o) w) as (lg & Lg & Fg). rewrite G in Lg. cbn in Lg.
  apply guard_permission in G. destruct G as (v & Pv & ->).
  pose proof (co_guards P (S n) o all skip w v w1 lg Pv Lg Fg) as C1.
  destruct (outcome v) as [[] | e] eqn:Ov; [| left; exists Guarding, e, w1, lg; auto].
  destruct (run_hooks P o (cu w1 o) w1) as [r w2] eqn:H. apply run_hooks_hooked in H.
  destruct (hooked_log _ _ _ _ _ _ H) as (d & rest & Ed & Sd & Rd).
  assert (C2 : course P (S n) o all skip w Hooking r w2 (lg ++ map (EvCall KHook) d)).
  { eapply co_hooks; [exact C1 | exact H | exact Sd |]. exists rest. auto. }
  destruct r as [[] | e]; [| left; exists Hooking, e, w2, (lg ++ map (EvCall KHook) d); auto].
  set (l2 := lg ++ map (EvCall KHook) d) in *.
  destruct skip eqn:K.
  - pose proof (co_skip P (S n) o all true w w2 l2 C2 eq_refl) as C3.
    destruct (set_on_save P (S n) o w2) as [r w4] eqn:E4.
    pose proof (set_on_save_log P (S n) o w2) as (ls & Ls & Fs). rewrite E4 in Ls. cbn in Ls.
    pose proof (co_setters P (S n) o all true w w2 l2 r w4 ls C3 E4 Ls Fs) as C4.
    destruct r as [[] | e]; [right; exists w4, (l2 ++ ls) | left; exists Setting, e, w4, (l2 ++ ls)]; auto.
  - destruct (validate P (S n) o (Some all) w2) as [r w3] eqn:E3.
    pose proof (validate_log P (S n) o (Some all) w2) as (lv & Lv & Fv). rewrite E3 in Lv. cbn in Lv.
    pose proof (co_validate P (S n) o all false w w2 l2 r w3 lv C2 eq_refl E3 Lv Fv) as C3.
    destruct r as [[] | e]; [| left; exists Validating, e, w3, (l2 ++ lv); auto].
    destruct (set_on_save P (S n) o w3) as [r w4] eqn:E4.
    pose proof (set_on_save_log P (S n) o w3) as (ls & Ls & Fs). rewrite E4 in Ls. cbn in Ls.
    pose proof (co_setters P (S n) o all false w w3 (l2 ++ lv) r w4 ls C3 E4 Ls Fs) as C4.
    destruct r as [[] | e]; [right; exists w4, ((l2 ++ lv) ++ ls) | left; exists Setting, e, w4, ((l2 ++ lv) ++ ls)]; auto.
Qed.

(** The stages are determined. *)
Lemma permission_guard P n o a w v w' : permission P n o a w v w' -> guard P n o a w = (outcome v, w').
Proof. intros H. apply guard_permission. eauto. Qed.

Definition stage_runs (P : program) (n : nat) (o : oid) (all skip : bool) (w : world) (s : stage) (r : res unit) (w' : world) : Prop :=
  match s with
  | Guarding => guard P n o (cu w o) w = (r, w')
  | Hooking => exists w1, guard P n o (cu w o) w = (Ok tt, w1) /\ run_hooks P o (cu w1 o) w1 = (r, w')
  | Validating => exists w1 w2, guard P n o (cu w o) w = (Ok tt, w1) /\ run_hooks P o (cu w1 o) w1 = (Ok tt, w2) /\
                    (if skip then (Ok tt, w2) else validate P n o (Some all) w2) = (r, w')
  | Setting => exists w1 w2 w3, guard P n o (cu w o) w = (Ok tt, w1) /\ run_hooks P o (cu w1 o) w1 = (Ok tt, w2) /\
                    (if skip then (Ok tt, w2) else validate P n o (Some all) w2) = (Ok tt, w3) /\ set_on_save P n o w3 = (r, w')
  end.
Lemma course_runs P n o all skip w s r w' l : course P n o all skip w s r w' l -> stage_runs P n o all skip w s r w'.
Proof.
  induction 1 as [v w1 l Pv _ _ | w1 l hs r w2 _ IH H _ _ | w2 l r w3 lv _ IH K E _ _ | w2 l _ IH K | w3 l r w4 ls _ IH E _ _]; cbn [stage_runs] in *.
  - apply permission_guard, Pv.
  - exists w1. split; [exact IH | apply run_hooks_hooked, H].
  - destruct IH as (w1 & G & H). exists w1, w2. rewrite K. auto.
  - destruct IH as (w1 & G & H). exists w1, w2. rewrite K. auto.
  - destruct IH as (w1 & w2 & G & H & V). exists w1, w2, w3. auto.
Qed.
Lemma course_stops P n o all skip w s e w' l : course P (S n) o all skip w s (Err e) w' l -> save P (S n) o all skip w = (Err e, w').
Proof.
  intros C. apply course_runs in C. rewrite save_eq. destruct s; cbn [stage_runs] in C.
  - rewrite C. reflexivity.
  - destruct C as (w1 & -> & ->). reflexivity.
  - destruct C as (w1 & w2 & -> & -> & ->). reflexivity.
  - destruct C as (w1 & w2 & w3 & -> & -> & -> & ->). reflexivity.
Qed.
Lemma course_goes P n o all skip w w' l : course P (S n) o all skip w Setting (Ok tt) w' l ->
  save P (S n) o all skip w = finish P n o all skip w'.
Proof.
  intros C. apply course_runs in C. rewrite save_eq. destruct C as (w1 & w2 & w3 & -> & -> & -> & ->). reflexivity.
Qed.
