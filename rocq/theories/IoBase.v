(** IoBase.v -- general lemmas about computations over the state of IoModel.v. *)
From Verif Require Import Base Mon Values ChainModel ChainSpec ChainProofs TypesModel ObjModel IoModel.
Open Scope list_scope.

Lemma bind_ok {S A B} (m : st S A) (k : A -> st S B) s b s' :
  bind m k s = (Ok b, s') -> exists a s1, m s = (Ok a, s1) /\ k a s1 = (Ok b, s').
Proof. unfold bind. destruct (m s) as [[a | e] s1]; intros H; [eauto | discriminate H]. Qed.

Lemma bind_err {S A B} (m : st S A) (k : A -> st S B) s e s' :
  bind m k s = (Err e, s') ->
  m s = (Err e, s') \/ exists a s1, m s = (Ok a, s1) /\ k a s1 = (Err e, s').
Proof. unfold bind. destruct (m s) as [[a | e1] s1]; intros H; [right; eauto | left; congruence]. Qed.

Lemma bind_eq {S A B} (m : st S A) (k : A -> st S B) s a s1 :
  m s = (Ok a, s1) -> bind m k s = k a s1.
Proof. unfold bind. intros ->. reflexivity. Qed.

Lemma bind_eq_err {S A B} (m : st S A) (k : A -> st S B) s e s1 :
  m s = (Err e, s1) -> bind m k s = (Err e, s1).
Proof. unfold bind. intros ->. reflexivity. Qed.

(** Replaces an equation about the success of a sequence by one for each part. *)
Ltac inv_ok H :=
  let a := fresh "a" in let w := fresh "w" in let G := fresh "G" in
  apply bind_ok in H; destruct H as (a & w & G & H).

Lemma for_st_app {S A} (l1 l2 : list A) (f : A -> st S unit) s :
  for_st (l1 ++ l2) f s = (for_st l1 f >> for_st l2 f) s.
Proof.
  revert s; induction l1 as [| x l1 IH]; intros s; [reflexivity |].
  cbn. unfold bind at 1 3. destruct (f x s) as [[[] | e] s1] eqn:E.
  - rewrite IH. unfold bind. rewrite E. reflexivity.
  - unfold bind. rewrite E. reflexivity.
Qed.

Lemma fold_st_app {S A B} (f : B -> A -> st S B) l1 l2 b s :
  fold_st f (l1 ++ l2) b s = (do* b' <- fold_st f l1 b; fold_st f l2 b') s.
Proof.
  revert b s; induction l1 as [| x l1 IH]; intros b s; [reflexivity |].
  cbn. unfold bind. destruct (f b x s) as [[b1 | e] s1]; [| reflexivity].
  rewrite IH. reflexivity.
Qed.

Lemma fold_st_ext {S A B} (f g : B -> A -> st S B) l b s :
  (forall b x s, In x l -> f b x s = g b x s) -> fold_st f l b s = fold_st g l b s.
Proof.
  revert b s; induction l as [| x l IH]; intros b s H; [reflexivity |].
  cbn. unfold bind. rewrite H by (left; reflexivity). destruct (g b x s) as [[b1 | e] s1]; [| reflexivity].
  apply IH. intros; apply H; right; assumption.
Qed.

(** An invariant of a loop *)
Lemma fold_st_inv {S A B} (f : B -> A -> st S B) (Inv : S -> Prop) l :
  (forall b x s, In x l -> Inv s -> Inv (snd (f b x s))) ->
  forall b s, Inv s -> Inv (snd (fold_st f l b s)).
Proof.
  induction l as [| x l IH]; intros H b s I; [exact I |].
  cbn. unfold bind. specialize (H b x s (or_introl eq_refl) I) as H1.
  destruct (f b x s) as [[b1 | e] s1]; [| exact H1].
  apply IH; [intros; apply H; [right |]; assumption | exact H1].
Qed.
Lemma for_st_inv {S A} (f : A -> st S unit) (Inv : S -> Prop) l :
  (forall x s, In x l -> Inv s -> Inv (snd (f x s))) ->
  forall s, Inv s -> Inv (snd (for_st l f s)).
Proof.
  induction l as [| x l IH]; intros H s I; [exact I |].
  cbn. unfold bind. specialize (H x s (or_introl eq_refl) I) as H1.
  destruct (f x s) as [[b1 | e] s1]; [| exact H1].
  apply IH; [intros; apply H; [right |]; assumption | exact H1].
Qed.
Lemma bind_inv {S A B} (m : st S A) (k : A -> st S B) (Inv : S -> Prop) s :
  Inv (snd (m s)) -> (forall a s1, Inv s1 -> Inv (snd (k a s1))) -> Inv (snd (bind m k s)).
Proof. unfold bind. destruct (m s) as [[a | e] s1]; cbn; auto. Qed.

(** ** Chains without eager and pre-serialize marks *)
Definition unmarked (ts : types) : Prop := ~ In MEager ts /\ ~ In MPreserialize ts.

Lemma kind_interp P n m : kind (interp P n m) = kind_of m.
Proof. destruct n; reflexivity. Qed.

Lemma kind_of_eager m : kind_of m = KEager -> m = MEager.
Proof. destruct m; cbn; intros H; try discriminate H; reflexivity. Qed.
Lemma kind_of_pre m : kind_of m = KPreserialize -> m = MPreserialize.
Proof. destruct m; cbn; intros H; try discriminate H; reflexivity. Qed.

Lemma unmarked_idx P n ts k : unmarked ts -> k <> KOther -> first_vidx k (map (interp P n) ts) = None.
Proof.
  intros [He Hp] Hk. induction ts as [| m ts IH]; [reflexivity |].
  cbn [map first_vidx]. rewrite kind_interp.
  destruct (kind_eqb (kind_of m) k) eqn:E.
  - apply kind_eqb_eq in E. exfalso. destruct k; [| | contradiction].
    + apply kind_of_eager in E. apply He. left. exact E.
    + apply kind_of_pre in E. apply Hp. left. exact E.
  - rewrite IH; [reflexivity | |]; intros H; [apply He | apply Hp]; right; exact H.
Qed.

Lemma unmarked_rev ts : unmarked ts -> unmarked (rev ts).
Proof. intros [H1 H2]. split; rewrite <- in_rev; assumption. Qed.

Lemma unmarked_tvs P n ts : unmarked ts -> tvs (map (interp P n) ts) = [].
Proof.
  intros H. unfold tvs, levidx, last_vidx. rewrite <- map_rev.
  rewrite unmarked_idx; [reflexivity | apply unmarked_rev, H | discriminate].
Qed.
Lemma unmarked_pvs P n ts : unmarked ts -> pvs (map (interp P n) ts) = [].
Proof. intros H. unfold pvs, fpvidx. rewrite unmarked_idx; [reflexivity | exact H | discriminate]. Qed.
Lemma unmarked_nvs P n ts : unmarked ts -> nvs (map (interp P n) ts) = map (interp P n) ts.
Proof.
  intros H. unfold nvs, levidx, fpvidx, last_vidx. rewrite <- map_rev.
  rewrite !unmarked_idx; try discriminate; [| apply unmarked_rev, H | exact H].
  cbn. rewrite Nat.sub_0_r. apply firstn_all.
Qed.

Lemma unmarked_transform P n ts c :
  unmarked ts -> t_transform (interp P n) ts c
  = bind (ret (c_val c)) (fold_st (fun val v => m_transform v (nval c val)) (map (interp P n) ts)).
Proof.
  intros H. unfold t_transform, chain_transform. rewrite unmarked_tvs, unmarked_nvs by exact H. reflexivity.
Qed.

Lemma nval_val c : nval c (c_val c) = c.
Proof. destruct c; reflexivity. Qed.
Lemma nval_nval c v v' : nval (nval c v) v' = nval c v'.
Proof. reflexivity. Qed.
