(** OUtilsProofs.v -- lemmas for C06. *)
From Verif Require Import Base KeypathModel KeypathProofs OUtilsModel OUtilsSpec.
Open Scope Z_scope.

Section Trees.
  Context {O A : Type}.
  Notation tr := (tree O A).

  (** Induction over nested trees. *)
  Fixpoint tree_rect' (P : tr -> Prop)
    (Hl : forall a, P (TLeaf a))
    (HL : forall lab xs, Forall P xs -> P (TList lab xs))
    (HD : forall lab kvs, Forall (fun kv => P (snd kv)) kvs -> P (TDict lab kvs))
    (t : tr) : P t :=
    match t with
    | TLeaf a => Hl a
    | TList lab xs =>
        HL lab xs ((fix go xs : Forall P xs :=
                      match xs with
                      | [] => Forall_nil _
                      | x :: r => Forall_cons _ (tree_rect' P Hl HL HD x) (go r)
                      end) xs)
    | TDict lab kvs =>
        HD lab kvs ((fix go kvs : Forall (fun kv => P (snd kv)) kvs :=
                       match kvs with
                       | [] => Forall_nil _
                       | kv :: r => Forall_cons _ (tree_rect' P Hl HL HD (snd kv)) (go r)
                       end) kvs)
    end.

  Definition own_list (o : O) (kp : string) : Z -> list tr -> list tr :=
    fix go (i : Z) (xs : list tr) : list tr :=
      match xs with
      | [] => []
      | x :: r => own o (concat_keypath [KStr kp; KInt i]) x :: go (i + 1) r
      end.
  Definition own_dict (o : O) (kp : string) : list (karg * tr) -> list (karg * tr) :=
    fix go (kvs : list (karg * tr)) : list (karg * tr) :=
      match kvs with
      | [] => []
      | (k, x) :: r => (k, own o (concat_keypath [KStr kp; k]) x) :: go r
      end.

  Lemma own_TList o kp lab xs : own o kp (TList lab xs) = TList (Some (o, kp)) (own_list o kp 0 xs).
  Proof. reflexivity. Qed.
  Lemma own_TDict o kp lab kvs : own o kp (TDict lab kvs) = TDict (Some (o, kp)) (own_dict o kp kvs).
  Proof. reflexivity. Qed.

  Lemma own_same (o : O) (t : tr) : forall kp, same_content t (own o kp t).
  Proof.
    induction t as [a|lab xs IH|lab kvs IH] using tree_rect'; intros kp.
    - constructor.
    - rewrite own_TList. constructor. generalize 0. induction IH as [|x xs Hx _ IH']; intros i; simpl; constructor; [apply Hx|apply IH'].
    - rewrite own_TDict. constructor.
      induction IH as [|[k x] kvs Hx _ IH']; simpl; constructor; [split; [reflexivity|apply Hx]|apply IH'].
  Qed.

  Lemma unown_same (t : tr) : same_content t (unown t).
  Proof.
    induction t as [a|lab xs IH|lab kvs IH] using tree_rect'; simpl; constructor.
    - induction IH as [|x xs Hx _ IH']; simpl; constructor; auto.
    - induction IH as [|[k x] kvs Hx _ IH']; simpl; constructor; [split; [reflexivity|apply Hx]|apply IH'].
  Qed.

  Lemma own_list_nth o kp i xs n :
    nth_error (own_list o kp i xs) n =
    match nth_error xs n with
    | Some x => Some (own o (concat_keypath [KStr kp; KInt (i + Z.of_nat n)]) x)
    | None => None
    end.
  Proof.
    revert i n; induction xs as [|x xs IH]; intros i n; destruct n as [|n]; simpl; try reflexivity.
    - rewrite Z.add_0_r. reflexivity.
    - rewrite IH. destruct (nth_error xs n); [|reflexivity].
      replace (i + 1 + Z.of_nat n) with (i + Z.pos (Pos.of_succ_nat n)) by lia. reflexivity.
  Qed.

  Lemma own_dict_get o kp kvs k :
    dget karg_eqb k (own_dict o kp kvs) =
    match dget karg_eqb k kvs with
    | Some x => Some (own o (concat_keypath [KStr kp; k]) x)
    | None => None
    end.
  Proof.
    induction kvs as [|[k1 x] kvs IH]; simpl; [reflexivity|].
    destruct (karg_eqb k k1) eqn:E; [|exact IH].
    replace k1 with k; [reflexivity|].
    destruct k as [s|i], k1 as [s1|i1]; simpl in E; try discriminate; f_equal;
      [apply String.eqb_eq|apply Z.eqb_eq]; exact E.
  Qed.

  Lemma concat_step kp k path :
    concat_keypath (KStr (concat_keypath [KStr kp; k]) :: path) = concat_keypath (KStr kp :: k :: path).
  Proof. rewrite (concat_assoc [KStr kp; k] path). reflexivity. Qed.

  Lemma concat_one s : concat_keypath [KStr s] = s.
  Proof. unfold concat_keypath. simpl. destruct s; reflexivity. Qed.

  Lemma own_labels (o : O) path : forall kp (t : tr) node,
    at_path (own o kp t) path = Some node ->
    labelled (Some (o, concat_keypath (KStr kp :: path))) node.
  Proof.
    induction path as [|k path IH]; intros kp t node H.
    - simpl in H. injection H as <-. rewrite concat_one. destruct t; simpl; auto.
    - rewrite <- concat_step. destruct t as [a|lab xs|lab kvs].
      + discriminate.
      + rewrite own_TList in H. cbn [at_path] in H. destruct k as [s|i]; [discriminate|].
        destruct (i <? 0) eqn:E; [discriminate|]. rewrite own_list_nth in H.
        destruct (nth_error xs (Z.to_nat i)) as [x|]; [|discriminate].
        replace (0 + Z.of_nat (Z.to_nat i)) with i in H by lia. apply IH in H. exact H.
      + rewrite own_TDict in H. cbn [at_path] in H. rewrite own_dict_get in H.
        destruct (dget karg_eqb k kvs) as [x|]; [|discriminate]. apply IH in H. exact H.
  Qed.

  Lemma unown_labels path : forall (t : tr) node,
    at_path (unown t) path = Some node -> labelled None node.
  Proof.
    induction path as [|k path IH]; intros t node H.
    - simpl in H. injection H as <-. destruct t; simpl; auto.
    - destruct t as [a|lab xs|lab kvs]; cbn [unown at_path] in H.
      + discriminate.
      + destruct k as [s|i]; [discriminate|]. destruct (i <? 0); [discriminate|].
        rewrite nth_error_map in H. destruct (nth_error xs (Z.to_nat i)) as [x|]; [|discriminate].
        simpl in H. apply IH in H. exact H.
      + assert (G : dget karg_eqb k (map (fun kv : karg * tr => (fst kv, unown (snd kv))) kvs)
                    = option_map unown (dget karg_eqb k kvs)).
        { clear. induction kvs as [|[k1 x] kvs IH]; simpl; [reflexivity|].
          destruct (karg_eqb k k1); [reflexivity|exact IH]. }
        rewrite G in H. destruct (dget karg_eqb k kvs) as [x|]; [|discriminate].
        simpl in H. apply IH in H. exact H.
  Qed.

  (** Ownership changes nothing an unowned copy can see ... *)
  Lemma unown_own (o : O) (t : tr) : forall kp, unown (own o kp t) = unown t.
  Proof.
    induction t as [a|lab xs IH|lab kvs IH] using tree_rect'; intros kp.
    - reflexivity.
    - rewrite own_TList. cbn [unown]. f_equal. generalize 0.
      induction IH as [|x xs Hx _ IH']; intros i; simpl; [reflexivity|].
      rewrite Hx, IH'. reflexivity.
    - rewrite own_TDict. cbn [unown]. f_equal.
      induction IH as [|[k x] kvs Hx _ IH']; simpl; [reflexivity|].
      simpl in Hx. rewrite Hx, IH'. reflexivity.
  Qed.

  (** ... and copying forgets nothing but labels. *)
  Lemma own_unown (o : O) (t : tr) : forall kp, own o kp (unown t) = own o kp t.
  Proof.
    induction t as [a|lab xs IH|lab kvs IH] using tree_rect'; intros kp.
    - reflexivity.
    - cbn [unown]. rewrite !own_TList. f_equal. generalize 0.
      induction IH as [|x xs Hx _ IH']; intros i; simpl; [reflexivity|].
      rewrite Hx, IH'. reflexivity.
    - cbn [unown]. rewrite !own_TDict. f_equal.
      induction IH as [|[k x] kvs Hx _ IH']; simpl; [reflexivity|].
      simpl in Hx. rewrite Hx, IH'. reflexivity.
  Qed.
End Trees.
