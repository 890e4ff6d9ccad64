(** KeypathProofs.v -- lemmas for C01 and C02. *)
From Coq Require Import DecimalString Decimal.
From Verif Require Import Base KeypathModel KeypathSpec.
Open Scope list_scope.

Definition no_char (p : ascii -> bool) (s : string) : Prop :=
  forall c, In c (list_ascii_of_string s) -> p c = false.

Lemma no_char_nil p : no_char p EmptyString.
Proof. intros c []. Qed.

Lemma no_char_cons p c s : p c = false -> no_char p s -> no_char p (String c s).
Proof. intros H1 H2 d [<-|H]; auto. Qed.

Lemma no_char_inv p c s : no_char p (String c s) -> p c = false /\ no_char p s.
Proof. intros H. split; [apply H; left; reflexivity|]. intros d Hd. apply H; right; exact Hd. Qed.

Lemma plain_no_sep s : plain s <-> no_char is_sep s.
Proof.
  unfold plain, occurs, no_char, is_sep. split.
  - intros (H1 & H2 & H3) c Hc.
    destruct (Ascii.eqb c ".") eqn:E1; [apply Ascii.eqb_eq in E1; subst; contradiction|].
    destruct (Ascii.eqb c "[") eqn:E2; [apply Ascii.eqb_eq in E2; subst; contradiction|].
    destruct (Ascii.eqb c "]") eqn:E3; [apply Ascii.eqb_eq in E3; subst; contradiction|].
    reflexivity.
  - intros H. repeat split; intros Hc; apply H in Hc; vm_compute in Hc; discriminate.
Qed.

Lemma no_sep_no_dot s : no_char is_sep s -> no_char is_dot s.
Proof.
  intros H c Hc. apply H in Hc. unfold is_sep in Hc. unfold is_dot.
  destruct (Ascii.eqb c "."); [discriminate|reflexivity].
Qed.

Lemma has_sep_spec s : has_sep s = false <-> no_char is_sep s.
Proof.
  induction s as [|c s IH]; simpl.
  - split; [intros _; apply no_char_nil|reflexivity].
  - rewrite orb_false_iff, IH. split.
    + intros [H1 H2]. apply no_char_cons; auto.
    + apply no_char_inv.
Qed.

(** Splitting a concatenation *)
Lemma split_on_nonnil p s : split_on p s <> [].
Proof. destruct s as [|c s]; simpl; [discriminate|]. destruct (p c); [discriminate|]. destruct (split_on p s); discriminate. Qed.

Lemma split_on_app p s t :
  split_on p (s ++ t) =
  removelast (split_on p s) ++
    match split_on p t with
    | [] => []
    | y :: r => (last (split_on p s) EmptyString ++ y)%string :: r
    end.
Proof.
  induction s as [|c s IH]; cbn [split_on String.append].
  - cbn [removelast last app]. pose proof (split_on_nonnil p t). destruct (split_on p t); [contradiction|reflexivity].
  - pose proof (split_on_nonnil p s) as Hn. pose proof (split_on_nonnil p t) as Hnt.
    destruct (p c) eqn:E.
    + rewrite IH. cbn [removelast last]. destruct (split_on p s) as [|x r]; [contradiction|].
      reflexivity.
    + rewrite IH. destruct (split_on p s) as [|x r]; [contradiction|].
      destruct (split_on p t) as [|y q]; [contradiction|].
      destruct r as [|x2 r]; [reflexivity|]. reflexivity.
Qed.

Lemma split_on_plain p s : no_char p s -> split_on p s = [s].
Proof.
  induction s as [|c s IH]; intros H; simpl; [reflexivity|].
  apply no_char_inv in H. destruct H as [H1 H2]. rewrite H1, (IH H2). reflexivity.
Qed.

Lemma split_on_sep p c s t : p c = true ->
  split_on p (s ++ String c t) = split_on p s ++ split_on p t.
Proof.
  intros H. rewrite split_on_app. cbn [split_on]. rewrite H.
  pose proof (split_on_nonnil p s) as Hn.
  replace (last (split_on p s) EmptyString ++ EmptyString)%string with (last (split_on p s) EmptyString).
  2: { generalize (last (split_on p s) EmptyString). intros u. induction u as [|d u IH]; simpl; congruence. }
  rewrite (app_removelast_last EmptyString Hn) at 3. rewrite <- app_assoc. reflexivity.
Qed.

Lemma split_join p c l : p c = true -> l <> [] ->
  split_on p (join (String c EmptyString) l) = flat_map (split_on p) l.
Proof.
  intros Hc. induction l as [|x l IH]; intros Hl; [contradiction|].
  destruct l as [|y l].
  - cbn [join flat_map]. rewrite app_nil_r. reflexivity.
  - cbn [flat_map]. cbn [flat_map] in IH. rewrite <- IH by discriminate.
    change (join (String c EmptyString) (x :: y :: l))
      with (x ++ String c (join (String c EmptyString) (y :: l)))%string.
    apply split_on_sep. exact Hc.
Qed.

Lemma split_join_plain p c l : p c = true -> l <> [] -> Forall (no_char p) l ->
  split_on p (join (String c EmptyString) l) = l.
Proof.
  intros Hc Hl Hf. rewrite split_join by assumption. clear Hl.
  induction Hf as [|x l Hx _ IH]; simpl; [reflexivity|].
  rewrite split_on_plain by exact Hx. simpl. f_equal. exact IH.
Qed.

Lemma filter_all {A} (f : A -> bool) l : Forall (fun x => f x = true) l -> filter f l = l.
Proof. induction 1 as [|x l Hx _ IH]; simpl; [reflexivity|]. rewrite Hx, IH. reflexivity. Qed.

Lemma filter_idem {A} (f : A -> bool) l : filter f (filter f l) = filter f l.
Proof. apply filter_all. apply Forall_forall. intros x Hx. apply filter_In in Hx. tauto. Qed.

Lemma filter_flat_map {A B} (f : B -> bool) (g : A -> list B) l :
  filter f (flat_map g l) = flat_map (fun x => filter f (g x)) l.
Proof. induction l as [|x l IH]; simpl; [reflexivity|]. rewrite filter_app, IH. reflexivity. Qed.

Lemma flat_map_split_filter l :
  flat_map keypath_split (filter nonempty l) = flat_map keypath_split l.
Proof.
  induction l as [|x l IH]; simpl; [reflexivity|].
  destruct (nonempty x) eqn:E; simpl; rewrite IH; [reflexivity|].
  destruct x; [reflexivity|discriminate].
Qed.

(** The parts of a concatenation are the parts of its arguments, for all arguments. *)
Lemma split_concat args :
  keypath_split (concat_keypath args) = flat_map (fun a => keypath_split (str_of_karg a)) args.
Proof.
  unfold concat_keypath.
  assert (H : flat_map (fun a => keypath_split (str_of_karg a)) args
              = flat_map keypath_split (filter nonempty (map str_of_karg args))).
  { rewrite flat_map_split_filter. induction args as [|a args IH]; simpl; [reflexivity|].
    rewrite IH. reflexivity. }
  rewrite H. clear H. generalize (filter nonempty (map str_of_karg args)). clear args. intros l.
  destruct l as [|x l]; [reflexivity|].
  unfold keypath_split. rewrite (split_join is_sep "."); [|reflexivity|discriminate].
  apply filter_flat_map.
Qed.

Lemma split_good s : good_key s -> keypath_split s = [s].
Proof.
  intros [Hne Hp]. apply plain_no_sep in Hp. unfold keypath_split. rewrite split_on_plain by exact Hp.
  destruct s; [contradiction|reflexivity].
Qed.

Lemma split_concat_good args : Forall (fun a => good_key (str_of_karg a)) args ->
  keypath_split (concat_keypath args) = map str_of_karg args.
Proof.
  intros H. rewrite split_concat. induction H as [|a args Ha _ IH]; simpl; [reflexivity|].
  rewrite split_good by exact Ha. simpl. f_equal. exact IH.
Qed.

(** Ints always print as good keys. *)
Lemma uint_chars u c : In c (list_ascii_of_string (NilEmpty.string_of_uint u)) -> is_sep c = false.
Proof.
  induction u as [|u IH|u IH|u IH|u IH|u IH|u IH|u IH|u IH|u IH|u IH]; simpl; [tauto|..];
    (intros [<-|H]; [reflexivity|auto]).
Qed.

Lemma nilzero_chars u c : In c (list_ascii_of_string (NilZero.string_of_uint u)) -> is_sep c = false.
Proof.
  destruct u; try exact (uint_chars _ c). simpl. intros [<-|[]]. reflexivity.
Qed.

Lemma nilzero_nonempty u : NilZero.string_of_uint u <> EmptyString.
Proof. destruct u; discriminate. Qed.

Lemma int_good z : good_key (string_of_Z z).
Proof.
  unfold string_of_Z. destruct (Z.to_int z) as [u|u]; simpl; split.
  - apply nilzero_nonempty.
  - apply plain_no_sep. intros c. apply nilzero_chars.
  - discriminate.
  - apply plain_no_sep. intros c [<-|H]; [reflexivity|]. exact (nilzero_chars u c H).
Qed.

Lemma split_components s : Forall good_key (keypath_split s).
Proof.
  apply Forall_forall. intros k Hk. unfold keypath_split in Hk. apply filter_In in Hk.
  destruct Hk as [Hin Hne]. split.
  - intros ->. discriminate.
  - apply plain_no_sep. clear Hne. revert k Hin.
    induction s as [|c s IH]; simpl; intros k Hin.
    + destruct Hin as [<-|[]]. apply no_char_nil.
    + destruct (is_sep c) eqn:E.
      * destruct Hin as [<-|Hin]; [apply no_char_nil|auto].
      * pose proof (split_on_nonnil is_sep s). destruct (split_on is_sep s) as [|x r]; [contradiction|].
        destruct Hin as [<-|Hin]; [apply no_char_cons; [exact E|]; apply IH; left; reflexivity|].
        apply IH; right; exact Hin.
Qed.

Lemma concat_good_join args : Forall (fun a => good_key (str_of_karg a)) args ->
  concat_keypath args = join "." (map str_of_karg args).
Proof.
  intros H. unfold concat_keypath. f_equal. apply filter_all.
  induction H as [|a args [Ha _] _ IH]; constructor; [|exact IH].
  destruct (str_of_karg a); [contradiction|reflexivity].
Qed.

Lemma good_no_dot args : Forall (fun a => good_key (str_of_karg a)) args ->
  Forall (no_char is_dot) (map str_of_karg args).
Proof.
  induction 1 as [|a args [_ Ha] _ IH]; simpl; constructor; [|exact IH].
  apply no_sep_no_dot, plain_no_sep, Ha.
Qed.

Lemma initial_concat a args : Forall (fun a => good_key (str_of_karg a)) (a :: args) ->
  initial_keypath (concat_keypath (a :: args)) = str_of_karg a.
Proof.
  intros H. rewrite concat_good_join by exact H. unfold initial_keypath.
  rewrite (split_join_plain is_dot "."); [reflexivity|reflexivity|discriminate|].
  apply good_no_dot. exact H.
Qed.

Lemma drop_last_concat args a : Forall (fun a => good_key (str_of_karg a)) (args ++ [a]) ->
  keypath_drop_last (concat_keypath (args ++ [a])) = concat_keypath args.
Proof.
  intros H. assert (Ha : Forall (fun a => good_key (str_of_karg a)) args) by (apply Forall_app in H; tauto).
  rewrite concat_good_join by exact H. unfold keypath_drop_last.
  rewrite (split_join_plain is_dot "."); [|reflexivity| |].
  - rewrite map_app. rewrite removelast_app by discriminate. simpl. rewrite app_nil_r.
    symmetry. apply concat_good_join. exact Ha.
  - rewrite map_app. intros E. apply app_eq_nil in E. destruct E; discriminate.
  - apply good_no_dot. exact H.
Qed.

(** Concatenation is associative, whatever the parts are. *)
Lemma append_nonempty_l s t : nonempty s = true -> nonempty (s ++ t)%string = true.
Proof. destruct s; [discriminate|reflexivity]. Qed.

Lemma join_nonempty sep l : Forall (fun x => nonempty x = true) l -> l <> [] ->
  nonempty (join sep l) = true.
Proof.
  intros H Hl. destruct H as [|x l Hx Hr]; [contradiction|].
  destruct l; [exact Hx|]. cbn [join]. apply append_nonempty_l. exact Hx.
Qed.

Lemma string_app_assoc (s t u : string) : ((s ++ t) ++ u = s ++ (t ++ u))%string.
Proof. induction s as [|c s IH]; simpl; [reflexivity|]. rewrite IH. reflexivity. Qed.

Lemma join_app sep l1 l2 : l1 <> [] -> l2 <> [] ->
  join sep (l1 ++ l2) = (join sep l1 ++ sep ++ join sep l2)%string.
Proof.
  induction l1 as [|x l1 IH]; intros H1 H2; [contradiction|].
  destruct l1 as [|y l1].
  - destruct l2 as [|z l2]; [contradiction|]. reflexivity.
  - change (join sep ((x :: y :: l1) ++ l2)) with (x ++ sep ++ join sep ((y :: l1) ++ l2))%string.
    rewrite IH by (try discriminate; assumption).
    change (join sep (x :: y :: l1)) with (x ++ sep ++ join sep (y :: l1))%string.
    rewrite !string_app_assoc. reflexivity.
Qed.

Lemma concat_assoc args1 args2 :
  concat_keypath (KStr (concat_keypath args1) :: args2) = concat_keypath (args1 ++ args2).
Proof.
  unfold concat_keypath. rewrite map_app, filter_app. cbn [map str_of_karg filter].
  set (l1 := filter nonempty (map str_of_karg args1)).
  set (l2 := filter nonempty (map str_of_karg args2)).
  assert (H1 : Forall (fun x => nonempty x = true) l1).
  { apply Forall_forall. intros x Hx. apply filter_In in Hx. tauto. }
  clearbody l1 l2.
  destruct l1 as [|x l1]; [reflexivity|].
  rewrite (join_nonempty "." (x :: l1)) by (try discriminate; assumption).
  destruct l2 as [|y l2].
  - rewrite app_nil_r. reflexivity.
  - rewrite join_app by discriminate. reflexivity.
Qed.

(** C02 *)
Lemma key_args_partition {V} (kwargs : list (string * V)) :
  interleaved (single_key_args kwargs) (compound_key_args kwargs) kwargs /\
  Forall (fun kv => plain (fst kv)) (single_key_args kwargs) /\
  Forall (fun kv => ~ plain (fst kv)) (compound_key_args kwargs).
Proof.
  unfold single_key_args, compound_key_args. split; [|split].
  - induction kwargs as [|kv kwargs IH]; simpl; [constructor|].
    destruct (has_sep (fst kv)); simpl; constructor; exact IH.
  - apply Forall_forall. intros kv H. apply filter_In in H. destruct H as [_ H].
    apply plain_no_sep, has_sep_spec. destruct (has_sep (fst kv)); [discriminate|reflexivity].
  - apply Forall_forall. intros kv H. apply filter_In in H. destruct H as [_ H].
    rewrite plain_no_sep, <- has_sep_spec. congruence.
Qed.

(** The initial components of a set of keypaths. *)
Lemma initial_keypaths_in kps k :
  In k (initial_keypaths kps) <-> exists kp, In kp kps /\ initial_keypath kp = k.
Proof.
  unfold initial_keypaths. rewrite nodup_In, in_map_iff. split; intros (x & H1 & H2); exists x; auto.
Qed.
