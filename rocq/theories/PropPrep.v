(** PropPrep.v -- C103: a save prepares every object in reach. *)
From Verif Require Import Base Mon PyList PyDict KeypathModel Values OGraphModel MGraphModel ChainModel TypesModel ObjModel ObjSpec ObjExample IoModel
  IoBase IoExample OutSpec OnsaveSpec PropOnsave TameSpec TameProofs GraphSpec GraphProofs PropGraph WriteSpec SaveGraphSpec PropSaveGraph PrepSpec PrepProofs.
From Verif Require LeafModel ReachSpec WriteFrame.
Open Scope string_scope.
Open Scope list_scope.

(** Saving runs the on-save setters of every object that the saved object leads to through
    references, embedded objects and lists of them, and all fields of new or modified objects, at every
    distance and whatever cycles there are: a callable [g] is called at least as often as all
    these objects together have fields where it is due. *)
Theorem C103_all_prepared :
  forall (P : program) (n : nat) (o : oid) (g : cbid) (w w' : world) (l : list oid),
    calm P -> tidy P -> ready P w o ->
    set_on_save P n o w = (Ok tt, w') ->
    NoDup l -> (forall x, In x l -> leads_to P w o x) ->
    (saves g w + list_sum (map (dues P w g) l) <= saves g w')%nat.
Proof. intros P n o g w w' l CA TD RD H N L. exact (all_prepared P w o g CA TD RD n w' l H N L). Qed.
Print Assumptions C103_all_prepared.

(** With C56: if the saved object leads to all objects that there are, and the callable is due
    wherever it is attached, then it is called exactly once for each object and each such place. *)
Theorem C103_exactly_once :
  forall (P : program) (D n : nat) (o : oid) (g : cbid) (w w' : world),
    calm P -> tidy P -> ready P w o ->
    gentle P -> plain_keys P -> tame_classes D P -> keys_apart P (w_heap w) -> finite_graph P (w_heap w) ->
    (forall cls d fl m, p_ct P cls = Some d -> In fl (cd_fields d) -> In m (fl_types fl) -> uses D g m -> saves_with g m = true) ->
    (forall cls d fl, p_ct P cls = Some d -> In fl (cd_fields d) -> eager_first (fl_types fl)) ->
    set_on_save P n o w = (Ok tt, w') ->
    (forall x, (x < h_next (w_heap w))%nat -> leads_to P w o x /\ dues P w g x = save_places_at P g (w_heap w) x) ->
    saves g w' = (saves g w + once_for_each P g (w_heap w))%nat.
Proof.
  intros P D n o g w w' CA TD RD G PK T KA F U EF H A. apply Nat.le_antisymm.
  - pose proof (C56_each_object_once P D g w o n G PK T KA F U EF) as X. rewrite H in X. exact X.
  - unfold once_for_each. replace (map (save_places_at P g (w_heap w)) (seq 0 (h_next (w_heap w)))) with (map (dues P w g) (seq 0 (h_next (w_heap w)))).
    + apply (C103_all_prepared P n o g w w' _ CA TD RD H (seq_NoDup _ _)). intros x Hx. apply in_seq in Hx. apply A. lia.
    + apply map_ext_in. intros x Hx. apply in_seq in Hx. apply A. lia.
Qed.
Print Assumptions C103_exactly_once.

(** ** Examples: a user lists two posts that refer to the user, and has an embedded badge *)
Definition f_set : field := mkf "n" "n_id" [tint; MPreserialize; MSetonsave (PCall 4%nat) false].
Definition f_cap : field := mkf "n" "n_id" [tint; MPreserialize; MSetonsave (PCall 4%nat) false; MLeaf (LeafModel.LMax (PVal (VInt 5)))].
Definition f_posts : field := mkf "posts" "post_ids" [MListOf [MInstance "Post"]; MLinkedby "author"].
Definition f_author : field := mkf "author" "author_id" [MInstance "User"; MLinkto].
Definition f_badge : field := mkf "badge" "badge_id" [MInstance "Badge"].
Definition pr_ct (num : field) (c : string) : option cdef :=
  if String.eqb c "User" then Some (mkc "User" [f_id; num; f_posts; f_badge])
  else if String.eqb c "Post" then Some (mkc "Post" [f_id; f_set; f_author])
  else if String.eqb c "Badge" then Some (mkc "Badge" [f_id; f_set]) else None.
Definition pr_prog (num : field) : program := mkprog (pr_ct num) no_guards no_hooks.
Definition with_keys (b : obj) (lk : list (string * string)) : obj :=
  {| o_class := o_class b; o_attr := o_attr b; o_new := o_new b; o_modified := o_modified b; o_mfields := o_mfields b; o_prev := o_prev b;
     o_lkeys := lk; o_raw := o_raw b; o_unlinked := o_unlinked b; o_operator := o_operator b |}.
Definition pr_heap (user_new : bool) : heap :=
  {| h_obj := fun o => match o with
       | 0%nat => on_obj "User" [("id", VInt 65); ("n", VInt 1); ("posts", VList [VObj 1; VObj 2]); ("badge", VObj 3)] user_new false
       | 1%nat => with_keys (on_obj "Post" [("id", VInt 66); ("n", VInt 1); ("author", VObj 0); ("author_id", VInt 65)] true false) [("author_id", "author")]
       | 2%nat => with_keys (on_obj "Post" [("id", VInt 67); ("n", VInt 1); ("author", VObj 0); ("author_id", VInt 65)] true false) [("author_id", "author")]
       | 3%nat => on_obj "Badge" [("id", VInt 68); ("n", VInt 1)] true false
       | _ => on_obj "" [] true false
       end%nat; h_next := 4%nat; h_graph := {| graphs := [[("User", [("65", 0)]); ("Post", [("66", 1); ("67", 2)])]; [] ]%nat; graph_of := fun o => match o with 3%nat => 1%nat | _ => 0%nat end |} |}.
Definition pr_w (user_new : bool) : world := mkw (pr_heap user_new).
Definition f_plain : field := mkf "n" "n_id" [tint].

Lemma pr_class num cls d : p_ct (pr_prog num) cls = Some d ->
  d = mkc "User" [f_id; num; f_posts; f_badge] \/ d = mkc "Post" [f_id; f_set; f_author] \/ d = mkc "Badge" [f_id; f_set].
Proof.
  cbn. unfold pr_ct. destruct (String.eqb cls "User"); [intros H; inversion H; auto |]. destruct (String.eqb cls "Post"); [intros H; inversion H; auto |].
  destruct (String.eqb cls "Badge"); [intros H; inversion H; auto | discriminate].
Qed.
Lemma set_data : data f_set.
Proof. exists 3%nat. intros m Hm. cbn in Hm. repeat (destruct Hm as [<- | Hm]; [intros ts Hts; cbn in Hts; intuition discriminate |]); contradiction. Qed.
Lemma id_carrier : carrier f_id.
Proof. intros m Hm. cbn in Hm. repeat (destruct Hm as [<- | Hm]; [apply pass_idle; reflexivity |]); contradiction. Qed.
Lemma plain_carrier : carrier f_plain.
Proof. intros m Hm. cbn in Hm. repeat (destruct Hm as [<- | Hm]; [apply pass_idle; reflexivity |]); contradiction. Qed.
Lemma posts_carrier : carrier f_posts.
Proof. intros m [<- | [<- | []]]; [apply pass_list; intros m [<- | []]; apply pass_object | apply pass_idle; reflexivity]. Qed.
Lemma author_carrier : carrier f_author.
Proof. intros m [<- | [<- | []]]; [apply pass_object | apply pass_idle; reflexivity]. Qed.
Lemma badge_carrier : carrier f_badge.
Proof. intros m [<- | []]. apply pass_object. Qed.
Lemma pr_tidy : tidy (pr_prog f_plain).
Proof.
  constructor.
  - intros cls d H. apply pr_class in H. destruct H as [-> | [-> | ->]]; cbn; repeat constructor; cbn; intuition discriminate.
  - intros cls d f H Hf _. apply pr_class in H. destruct H as [-> | [-> | ->]]; cbn in Hf;
      repeat (destruct Hf as [<- | Hf]; [first [left; first [apply id_carrier | apply plain_carrier | apply posts_carrier | apply author_carrier | apply badge_carrier] | right; split; [reflexivity | apply set_data]] |]); contradiction.
  - intros cls d f H Hp. apply pr_class in H. destruct H as [-> | [-> | ->]]; vm_compute in Hp; inversion Hp; subst f;
      (split; [reflexivity |]; intros m Hm; cbn in Hm; repeat (destruct Hm as [<- | Hm]; [reflexivity |]); contradiction).
Qed.
Lemma pr_ready : ready (pr_prog f_plain) (pr_w false) 0%nat.
Proof.
  constructor.
  - intros x y k E Kx Ky. do 4 (destruct x as [| x]; [do 4 (destruct y as [| y]; [first [reflexivity | discriminate E | vm_compute in Kx, Ky; congruence] |]); discriminate E |]).
    discriminate Kx.
  - intros x f (d & Hd & Hf). apply pr_class in Hd. do 4 (destruct x as [| x]; [destruct Hd as [-> | [-> | ->]]; cbn in Hf;
      repeat (destruct Hf as [<- | Hf]; [reflexivity |]); contradiction |]). reflexivity.
  - intros x f v (d & Hd & Hf) R A h'. apply pr_class in Hd.
    do 4 (destruct x as [| x]; [destruct Hd as [-> | [-> | ->]]; cbn in Hf;
      repeat (destruct Hf as [<- | Hf]; [try discriminate R; vm_compute in A; inversion A; reflexivity |]); contradiction |]).
    discriminate A.
  - intros f cls (d & Hd & Hf) R. cbn in Hd. inversion Hd; subst d. cbn in Hf.
    repeat (destruct Hf as [<- | Hf]; [try discriminate R; cbn; intuition discriminate |]). contradiction.
Qed.
Lemma pr_leads x : In x [0; 1; 2; 3]%nat -> leads_to (pr_prog f_plain) (pr_w false) 0%nat x.
Proof.
  assert (D : p_ct (pr_prog f_plain) (o_class (h_obj (w_heap (pr_w false)) 0%nat)) = Some (mkc "User" [f_id; f_plain; f_posts; f_badge])) by reflexivity.
  assert (L : forall y, In y [1; 2]%nat -> leads (pr_prog f_plain) (pr_w false) 0%nat y).
  { intros y Hy. exists f_posts, (VList [VObj 1%nat; VObj 2%nat]). split; [exists (mkc "User" [f_id; f_plain; f_posts; f_badge]); split; [exact D | cbn; auto] |].
    split; [reflexivity |]. split; [left; reflexivity |]. split; [apply posts_carrier |]. split; [reflexivity |].
    apply carried_list with [MInstance "Post"] [MInstance "Post"] (VObj y); [left; reflexivity | exists [], (MListOf [MInstance "Post"]), [MLinkedby "author"]; split; [reflexivity |]; split; [left; reflexivity | intros z [<- | []]; exact Logic.I] | |].
    - destruct Hy as [<- | [<- | []]]; cbn; auto.
    - apply carried_obj with "Post". left. reflexivity. }
  assert (L3 : leads (pr_prog f_plain) (pr_w false) 0%nat 3%nat).
  { exists f_badge, (VObj 3%nat). split; [exists (mkc "User" [f_id; f_plain; f_posts; f_badge]); split; [exact D | cbn; auto] |].
    split; [reflexivity |]. split; [right; left; reflexivity |]. split; [apply badge_carrier |]. split; [reflexivity |].
    apply carried_obj with "Badge". left. reflexivity. }
  intros [<- | [<- | [<- | [<- | []]]]]; [apply lt_self | apply lt_step with 0%nat; [apply lt_self | apply L; cbn; auto] .. | apply lt_step with 0%nat; [apply lt_self | exact L3]].
Qed.
(** The user is saved and not modified; the posts and the badge are new, and are prepared. *)
Example C103_user_saved : forall n w', set_on_save (pr_prog f_plain) n 0%nat (pr_w false) = (Ok tt, w') -> (3 <= saves 4%nat w')%nat.
Proof.
  intros n w' H. change 3%nat with (saves 4%nat (pr_w false) + list_sum (map (dues (pr_prog f_plain) (pr_w false) 4%nat) [0; 1; 2; 3]))%nat.
  apply (C103_all_prepared (pr_prog f_plain) n 0%nat 4%nat (pr_w false) w').
  - intros f c args h. apply mkprog_calm.
  - apply pr_tidy.
  - apply pr_ready.
  - exact H.
  - repeat constructor; cbn; intuition discriminate.
  - intros x Hx. apply pr_leads, Hx.
Qed.
Example C103_user_saved_met :
  let s := set_on_save (pr_prog f_plain) 20 0%nat (pr_w false) in fst s = Ok tt /\ saves 4%nat (snd s) = 3%nat.
Proof. vm_compute. split; reflexivity. Qed.

Lemma pr_fields cls d f : p_ct (pr_prog f_plain) cls = Some d -> In f (cd_fields d) -> In f [f_id; f_plain; f_posts; f_badge; f_set; f_author].
Proof. intros H Hf. apply pr_class in H. destruct H as [-> | [-> | ->]]; cbn in Hf |- *; intuition. Qed.
Lemma pr_key k : key_name (pr_prog f_plain) k -> k = "id".
Proof. intros (cls & d & f & Hc & Hp & <-). apply pr_class in Hc. destruct Hc as [-> | [-> | ->]]; vm_compute in Hp; inversion Hp; reflexivity. Qed.
Lemma pr_plain_keys : plain_keys (pr_prog f_plain).
Proof.
  split.
  - apply pr_tidy.
  - intros cls d f Hc Hp. apply (td_key _ pr_tidy cls d f Hc Hp).
  - intros cls d f m Hc Hp. apply (td_key _ pr_tidy cls d f Hc Hp).
  - intros k Hk. apply pr_key in Hk. subst k. apply WriteFrame.own_data; intros cls d g Hc Hg; apply (pr_fields cls d g Hc) in Hg; cbn in Hg;
      repeat (destruct Hg as [<- | Hg]; [intros E; vm_compute in E; try discriminate E; reflexivity |]); contradiction.
Qed.
Lemma pr_apart : keys_apart (pr_prog f_plain) (pr_heap false).
Proof.
  intros x k Hk. apply pr_key in Hk. subst k.
  do 4 (destruct x as [| x]; [split; [reflexivity | intros lab; cbn; try discriminate; destruct (String.eqb lab "author_id"); discriminate] |]). split; [reflexivity | intros lab; discriminate].
Qed.
Lemma pr_finite : finite_graph (pr_prog f_plain) (pr_heap false).
Proof. intros o H. do 4 (destruct o as [| o]; [cbn; lia |]). exfalso. apply H. reflexivity. Qed.
Lemma pr_tame : tame_classes 3 (pr_prog f_plain).
Proof.
  intros cls c f m Hc Hf Hm. apply tame_b. apply (pr_fields cls c f Hc) in Hf. cbn in Hf.
  repeat (destruct Hf as [<- | Hf];
    [cbn in Hm; repeat (destruct Hm as [<- | Hm]; [reflexivity |]); contradiction |]).
  contradiction.
Qed.
(** The posts and the badge are prepared once each, on every save that does not raise. *)
Example C103_user_saved_once : forall n w', set_on_save (pr_prog f_plain) n 0%nat (pr_w false) = (Ok tt, w') -> saves 4%nat w' = 3%nat.
Proof.
  intros n w' H. change 3%nat with (saves 4%nat (pr_w false) + once_for_each (pr_prog f_plain) 4%nat (w_heap (pr_w false)))%nat.
  apply (C103_exactly_once (pr_prog f_plain) 3 n 0%nat 4%nat (pr_w false) w'); [apply mkprog_calm | apply pr_tidy | apply pr_ready | apply mkprog_gentle |
    apply pr_plain_keys | apply pr_tame | apply pr_apart | apply pr_finite | | | exact H |].
  - intros cls d fl m Hc Hf Hm Hu. apply (pr_fields cls d fl Hc) in Hf. apply uses_b in Hu. cbn in Hf.
    repeat (destruct Hf as [<- | Hf];
      [cbn in Hm; repeat (destruct Hm as [<- | Hm]; [first [reflexivity | vm_compute in Hu; discriminate Hu] |]); contradiction |]).
    contradiction.
  - intros cls d fl Hc Hf pre post E M. apply (pr_fields cls d fl Hc) in Hf.
    assert (X : In MEager (fl_types fl)) by (rewrite E; apply in_or_app; right; right; exact M).
    cbn in Hf. repeat (destruct Hf as [<- | Hf]; [cbn in X; repeat (destruct X as [X | X]; [discriminate X |]); contradiction |]). contradiction.
  - intros x Hx. cbn in Hx. do 4 (destruct x as [| x]; [split; [apply pr_leads; cbn; auto | reflexivity] |]). lia.
Qed.

(** ** Exceptions *)
(** A document that is not modified has a list of lists of pages, with a new page in it: the page
    is not prepared, although it is where it stands in a list of pages. *)
Definition doc_ct (ts : types) (c : string) : option cdef :=
  if String.eqb c "Doc" then Some (mkc "Doc" [f_id; mkf "pages" "pages_ids" [MListOf ts]])
  else if String.eqb c "Page" then Some (mkc "Page" [f_id; f_set]) else None.
Definition doc_heap (v : value) : heap :=
  {| h_obj := fun o => match o with
       | 0%nat => on_obj "Doc" [("id", VInt 65); ("pages", VList [v])] false false
       | _ => on_obj "Page" [("id", VInt 66); ("n", VInt 1)] true false end; h_next := 2%nat; h_graph := h_graph (ex_heap true) |}.
Theorem C103_list_of_lists_refuted :
  (let s := set_on_save (mkprog (doc_ct [MListOf [MInstance "Page"]]) no_guards no_hooks) 20 0%nat (mkw (doc_heap (VList [VObj 1%nat]))) in
   fst s = Ok tt /\ w_log (snd s) = []) /\
  (let s := set_on_save (mkprog (doc_ct [MInstance "Page"]) no_guards no_hooks) 20 0%nat (mkw (doc_heap (VObj 1%nat))) in
   fst s = Ok tt /\ w_log (snd s) = [EvCall KSave 4%nat]).
Proof. vm_compute. repeat split; reflexivity. Qed.
Print Assumptions C103_list_of_lists_refuted.

(** Saving a post whose author has a number that is set on save: the number passes through the
    post's reference, so that the author's list of posts has another order afterwards. *)
Theorem C103_order_of_others_refuted :
  let s := set_on_save (pr_prog f_set) 20 1%nat (pr_w true) in
  fst s = Ok tt /\
  attr (w_heap (pr_w true)) 0%nat "posts" = Some (VList [VObj 1; VObj 2])%nat /\
  attr (w_heap (snd s)) 0%nat "posts" = Some (VList [VObj 2; VObj 1])%nat /\
  attr (w_heap (snd s)) 1%nat "author" = Some (VObj 0%nat).
Proof. vm_compute. repeat split; reflexivity. Qed.
Print Assumptions C103_order_of_others_refuted.

(** If the author's number is then refused, the post is left with the number as its author, and
    is gone from the author's list. *)
Theorem C103_number_for_author_refuted :
  let s := set_on_save (pr_prog f_cap) 20 1%nat (pr_w true) in
  (exists e, fst s = Err e) /\
  attr (w_heap (snd s)) 1%nat "author" = Some (VInt 7) /\
  attr (w_heap (snd s)) 0%nat "posts" = Some (VList [VObj 2%nat]).
Proof. vm_compute. split; [eexists; reflexivity |]. split; reflexivity. Qed.
Print Assumptions C103_number_for_author_refuted.
