(** PropUpdate.v -- C29: update checks all names first, then assigns in order whatever the
    write rules. *)
From Verif Require Import Base Mon PyDict KeypathModel Values OGraphModel TypesModel ObjModel ObjSpec ObjTrack ObjExample IoModel
  IoBase IoExample ValidateSpec UpdateSpec UpdateProofs.
From Verif Require LeafModel.
Open Scope string_scope.
Open Scope list_scope.

(** One unknown name among the arguments: an error, and nothing at all has changed. *)
Theorem C29_unknown_name :
  forall (P : program) (o : oid) (d : cdef) (kwargs : list (string * value)) (w : world),
    p_ct P (wclass w o) = Some d ->
    (exists k v, In (k, v) kwargs /\ ~ known_name d k) ->
    update P o kwargs w = (Err EValueError, w).
Proof.
  intros P o d kwargs w D (k & v & I & N). unfold update, bind, getW.
  assert (E : wcdef P w o = d) by (unfold wcdef, cdef_of; unfold wclass, wobj in D; rewrite D; reflexivity).
  rewrite E.
  assert (X : existsb (fun kv => negb (sinb (fst kv) (update_names d))) kwargs = true).
  { apply existsb_exists. exists (k, v). split; [exact I |]. cbn. destruct (sinb k (update_names d)) eqn:S; [| reflexivity].
    exfalso. apply N, known_names, S. }
  rewrite X. reflexivity.
Qed.
Print Assumptions C29_unknown_name.

(** All names known: the values are assigned in order, and that is all. *)
Theorem C29_assigns_in_order :
  forall (P : program) (o : oid) (d : cdef) (kwargs : list (string * value)) (w : world) (r : res unit) (w' : world),
    p_ct P (wclass w o) = Some d ->
    (forall k v, In (k, v) kwargs -> known_name d k) ->
    (update P o kwargs w = (r, w') <-> assigns P o kwargs w r w').
Proof.
  intros P o d kwargs w r w' D K. unfold update, bind, getW.
  assert (E : wcdef P w o = d) by (unfold wcdef, cdef_of; unfold wclass, wobj in D; rewrite D; reflexivity).
  rewrite E.
  assert (X : existsb (fun kv => negb (sinb (fst kv) (update_names d))) kwargs = false).
  { destruct (existsb _ kwargs) eqn:X; [| reflexivity]. apply existsb_exists in X.
    destruct X as ((k & v) & I & N). cbn in N. rewrite (proj2 (known_names d k) (K k v I)) in N. discriminate N. }
  rewrite X. clear - w. revert w. induction kwargs as [| (k & v) l IH]; intros w; cbn [for_st].
  - split; [intros H; injection H as <- <-; constructor | intros H; inversion H; reflexivity].
  - cbn [fst snd]. split.
    + unfold bind. destruct (setattr P o k v w) as [[[] | e] w1] eqn:S; intros H.
      * eapply as_next; [exact S | apply IH, H].
      * injection H as <- <-. apply as_stop, S.
    + intros H. unfold bind. inversion H as [| ? ? ? ? w1 ? ? S A | ? ? ? ? e w1 S]; subst.
      * rewrite S. apply IH, A.
      * rewrite S. reflexivity.
Qed.
Print Assumptions C29_assigns_in_order.


(** For data fields: every assignment takes effect, whatever the write rule of the field;
    a value equal to the present one may leave the present one.  Nothing else changes. *)
Theorem C29_data_fields :
  forall (P : program) (o : oid) (d : cdef) (kwargs : list (string * value)) (w : world),
    (0 < p_lim P)%nat -> p_ct P (wclass w o) = Some d ->
    NoDup (map fst kwargs) -> (forall k v, In (k, v) kwargs -> data_field P w o k) ->
    exists w', update P o kwargs w = (Ok tt, w') /\
      (forall k v, In (k, v) kwargs ->
         attr_of w' o k = Some v \/
         (attr_of w' o k = attr_of w o k /\
          exists h cur, attr_of w o k = Some cur /\ veq (p_oeq P h) v cur = true)) /\
      (forall x n, x <> o \/ ~ In n (map fst kwargs) -> attr_of w' x n = attr_of w x n).
Proof.
  intros P o d kwargs w Lim D ND F.
  destruct (assign_data P o Lim kwargs w ND F) as (w' & E & A & B & _).
  exists w'. split; [| split; assumption].
  unfold update, bind, getW.
  assert (X : existsb (fun kv => negb (sinb (fst kv) (update_names (wcdef P w o)))) kwargs = false).
  { destruct (existsb _ kwargs) eqn:X; [| reflexivity]. apply existsb_exists in X.
    destruct X as ((k & v) & I & N). cbn [fst] in N. destruct (F k v I) as (f & Nf & _).
    rewrite (proj2 (known_names (wcdef P w o) k)) in N; [discriminate N |].
    exists f. split; [| left; symmetry; apply (field_named_name _ _ _ Nf)].
    unfold field_named in Nf. apply find_some in Nf. apply in_rev, Nf. }
  rewrite X. exact E.
Qed.
Print Assumptions C29_data_fields.

(** An account with a field of each write rule, all with values; update changes them all,
    and changes none when one name is unknown. *)
Definition c_account : cdef := mkc "Account"
  [ f_id; mkf "ro" "ro_id" [tint; MReadonly]; mkf "once" "once_id" [tint; MWriteonce];
    mkf "nn" "nn_id" [tint; MWritenonnull]; mkf "name" "name_id" [tstr];
    mkf "owner" "owner_id" [MInstance "Account"; MLinkto] ].
Definition up_ct (c : string) : option cdef := if String.eqb c "Account" then Some c_account else None.
Definition up_prog : program := mkprog up_ct no_guards no_hooks.
Definition up_world : world := mkw
  {| h_obj := fun o => {| o_class := "Account";
       o_attr := fun n => sget n [("id", VInt 1); ("ro", VInt 1); ("once", VInt 2); ("nn", VInt 3); ("name", VStr "a");
                                   ("owner", VNone); ("owner_id", VNone)];
       o_new := false; o_modified := false; o_mfields := []; o_prev := []; o_lkeys := [("owner_id", "owner")];
       o_raw := []; o_unlinked := []; o_operator := VNone |};
     h_next := 1%nat; h_graph := {| graphs := repeat [] 2; graph_of := fun o => Nat.min o 1 |} |}.

Example C29_example :
  let w := up_world in
  let args := [("ro", VInt 10); ("once", VInt 20); ("nn", VNone); ("name", VStr "a")] in
  p_ct up_prog (wclass w 0%nat) = Some c_account /\ NoDup (map fst args) /\
  (forall k v, In (k, v) args -> data_field up_prog w 0%nat k) /\
  known_name c_account "owner_id" /\ ~ known_name c_account "ro_id" /\
  (let w' := snd (update up_prog 0%nat args w) in
   attr_of w' 0%nat "ro" = Some (VInt 10) /\ attr_of w' 0%nat "once" = Some (VInt 20) /\
   attr_of w' 0%nat "nn" = Some VNone /\ attr_of w' 0%nat "name" = Some (VStr "a")) /\
  update up_prog 0%nat (args ++ [("ro_id", VInt 1)]) w = (Err EValueError, w).
Proof.
  cbn zeta. split; [reflexivity |].
  split. { repeat constructor; cbn; intuition discriminate. }
  split.
  { intros k v I. cbn in I.
    repeat (destruct I as [I | I]; [injection I as <- <-; eexists; repeat split; try reflexivity; discriminate |]). destruct I. }
  split. { exists (mkf "owner" "owner_id" [MInstance "Account"; MLinkto]). split; [cbn; intuition | right; repeat split; left; reflexivity]. }
  split. { intros H. apply known_names in H. discriminate H. }
  split; [repeat split |]. reflexivity.
Qed.
