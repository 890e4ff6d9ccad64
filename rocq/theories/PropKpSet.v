(** PropKpSet.v -- C50: setting by keypath writes exactly the addressed item.  C55: adding a
    list or dict in place to a list or dict an object holds never works. *)
From Verif Require Import Base Mon PyList PyDict KeypathModel KeypathSpec KeypathProofs OListModel ODictModel Values OGraphModel
  TypesModel ObjModel ObjSpec ObjTrack ObjExample IoModel IoBase IoExample UpdateSpec UpdateProofs StrictProofs KpSetSpec KpSetProofs.
From Verif Require LeafModel.
Open Scope string_scope.
Open Scope list_scope.

(** The keypath leads, possibly through other objects, to data field [a] of object [x] and
    then inside its value.  Then exactly one of these holds: the addressed item is replaced
    and nothing else changes; the call raises, no value changes, and the path addresses no
    item; the path enters a place declared to have no items, and nothing happens; the path
    goes on into an object inside the field (next theorem). *)
Theorem C50_set_item :
  forall (P : program) (n : nat) (o : oid) (d : cdef) (key : string) (v : value) (w : world)
         (k : nat) (x : oid) (a : string) (ks : list string) (f : field) (old : value),
    (0 < p_lim P)%nat -> p_ct P (wclass w o) = Some d -> lists_there P w o -> ~ plain key ->
    through P w o (keypath_split key) k x (a :: ks) -> (k <= n)%nat ->
    plain_names P w x -> field_named a (wcdef P w x) = Some f -> data_field P w x a -> attr_of w x a = Some old ->
    scalar v -> (forall y rest, ~ reaches (fl_fdef f) ks old y rest) ->
    exists (r : res unit) (w' : world), jset P (S n) o [(key, v)] w = (r, w') /\ only_attr x a w w' /\
      ((r = Ok tt /\ exists new, replaced v (fl_fdef f) ks old new /\ attr_of w' x a = Some new) \/
       ((exists e, r = Err e) /\ attr_of w' x a = Some old /\
        (forall new, ~ replaced v (fl_fdef f) ks old new) /\ ~ dead_end (fl_fdef f) ks old) \/
       (r = Ok tt /\ w' = w /\ dead_end (fl_fdef f) ks old)).
Proof.
  intros P n o d key v w k x a ks f old Lim D L K T Hk N F (f' & F' & Pl & Lk & _) A Sc Nr.
  assert (f' = f) by congruence. subst f'.
  destruct (through_eq P (S n) v w o _ k x (a :: ks) T (split_components key) (S n) ltac:(lia)) as [E G].
  rewrite (jset_key P n o d key v w D L K), E. replace (S n - k)%nat with (S (n - k)) by lia.
  rewrite (keypath_set1_eq P (S n) (n - k) x a ks f old v w F (proj2 (plain_not_ref f Pl)) A).
  inversion G as [| ? ? G1 G2]; subst.
  destruct (container P (S n) x a f v (into_obj P (S n) (n - k) v) Lim Sc ks w [] old [] old (fl_fdef f) N F Pl Lk A eq_refl)
    as [(new & h' & R & Eo & Kp & A') | [(e & h' & Eo & Kp & A' & No & Nd & _) | [[Eo De] | (y & rest & R & _)]]].
  - intros H Hl. unfold kind_of. rewrite H. exact Hl.
  - intros H Hl. unfold kind_of. rewrite H. exact Hl.
  - auto.
  - exact G2.
  - rewrite Eo. exists (Ok tt), (set_heap h' w). split; [reflexivity |]. split; [exact (proj1 Kp) |]. left. split; [reflexivity |].
    exists new. split; [exact R | exact A'].
  - rewrite Eo. exists (Err e), (set_heap h' w). split; [reflexivity |]. split; [exact (proj1 Kp) |]. right. left. split; [eauto |]. auto.
  - rewrite Eo. exists (Ok tt), w. split; [reflexivity |]. split; [intros ? ? _; reflexivity |]. right. right. auto.
  - exfalso. eapply Nr, R.
Qed.
Print Assumptions C50_set_item.

(** Where an item is addressed, it is the only possible outcome. *)
Theorem C50_addressed_item_replaced :
  forall (P : program) (n : nat) (o : oid) (d : cdef) (key : string) (v : value) (w : world)
         (k : nat) (x : oid) (a : string) (ks : list string) (f : field) (old new0 : value),
    (0 < p_lim P)%nat -> p_ct P (wclass w o) = Some d -> lists_there P w o -> ~ plain key ->
    through P w o (keypath_split key) k x (a :: ks) -> (k <= n)%nat ->
    plain_names P w x -> field_named a (wcdef P w x) = Some f -> data_field P w x a -> attr_of w x a = Some old ->
    scalar v -> replaced v (fl_fdef f) ks old new0 ->
    exists new w', jset P (S n) o [(key, v)] w = (Ok tt, w') /\ only_attr x a w w' /\
                   replaced v (fl_fdef f) ks old new /\ attr_of w' x a = Some new.
Proof.
  intros P n o d key v w k x a ks f old new0 Lim D L K T Hk N F Df A Sc R.
  assert (Nl : forall d0 ks0 old0 new, replaced v d0 ks0 old0 new -> forall d' rest v', leads d0 ks0 old0 d' rest v' ->
             (declared d' FTList \/ declared d' FTDict)).
  { clear. induction 1 as [d0 k0 z i l l' Ft | d0 it k0 ks z i l l' y y' Ft Ei Rd Pi Ey R IH Lw | d0 k0 m m' Ft | d0 it k0 ks m m' y y' Ft Ei Ey R IH Dw];
      intros d' rest v' Ld; inversion Ld; subst; try (left; exact Ft); try (right; exact Ft); try congruence.
    - match goal with H1 : reads k0 z, H2 : reads k0 ?z' |- _ => assert (z' = z) by
        (destruct H1 as (i1 & E1 & ->); destruct H2 as (i2 & E2 & ->); congruence); subst z' end.
      match goal with H1 : position _ z i, H2 : position _ z ?i' |- _ => assert (i' = i) by
        (destruct H1 as (? & H1), H2 as (? & H2); lia); subst i' end.
      match goal with H : item_types d0 = Some ?it' |- _ => assert (it' = it) by congruence; subst it' end.
      match goal with H : nth_error l i = Some ?y0, Hl : leads _ _ ?y0 _ _ _ |- _ => assert (y0 = y) by congruence; subst y0; apply (IH _ _ _ Hl) end.
    - match goal with H : item_types d0 = Some ?it' |- _ => assert (it' = it) by congruence; subst it' end.
      match goal with H : sget k0 m = Some ?y0, Hl : leads _ _ ?y0 _ _ _ |- _ => assert (y0 = y) by congruence; subst y0; apply (IH _ _ _ Hl) end. }
  destruct (C50_set_item P n o d key v w k x a ks f old Lim D L K T Hk N F Df A Sc) as
    (r & w' & E & O & [[-> (new & R' & A')] | [(_ & _ & No & _) | (_ & _ & De)]]).
  - intros y rest (d' & Ld & Dd). destruct (Nl _ _ _ _ R _ _ _ Ld) as [H | H]; unfold declared in *; congruence.
  - exists new, w'. auto.
  - exfalso. eapply No, R.
  - exfalso. destruct De as (d' & rest & v' & Ld & N1 & N2 & _). destruct (Nl _ _ _ _ R _ _ _ Ld); contradiction.
Qed.
Print Assumptions C50_addressed_item_replaced.

(** When the path ends with a field of an object on the way, it is the same as setting that
    field of that object. *)
Theorem C50_set_in_object :
  forall (P : program) (n : nat) (o : oid) (d : cdef) (key : string) (v : value) (w : world)
         (k : nat) (x : oid) (a : string) (ks : list string) (f : field) (old : value) (y : oid) (i : string),
    p_ct P (wclass w o) = Some d -> lists_there P w o -> ~ plain key ->
    through P w o (keypath_split key) k x (a :: ks) -> (k <= n)%nat ->
    field_named a (wcdef P w x) = Some f -> is_calc f = false -> attr_of w x a = Some old ->
    reaches (fl_fdef f) ks old y [i] ->
    jset P (S n) o [(key, v)] w = jset P (S n) y [(i, v)] w.
Proof.
  intros P n o d key v w k x a ks f old y i D L K T Hk F C A R.
  destruct (through_eq P (S n) v w o _ k x (a :: ks) T (split_components key) (S n) ltac:(lia)) as [E G].
  rewrite (jset_key P n o d key v w D L K), E. replace (S n - k)%nat with (S (n - k)) by lia.
  rewrite (keypath_set1_eq P (S n) (n - k) x a ks f old v w F C A).
  rewrite (container_object P (S n) x a v _ (fl_fdef f) ks old y [i] R). unfold into_obj.
  symmetry. apply jset_one. inversion G as [| ? ? G1 G2]; subst. destruct R as (d' & Ld & _).
  pose proof (leads_good _ _ _ _ _ _ Ld G2) as Gi. inversion Gi as [| ? ? Gi1 _]; subst. apply Gi1.
Qed.
Print Assumptions C50_set_in_object.

(** C55: whatever the list or dict, and however deep it is inside a data field, appending,
    inserting or assigning a list or dict raises. *)
Theorem C55_no_container_added :
  forall (P : program) (w : world) (o : oid) (a : string) (us : list string) (f : field) (whole v : value) (p : path)
         (l : list value) (z : Z) (op : lop value),
    plain_names P w o -> field_named a (wcdef P w o) = Some f -> data_field P w o a -> attr_of w o a = Some whole ->
    kind_of f whole -> Forall good_key (a :: us) -> sinb a (o_raw (wobj w o)) = false ->
    vget p whole = Some (VList l) -> ~ scalar v -> In op [LAppend v; LInsert z v; LSetInt z v] ->
    exists e h', run (p_ct P) (p_oeq P) (p_getter P) (p_setter P) (LeafModel.py_str (p_str P)) (p_lim P)
                   (TOp o a p (join "." (a :: us)) op) (w_heap w) = (Err e, h').
Proof.
  intros P w o a us f whole v p l z op N F (f' & F' & Pl & Lk & _) A Kd G Rw Gp Nc Op.
  assert (f' = f) by congruence. subst f'.
  pose proof (inside_of P o a f w us whole N F Pl Lk A Kd G) as I.
  destruct Op as [<- | [<- | [<- | []]]].
  - exact (append_fails P o a f p _ v Nc (p_lim P) (w_heap w) whole l I Gp Rw).
  - exact (insert_fails P o a f p _ v Nc (p_lim P) (w_heap w) whole l z I Gp Rw).
  - exact (set_item_fails P o a f p _ v Nc (p_lim P) (w_heap w) whole l z I Gp Rw).
Qed.
Print Assumptions C55_no_container_added.
Theorem C55_no_container_in_dict :
  forall (P : program) (w : world) (o : oid) (a : string) (us : list string) (f : field) (whole v : value) (p : path)
         (m : list (string * value)) (k : string),
    plain_names P w o -> field_named a (wcdef P w o) = Some f -> data_field P w o a -> attr_of w o a = Some whole ->
    kind_of f whole -> Forall good_key (a :: us) ->
    vget p whole = Some (VDict m) -> ~ scalar v ->
    exists e h', run (p_ct P) (p_oeq P) (p_getter P) (p_setter P) (LeafModel.py_str (p_str P)) (p_lim P)
                   (TDOp o a p (join "." (a :: us)) (DSetItem k v)) (w_heap w) = (Err e, h').
Proof.
  intros P w o a us f whole v p m k N F (f' & F' & Pl & Lk & _) A Kd G Gp Nc.
  assert (f' = f) by congruence. subst f'.
  exact (set_entry_fails P o a f p _ v Nc (p_lim P) (w_heap w) whole m k (inside_of P o a f w us whole N F Pl Lk A Kd G) Gp).
Qed.
Print Assumptions C55_no_container_in_dict.

(** ** A document with a table of lists, a dict and a linked document *)
Definition c_doc : cdef := mkc "Doc"
  [ f_id; mkf "name" "name_id" [tstr]; mkf "table" "table_id" [MDictOf [MListOf [tint]]; MReadonly];
    mkf "next" "next_id" [MInstance "Doc"; MLinkto] ].
Definition kp_ct (c : string) : option cdef := if String.eqb c "Doc" then Some c_doc else None.
Definition kp_prog : program := mkprog kp_ct no_guards no_hooks.
Definition kp_table : value := VDict [("a", VList [VInt 1; VInt 2; VInt 3]); ("b", VList [])].
Definition kp_world : world := mkw
  {| h_obj := fun o => {| o_class := "Doc";
       o_attr := fun n => sget n [("id", VInt (Z.of_nat o)); ("name", VStr "n"); ("table", kp_table);
                                   ("next", if Nat.eqb o 0 then VObj 1%nat else VNone); ("next_id", VNone)];
       o_new := false; o_modified := false; o_mfields := []; o_prev := []; o_lkeys := [("next_id", "next")];
       o_raw := []; o_unlinked := []; o_operator := VNone |};
     h_next := 2%nat; h_graph := {| graphs := repeat [] 2; graph_of := fun o => Nat.min o 1 |} |}.

Lemma kp_names o : plain_names kp_prog kp_world o.
Proof.
  assert (Pl : forall s, has_sep s = false -> plain s) by (intros s H; apply plain_no_sep, has_sep_spec, H).
  split.
  - intros f H. cbn in H. repeat (destruct H as [<- | H]; [apply Pl; reflexivity |]). destruct H.
  - intros k H. cbn in H. destruct (String.eqb_spec k "next_id"); [subst; apply Pl; reflexivity | contradiction].
Qed.
Lemma kp_lists o : lists_there kp_prog kp_world o.
Proof. intros f H R Lf. cbn in H. repeat (destruct H as [<- | H]; [try discriminate R; try discriminate Lf |]). destruct H. Qed.

(** Setting [next.table.a.-1] to 7: one item of the other document's table changes --
    although the field is read-only. *)
Example C50_example :
  let key := "next.table[a][-1]" in
  let f := mkf "table" "table_id" [MDictOf [MListOf [tint]]; MReadonly] in
  ~ plain key /\ keypath_split key = ["next"; "table"; "a"; "-1"] /\
  through kp_prog kp_world 0%nat (keypath_split key) 1 1%nat ["table"; "a"; "-1"] /\
  data_field kp_prog kp_world 1%nat "table" /\ field_named "table" (wcdef kp_prog kp_world 1%nat) = Some f /\
  replaced (VInt 7) (fl_fdef f) ["a"; "-1"] kp_table (VDict [("a", VList [VInt 1; VInt 2; VInt 7]); ("b", VList [])]) /\
  (let w' := snd (jset kp_prog 9 0%nat [(key, VInt 7)] kp_world) in
   attr_of w' 1%nat "table" = Some (VDict [("a", VList [VInt 1; VInt 2; VInt 7]); ("b", VList [])]) /\
   attr_of w' 0%nat "table" = Some kp_table) /\
  fst (jset kp_prog 9 0%nat [("table.b.0", VInt 7)] kp_world) = Err EIndexError /\
  attr_of (snd (jset kp_prog 9 0%nat [("next.name", VStr "x")] kp_world)) 1%nat "name" = Some (VStr "x").
Proof.
  cbn zeta. split. { intros H. apply plain_no_sep, has_sep_spec in H. discriminate H. }
  split; [reflexivity |]. split.
  { eapply (th_object _ _ 0%nat "next" (mkf "next" "next_id" [MInstance "Doc"; MLinkto]) (VObj 1%nat) ["table"; "a"; "-1"] 1%nat ["table"; "a"; "-1"]);
      try reflexivity; [| cbn; lia | constructor]. eexists. split; [constructor | reflexivity]. }
  split. { eexists. repeat split; try reflexivity. discriminate. }
  split; [reflexivity |]. split.
  { eapply rp_in_entry with (it := [MListOf [tint]; MRequired]); try reflexivity.
    - eapply rp_item with (i := 2%nat) (z := (-1)%Z) (l' := [VInt 1; VInt 2; VInt 7]); try reflexivity.
      + eexists. split; reflexivity.
      + split; [cbn; lia | right; reflexivity].
      + split; [reflexivity |]. split; [reflexivity |]. intros [| [| [| j]]] H; try reflexivity. contradiction.
    - split; [reflexivity |]. split; [| left; split; [left |]; reflexivity].
      intros k' H. cbn. destruct (String.eqb_spec k' "a"); [contradiction | reflexivity]. }
  split; [split; vm_compute; reflexivity |]. split; vm_compute; reflexivity.
Qed.

(** "Either raises or replaces" fails where the declared type has no items: the call is
    silently ignored. *)
Theorem C50_silent_refuted :
  exists (P : program) (n : nat) (o : oid) (key : string) (v : value) (w : world),
    through P w o (keypath_split key) 0 o ["name"; "x"] /\ jset P (S n) o [(key, v)] w = (Ok tt, w).
Proof.
  exists kp_prog, 8%nat, 0%nat, "name.x", (VInt 7), kp_world. split; [constructor |].
  rewrite (jset_key kp_prog 8 0%nat c_doc "name.x" (VInt 7) kp_world eq_refl (kp_lists 0%nat)).
  - reflexivity.
  - intros H. apply plain_no_sep, has_sep_spec in H. discriminate H.
Qed.
Print Assumptions C50_silent_refuted.

(** A list or dict as the value raises, and yet the item is replaced. *)
Theorem C50_raises_yet_writes_refuted :
  exists (P : program) (n : nat) (o : oid) (key : string) (v : value) (w : world) (e : exn),
    fst (jset P n o [(key, v)] w) = Err e /\
    exists a, attr_of (snd (jset P n o [(key, v)] w)) o a <> attr_of w o a.
Proof.
  exists kp_prog, 9%nat, 0%nat, "table.a", (VList [VInt 5]), kp_world, ERecursion.
  split; [vm_compute; reflexivity |]. exists "table". vm_compute. discriminate.
Qed.
Print Assumptions C50_raises_yet_writes_refuted.

Example C55_example :
  let f := mkf "table" "table_id" [MDictOf [MListOf [tint]]; MReadonly] in
  plain_names kp_prog kp_world 0%nat /\ data_field kp_prog kp_world 0%nat "table" /\ kind_of f kp_table /\
  Forall good_key ["table"; "a"] /\ vget [PKey "a"] kp_table = Some (VList [VInt 1; VInt 2; VInt 3]) /\ ~ scalar (VList []) /\
  fst (run kp_ct (p_oeq kp_prog) (p_getter kp_prog) (p_setter kp_prog) (LeafModel.py_str (p_str kp_prog)) 50
         (TOp 0%nat "table" [PKey "a"] "table.a" (LAppend (VList []))) (w_heap kp_world)) = Err ERecursion.
Proof.
  cbn zeta. split; [apply kp_names |]. split. { eexists. repeat split; try reflexivity. discriminate. }
  split; [eexists; reflexivity |]. split.
  { repeat constructor; try discriminate; apply plain_no_sep, has_sep_spec; reflexivity. }
  split; [reflexivity |]. split; [intros [] |]. vm_compute. reflexivity.
Qed.
