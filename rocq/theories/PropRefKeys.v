(** PropRefKeys.v -- C81: linking and unlinking by key in the input of [set]. *)
From Verif Require Import Base Mon PyList PyDict StrDict KeypathModel KeypathSpec KeypathProofs Values ChainModel OGraphModel TypesModel ObjModel ObjSpec ObjList ObjExample
  IoModel IoBase IoExample UpdateSpec StrictProofs KpSetSpec KpSetProofs RefKeysSpec RefKeysProofs.
From Verif Require LeafModel.
Open Scope string_scope.
Open Scope list_scope.

Lemma only_of o f w g h' : keys_only o (fl_ref f) (w_heap w) h' ->
  only_attr o (fl_ref f) w (set_mg (w_mg w) (set_heap h' (set_mg g w))).
Proof.
  intros [A B _ _ _] x n H. unfold attr_of. cbn [w_heap set_mg set_heap].
  destruct (Nat.eq_dec x o) as [-> | N].
  - destruct H as [H | H]; [contradiction |]. apply B, H.
  - unfold attr. rewrite (A x N). reflexivity.
Qed.

(** A list of references whose objects are not loaded, with its keys stored in the object:
    [set] with commands as items changes the stored keys as the commands say and changes no
    other attribute of any object.  The change of a saved object is recorded. *)
Theorem C81_stored_keys :
  forall (P : program) (w : world) (o : oid) (d : cdef) (f : field) (n : nat) (xs : list command) (ks ks' : list value),
    (3 <= p_lim P)%nat -> unloaded P w o d f -> keeps_keys w o d f ->
    attr_of w o (fl_ref f) = Some (VList ks) -> Forall is_key ks -> Forall is_key (map key_of xs) ->
    obeys xs ks ks' ->
    exists w', jset P (S (S n)) o [(fl_name f, VList (map json_of xs))] w = (Ok tt, w') /\
      attr_of w' o (fl_ref f) = Some (VList ks') /\ only_attr o (fl_ref f) w w' /\
      (o_new (wobj w o) = false -> sinb (fl_ref f) (o_raw (wobj w o)) = false -> xs <> [] -> In (fl_name f) (o_mfields (wobj w' o))).
Proof.
  intros P w o d f n xs ks ks' Lim U K A Kk Kx Ob.
  destruct (set_commands P o d f w U K n xs Lim) as (g & R & H).
  destruct (all_obeyed P o d f (w_heap w) Lim xs ks ks' (set_mg g w) Ob Kx Kk R A) as (w3 & E & C & A3 & _ & N & _).
  exists (set_mg (w_mg w) w3). split; [exact (H _ _ E C) |]. destruct C as (h' & -> & Ko). split; [exact A3 |].
  split; [exact (only_of o f w g h' Ko) |]. intros Nw Ow Ne. apply (N Ne Ow). cbn [w_heap set_heap]. rewrite (ko_new _ _ _ _ Ko). exact Nw.
Qed.
Print Assumptions C81_stored_keys.

(** The same where no keys are stored yet: unlinking does nothing before the first link. *)
Theorem C81_first_keys :
  forall (P : program) (w : world) (o : oid) (d : cdef) (f : field) (n : nat) (gone : list value) (k : value) (xs : list command) (ks' : list value),
    (3 <= p_lim P)%nat -> unloaded P w o d f -> keeps_keys w o d f ->
    attr_of w o (fl_ref f) = Some VNone -> is_key k -> Forall is_key (map key_of xs) ->
    obeys xs [k] ks' ->
    exists w', jset P (S (S n)) o [(fl_name f, VList (map json_of (map Unlink gone ++ Link k :: xs)))] w = (Ok tt, w') /\
      attr_of w' o (fl_ref f) = Some (VList ks') /\ only_attr o (fl_ref f) w w' /\
      (o_new (wobj w o) = false -> In (fl_name f) (o_mfields (wobj w' o))).
Proof.
  intros P w o d f n gone k xs ks' Lim U K A Kk Kx Ob.
  destruct (set_commands P o d f w U K n (map Unlink gone ++ Link k :: xs) Lim) as (g & R & H).
  assert (E0 : for_st (map Unlink gone) (apply_one P o f) (set_mg g w) = (Ok tt, set_mg g w)).
  { clear H. induction gone as [| x gone IH]; [reflexivity |]. cbn [map for_st].
    rewrite (bind_eq _ _ _ tt _ (one_unlink_none P o d f (w_heap w) (set_mg g w) x R A)). exact IH. }
  destruct (one_first P o d f (w_heap w) Lim (set_mg g w) k R A) as (w1 & E1 & C1 & A1 & N1).
  assert (R1 : ready P o d f (w_heap w) (w_heap w1)) by (destruct C1 as (h' & -> & Ko); exact (ready_next _ _ _ _ _ _ _ R Ko)).
  destruct (all_obeyed P o d f (w_heap w) Lim xs [k] ks' w1 Ob Kx (Forall_cons _ Kk (Forall_nil _)) R1 A1) as (w3 & E & C & A3 & _ & _ & N).
  pose proof (changed_trans o f _ _ _ C1 C) as C5.
  exists (set_mg (w_mg w) w3). split; [apply H; [| exact C5] |].
  - rewrite for_st_app. rewrite (bind_eq _ _ _ tt _ E0). cbn [for_st]. rewrite (bind_eq _ _ _ tt _ E1). exact E.
  - destruct C5 as (h' & -> & Ko). split; [exact A3 |]. split; [exact (only_of o f w g h' Ko) |].
    intros Nw. apply (N N1). cbn [w_heap set_heap]. rewrite (ko_new _ _ _ _ Ko). exact Nw.
Qed.
Print Assumptions C81_first_keys.

(** A key that is not stored cannot be unlinked: ValueError, after the commands before. *)
Theorem C81_unknown_key :
  forall (P : program) (w : world) (o : oid) (d : cdef) (f : field) (n : nat) (xs ys : list command) (k : value) (ks ks' : list value),
    (3 <= p_lim P)%nat -> unloaded P w o d f -> keeps_keys w o d f ->
    attr_of w o (fl_ref f) = Some (VList ks) -> Forall is_key ks -> Forall is_key (map key_of xs) -> is_key k ->
    obeys xs ks ks' -> ~ In k ks' ->
    exists w', jset P (S (S n)) o [(fl_name f, VList (map json_of (xs ++ Unlink k :: ys)))] w = (Err EValueError, w') /\
      attr_of w' o (fl_ref f) = Some (VList ks') /\ only_attr o (fl_ref f) w w'.
Proof.
  intros P w o d f n xs ys k ks ks' Lim U K A Kk Kx Kq Ob Ni.
  destruct (set_commands P o d f w U K n (xs ++ Unlink k :: ys) Lim) as (g & R & H).
  destruct (all_obeyed P o d f (w_heap w) Lim xs ks ks' (set_mg g w) Ob Kx Kk R A) as (w3 & E & C & A3 & Kk' & _ & _).
  assert (R3 : ready P o d f (w_heap w) (w_heap w3)) by (destruct C as (h' & -> & Ko); exact (ready_next _ _ _ _ _ _ _ R Ko)).
  destruct (one_absent P o d f (w_heap w) Lim w3 ks' k R3 A3 Kq Kk' Ni) as (w4 & E4 & C4 & A4).
  pose proof (changed_trans o f _ _ _ C C4) as C5.
  exists (set_mg (w_mg w) w4). split; [apply H; [| exact C5] |].
  - rewrite for_st_app. rewrite (bind_eq _ _ _ tt _ E). cbn [for_st]. exact (bind_eq_err _ _ _ _ _ E4).
  - destruct C5 as (h' & -> & Ko). split; [exact A4 | exact (only_of o f w g h' Ko)].
Qed.
Print Assumptions C81_unknown_key.

(** References over a join table: the keys to link and to unlink are noted on the object, in
    order, after those noted before; no object is changed. *)
Theorem C81_join_table :
  forall (P : program) (w : world) (o : oid) (d : cdef) (f : field) (n : nat) (xs : list command),
    (1 <= p_lim P)%nat -> unloaded P w o d f ->
    f_fstore (fl_fdef f) = ForeignKey -> f_join_table (fl_fdef f) = Some true ->
    exists w', jset P (S (S n)) o [(fl_name f, VList (map json_of xs))] w = (Ok tt, w') /\
      w_heap w' = w_heap w /\
      keys_under (fl_name f) (x_link (w_ext w' o)) = keys_under (fl_name f) (x_link (w_ext w o)) ++ links xs /\
      keys_under (fl_name f) (x_unlink (w_ext w' o)) = keys_under (fl_name f) (x_unlink (w_ext w o)) ++ unlinks xs /\
      (forall x, x <> o -> w_ext w' x = w_ext w x) /\
      (forall m, m <> fl_name f -> sget m (x_link (w_ext w' o)) = sget m (x_link (w_ext w o)) /\
                                   sget m (x_unlink (w_ext w' o)) = sget m (x_unlink (w_ext w o))).
Proof.
  intros P w o d f n xs Lim U Fs Jt. destruct (set_joined P o d f w U Fs Jt n xs Lim) as (w2 & E & [A1 A2 A3 A4 A5 A6 A7 A8]).
  exists w2. auto 8.
Qed.
Print Assumptions C81_join_table.

(** ** A case that meets the hypotheses *)
Definition rk_world (keys : value) (groups : list value) : world := mkw
  {| h_obj := fun o => match o with
       | 0%nat => {| o_class := "User";
         o_attr := fun n => sget n [("id", VInt 1); ("name", VNone); ("tags", VNone); ("meta", VNone); ("posts", VList []);
                                    ("profile", VNone); ("groups", VList groups); ("teams", VList []); ("group_ids", keys)];
         o_new := false; o_modified := false; o_mfields := []; o_prev := []; o_lkeys := [("group_ids", "groups")];
         o_raw := []; o_unlinked := []; o_operator := VNone |}
       | _ => {| o_class := "Group";
         o_attr := fun n => sget n [("id", VInt (29 + Z.of_nat o)); ("members", VList [VObj 0%nat])];
         o_new := false; o_modified := false; o_mfields := []; o_prev := []; o_lkeys := [];
         o_raw := []; o_unlinked := []; o_operator := VNone |}
       end;
     h_next := 2%nat; h_graph := {| graphs := repeat [] 2; graph_of := fun o => Nat.min o 1 |} |}.
Definition rk_groups : field := mkf "groups" "group_ids" [MListOf [MInstance "Group"]; MLinkto].
Definition rk_teams : field := mkf "teams" "team_ids" [MListOf [MInstance "Team"]; MLinkedthru "users"].

Lemma surj {A B} (p : A * B) a : fst p = a -> p = (a, snd p).
Proof. destruct p. intros <-. reflexivity. Qed.
Lemma rk_plain s : has_sep s = false -> plain s.
Proof. intros H. apply plain_no_sep, has_sep_spec, H. Qed.

Lemma rk_unloaded keys f : f = rk_groups \/ f = rk_teams -> unloaded ex_prog (rk_world keys []) 0%nat c_user f.
Proof.
  intros F. constructor.
  - reflexivity.
  - destruct F as [-> | ->]; cbn; auto 12.
  - intros g H. destruct F as [-> | ->]; cbn in H;
      repeat (destruct H as [<- | H]; [first [left; reflexivity | right; repeat apply conj; discriminate] |]); destruct H.
  - cbn. repeat (constructor; [cbn; intros H; repeat (destruct H as [H | H]; [discriminate H |]); exact H |]). constructor.
  - destruct F as [-> | ->]; apply rk_plain; reflexivity.
  - destruct F as [-> | ->]; (exists []); eexists; eexists; (split; [reflexivity |]); split; repeat constructor.
  - destruct F as [-> | ->]; split; reflexivity.
  - destruct F as [-> | ->]; reflexivity.
  - destruct F as [-> | ->]; reflexivity.
  - destruct F as [-> | ->]; reflexivity.
  - intros g H R Lf N. cbn in H.
    repeat (destruct H as [<- | H]; [try discriminate R; try discriminate Lf; (split; [reflexivity |]); (split; [reflexivity |]);
      eexists; (split; [reflexivity |]); discriminate |]). destruct H.
Qed.

Lemma rk_keeps keys : keeps_keys (rk_world keys []) 0%nat c_user rk_groups.
Proof.
  constructor; [reflexivity | | reflexivity]. split; [apply rk_plain; reflexivity |].
  intros g H. cbn in H. repeat (destruct H as [<- | H]; [discriminate |]). destruct H.
Qed.

Definition rk_commands : list command := [Link (VInt 32); Unlink (VInt 30); Link (VInt 30)].
Example C81_example :
  unloaded ex_prog (rk_world (VList [VInt 30; VInt 31]) []) 0%nat c_user rk_groups /\
  keeps_keys (rk_world (VList [VInt 30; VInt 31]) []) 0%nat c_user rk_groups /\
  obeys rk_commands [VInt 30; VInt 31] [VInt 31; VInt 32; VInt 30] /\
  (let w' := snd (jset ex_prog 9 0%nat [("groups", VList (map json_of rk_commands))] (rk_world (VList [VInt 30; VInt 31]) [])) in
   attr_of w' 0%nat "group_ids" = Some (VList [VInt 31; VInt 32; VInt 30]) /\ o_mfields (wobj w' 0%nat) = ["groups"]) /\
  unloaded ex_prog (rk_world VNone []) 0%nat c_user rk_teams /\
  (let w' := snd (jset ex_prog 9 0%nat [("teams", VList (map json_of rk_commands))] (rk_world VNone [])) in
   x_link (w_ext w' 0%nat) = [("teams", [VInt 32; VInt 30])] /\ x_unlink (w_ext w' 0%nat) = [("teams", [VInt 30])]).
Proof.
  split; [apply rk_unloaded; auto |]. split; [apply rk_keeps |]. split.
  { constructor. cbn. apply (ob_unlink (VInt 30) _ [] [VInt 31; VInt 32]); [intros [] |]. cbn. constructor. constructor. }
  split; [split; vm_compute; reflexivity |]. split; [apply rk_unloaded; auto |]. split; vm_compute; reflexivity.
Qed.

(** ** Where the claim stops *)

(** With the objects loaded, the list is assigned as well: it comes out empty, and with it
    every stored key, the added one included, is lost. *)
Theorem C81_loaded_refuted :
  exists P w o f xs,
    field_named (fl_name f) (wcdef P w o) = Some f /\ is_local f = true /\
    attr_of w o (fl_name f) = Some (VList [VObj 1%nat]) /\ attr_of w o (fl_ref f) = Some (VList [VInt 30]) /\
    obeys xs [VInt 30] [VInt 30; VInt 31] /\
    (let r := jset P 9 o [(fl_name f, VList (map json_of xs))] w in
     fst r = Ok tt /\ attr_of (snd r) o (fl_name f) = Some (VList []) /\ attr_of (snd r) o (fl_ref f) = Some (VList []) /\
     attr_of (snd r) 1%nat "members" = Some (VList [])).
Proof.
  exists ex_prog, (rk_world (VList [VInt 30]) [VObj 1%nat]), 0%nat, rk_groups, [Link (VInt 31)].
  split; [reflexivity |]. split; [reflexivity |]. split; [reflexivity |]. split; [reflexivity |].
  split; [constructor; constructor |]. cbn zeta. repeat apply conj; vm_compute; reflexivity.
Qed.
Print Assumptions C81_loaded_refuted.

(** The first key linked makes a key list that is not watched: after the object is saved, the
    next link is not recorded as a change. *)
Theorem C81_unwatched_refuted :
  exists P w o f a b w1 w2,
    unloaded P w o (wcdef P w o) f /\ keeps_keys w o (wcdef P w o) f /\
    jset P 9 o [(fl_name f, VList [json_of (Link a)])] w = (Ok tt, w1) /\
    liftH (mark_unmodified o) w1 = (Ok tt, w2) /\
    let r := jset P 9 o [(fl_name f, VList [json_of (Link b)])] w2 in
    fst r = Ok tt /\ attr_of w2 o (fl_ref f) = Some (VList [a]) /\ attr_of (snd r) o (fl_ref f) = Some (VList [a; b]) /\
    o_modified (wobj (snd r) o) = false /\ o_mfields (wobj (snd r) o) = [].
Proof.
  exists ex_prog, (rk_world VNone []), 0%nat, rk_groups, (VInt 30), (VInt 31).
  eexists. eexists. split; [apply (rk_unloaded VNone rk_groups); auto |]. split; [apply rk_keeps |].
  split. { apply surj. vm_compute. reflexivity. } split. { apply surj. vm_compute. reflexivity. }
  cbn zeta. repeat apply conj; vm_compute; reflexivity.
Qed.
Print Assumptions C81_unwatched_refuted.
