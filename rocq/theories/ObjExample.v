(** ObjExample.v -- a small set of classes with every kind of relation, and a heap of
    ten unlinked objects, used to show that the hypotheses of the theorems about
    objects can be met. *)
From Verif Require Import Base Mon PyList PyDict KeypathModel Values OGraphModel TypesModel ObjModel ObjSpec ObjTrack.
From Verif Require LeafModel.
Open Scope Z_scope.

Definition mkf (name ref : string) (ts : types) : field :=
  {| fl_name := name; fl_json := name; fl_ref := ref; fl_cref := ref; fl_default := VNone;
     fl_types := ts |}.
Definition mkc (name : string) (fs : list field) : cdef :=
  {| cd_name := name; cd_fields := fs; cd_abstract := false; cd_reset_all := true;
     cd_strict := false; cd_validate_all := false; cd_output_null := false;
     cd_outkey := fun s => s |}.
Definition tint : mdf := MLeaf (LeafModel.LType LeafModel.TInt).
Definition tstr : mdf := MLeaf (LeafModel.LType LeafModel.TStr).
Definition f_id : field := mkf "id" "id_id" [tint; MPrimary].

(** one user has many posts, one profile, many groups (keys stored in the user) and
    many teams (through a join table) *)
Definition c_user : cdef := mkc "User"
  [ f_id;
    mkf "name" "name_id" [tstr];
    mkf "tags" "tag_ids" [MListOf [tstr]];
    mkf "meta" "meta_id" [MDictOf [MAny]];
    mkf "posts" "post_ids" [MListOf [MInstance "Post"]; MLinkedby "author"];
    mkf "profile" "profile_id" [MInstance "Profile"; MLinkedby "user"];
    mkf "groups" "group_ids" [MListOf [MInstance "Group"]; MLinkto];
    mkf "teams" "team_ids" [MListOf [MInstance "Team"]; MLinkedthru "users"] ].
Definition c_post : cdef := mkc "Post"
  [ f_id; mkf "title" "title_id" [tstr];
    mkf "author" "author_id" [MInstance "User"; MLinkto] ].
Definition c_profile : cdef := mkc "Profile"
  [ f_id; mkf "user" "user_id" [MInstance "User"; MLinkto] ].
Definition c_group : cdef := mkc "Group"
  [ f_id; mkf "members" "member_ids" [MListOf [MInstance "User"]; MLinkedby "groups"] ].
Definition c_team : cdef := mkc "Team"
  [ f_id; mkf "users" "user_ids" [MListOf [MInstance "User"]; MLinkedthru "teams"] ].

Definition ex_ct (c : string) : option cdef :=
  if String.eqb c "User" then Some c_user else if String.eqb c "Post" then Some c_post
  else if String.eqb c "Profile" then Some c_profile else if String.eqb c "Group" then Some c_group
  else if String.eqb c "Team" then Some c_team else None.

Definition ex_obj (cls : string) (id : Z) (lk : list (string * string)) (new : bool) : obj :=
  {| o_class := cls;
     o_attr := fun n => if String.eqb n "id" then Some (VInt id)
                        else if String.eqb n "group_ids" then Some (VList []) else Some VNone;
     o_new := new; o_modified := false; o_mfields := []; o_prev := []; o_lkeys := lk;
     o_raw := []; o_unlinked := []; o_operator := VNone |}.

Definition ex_heap (new : bool) : heap :=
  {| h_obj := fun o =>
       match o with
       | 0%nat => ex_obj "User" 1 [("group_ids", "groups")]%string new
       | 1%nat => ex_obj "User" 2 [("group_ids", "groups")]%string new
       | 2%nat => ex_obj "Post" 10 [("author_id", "author")]%string new
       | 3%nat => ex_obj "Post" 11 [("author_id", "author")]%string new
       | 4%nat => ex_obj "Profile" 20 [("user_id", "user")]%string new
       | 5%nat => ex_obj "Profile" 21 [("user_id", "user")]%string new
       | 6%nat => ex_obj "Group" 30 [] new
       | 7%nat => ex_obj "Group" 31 [] new
       | 8%nat => ex_obj "Team" 40 [] new
       | 9%nat => ex_obj "Team" 41 [] new
       | _ => ex_obj "" 0 [] new
       end;
     h_next := 10%nat;
     h_graph := {| graphs := repeat [] 11; graph_of := fun o => Nat.min o 10 |} |}.

Definition ex_oeq (_ : heap) (a b : Values.oid) : bool := Nat.eqb a b.
Definition ex_getter (_ : heap) (_ : Values.oid) (_ : string) : res value := Ok VNone.
Definition ex_setter (_ : Values.oid) (_ : string) (_ : value) : st heap unit := ret tt.
Definition ex_str (v : value) : string :=
  match v with VInt z => String (ascii_of_nat (Z.to_nat z)) EmptyString | _ => EmptyString end.

Definition ex_run := run ex_ct ex_oeq ex_getter ex_setter ex_str.
Definition ex_history := history ex_ct ex_oeq ex_getter ex_setter ex_str.

Lemma ex_wf : wf_classes ex_ct.
Proof.
  intros c d H. unfold ex_ct in H.
  assert (K : (c = "User" /\ d = c_user \/ c = "Post" /\ d = c_post \/ c = "Profile" /\ d = c_profile
              \/ c = "Group" /\ d = c_group \/ c = "Team" /\ d = c_team)%string).
  { repeat match type of H with
           | (if String.eqb c ?s then _ else _) = _ =>
               let E := fresh "E" in destruct (String.eqb c s) eqn:E;
               [apply String.eqb_eq in E; subst c; inversion H; subst; clear; intuition |]
           end. discriminate H. }
  clear H.
  destruct K as [[-> ->] | [[-> ->] | [[-> ->] | [[-> ->] | [-> ->]]]]];
    (constructor;
     [ cbn; repeat constructor; cbn; intuition discriminate
     | intros f Hf; cbn in Hf; repeat (destruct Hf as [<- | Hf]; [reflexivity |]); destruct Hf
     | intros f Hf; cbn in Hf; repeat (destruct Hf as [<- | Hf]; [reflexivity |]); destruct Hf
     | intros f g Hf Hg Hl; cbn in Hf, Hg;
       repeat (destruct Hf as [<- | Hf];
               [try discriminate Hl; repeat (destruct Hg as [<- | Hg]; [discriminate |]); destruct Hg |]);
       destruct Hf
     | intros f g Hf Hg; cbn in Hf;
       repeat (destruct Hf as [<- | Hf];
               [vm_compute in Hg; first [discriminate Hg | inversion Hg; subst; reflexivity] |]);
       destruct Hf ]).
Qed.

Lemma ex_attr new o n : attr (ex_heap new) o n = Some VNone \/ attr (ex_heap new) o n = Some (VList [])
  \/ exists z, attr (ex_heap new) o n = Some (VInt z).
Proof.
  unfold attr, ex_heap, h_obj.
  do 10 (destruct o as [| o];
    [cbn; destruct (String.eqb n "id"); [right; right; eexists; reflexivity |];
     destruct (String.eqb n "group_ids"); auto |]).
  cbn. destruct (String.eqb n "id"); [right; right; eexists; reflexivity |].
  destruct (String.eqb n "group_ids"); auto.
Qed.

Lemma ex_typed new : typed_heap ex_ct (ex_heap new).
Proof.
  constructor.
  - intros o n f v b _ _ Ha Hb. exfalso. unfold refers, link_items in Hb.
    destruct (ex_attr new o n) as [E | [E | [z E]]]; rewrite E in Ha; inversion Ha; subst v;
      destruct (f_ftype (fl_fdef f)) as [[] |]; destruct Hb.
  - intros o k n H.
    do 10 (destruct o as [| o];
      [first [ discriminate H
             | match type of H with sget k (o_lkeys ?x) = _ =>
                 let y := eval cbn in (o_lkeys x) in change (sget k y = Some n) in H end;
               unfold sget, dget in H;
               match type of H with (if ?c then _ else _) = _ => destruct c eqn:E end; [| discriminate H];
               apply String.eqb_eq in E; subst k; inversion H; subst n;
               eexists; split; [reflexivity | split; reflexivity] ] |]).
    discriminate H.
  - intros o n f H Hl.
    assert (K : forall c, ofield ex_ct (ex_heap new) o n = field_named n c -> In f (cd_fields c) /\ fl_name f = n).
    { intros c E. rewrite E in H. apply field_named_in in H. exact H. }
    do 10 (destruct o as [| o];
      [destruct (K _ eq_refl) as [Hin Hn]; cbn in Hin; subst n;
       repeat (destruct Hin as [<- | Hin]; [first [discriminate Hl | reflexivity] |]); destruct Hin |]).
    discriminate H.
  - intros o k H. exfalso.
    do 10 (destruct o as [| o]; [destruct H |]). destruct H.
Qed.
