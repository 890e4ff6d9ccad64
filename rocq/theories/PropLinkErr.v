(** PropLinkErr.v -- one more exception for C34 and C35: assignments that raise because of a
    third object. *)
From Verif Require Import Base Mon PyList PyDict KeypathModel Values OListModel TypesModel ObjModel ObjSpec LinkSpec ObjExample PropLink.
Open Scope nat_scope.
Open Scope string_scope.
Open Scope list_scope.

(** User 0 has post 2.  The primary key of the post is set to None.  From then on
    [profile.user = user0] raises UnlinkableJSONClassException, though the user and the
    profile have primary keys: the post is still in the object graph of the user, and
    merging that graph looks up the key of everything in it.  The two are left linked.  With
    a post that had no key when it was linked, or whose key was not changed, the same
    assignment succeeds. *)
Theorem C35_removed_key_refuted :
  let give := HSet 0 "posts" (VList [VObj 2]) in
  let clear := HSet 2 "id" VNone in
  let link := HSet 4 "user" (VObj 0) in
  let '(r1, h1) := ex_history 20 [give; clear] (ex_heap false) in
  let '(r2, h2) := ex_history 20 [link] h1 in
  (r1 = Ok tt /\ id_of ex_ct h1 0 <> VNone /\ id_of ex_ct h1 4 <> VNone) /\
  (r2 = Err EUnlinkable /\ attr h2 4 "user" = Some (VObj 0) /\ attr h2 0 "profile" = Some (VObj 4)) /\
  fst (ex_history 20 [clear; give; link] (ex_heap false)) = Ok tt /\
  fst (ex_history 20 [give; link] (ex_heap false)) = Ok tt.
Proof. vm_compute. repeat split; discriminate. Qed.
Print Assumptions C35_removed_key_refuted.
