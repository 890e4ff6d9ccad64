(** PropCGraph.v -- C09: names in class graphs. *)
From Verif Require Import Base CGraphModel CGraphSpec CGraphProofs.
Open Scope string_scope.
Open Scope list_scope.

(** After any history of calls on any graphs, every call answers as the first
    registrations of its own graph say: a fetch gives the first class registered
    under the name, a second registration is rejected, other graphs do not matter. *)
Theorem C09_first_registration_wins :
  forall (h : list cop) (o : cop), answers h o (fst (cg_step o (cg_run h []))).
Proof. exact answers_all. Qed.
Print Assumptions C09_first_registration_wins.

(** A name in a graph stands for at most one class. *)
Theorem C09_one_class_per_name :
  forall (h : list cop) (g n : string) (c c' : cdefn),
    first_class h g n c -> first_class h g n c' -> c = c'.
Proof. exact first_class_unique. Qed.
Print Assumptions C09_one_class_per_name.

(** Finding: registering an enum name twice is rejected with an AttributeError, not
    with the redefinition error the code means to raise. *)
Theorem C09_enum_redefinition_error_refuted :
  exists (h : list cop) (e : enumc), In (PutEnum "default" e) h /\
    fst (cg_step (PutEnum "default" e) (cg_run h [])) = Err EAttributeError.
Proof. exact enum_again_attribute_error. Qed.
Print Assumptions C09_enum_redefinition_error_refuted.

Example C09_case :
  let a := {| cd_name := "User"; cd_id := 1 |} in
  let b := {| cd_name := "User"; cd_id := 2 |} in
  let h := [PutClass "x" a; PutClass "x" b; PutClass "y" b] in
  fst (cg_step (FetchClass "x" "User") (cg_run h [])) = Ok (CClass a) /\
  fst (cg_step (FetchClass "y" "User") (cg_run h [])) = Ok (CClass b) /\
  fst (cg_step (PutClass "x" b) (cg_run h [])) = Err ERedefinition /\
  fst (cg_step (FetchClass "z" "User") (cg_run h [])) = Err ENotFound /\
  first_class h "x" "User" a.
Proof.
  repeat split. exists [], [PutClass "x" {| cd_name := "User"; cd_id := 2 |}; PutClass "y" {| cd_name := "User"; cd_id := 2 |}].
  repeat split. intros c [].
Qed.
