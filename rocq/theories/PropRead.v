(** PropRead.v -- C91: looking at objects does not change them. *)
From Verif Require Import Base Mon PyList PyDict KeypathModel Values OGraphModel MGraphModel ChainModel TypesModel ObjModel ObjExample IoModel
  IoBase IoExample Sound Keep TameSpec TameProofs GraphSpec GraphProofs PropGraph OutSpec LogFree ReadSpec ReadProofs.
From Verif Require LeafModel.
Open Scope string_scope.
Open Scope list_scope.

(** However many questions are asked, of whichever objects, and whatever they answer (also
    exceptions): every object, with its fields, its stored keys, its links, its record of
    modifications and of previous values, and the fields picked for it, is as before. *)
Theorem C91_nothing_changes :
  forall (P : program) (D n : nat) (qs : list question) (w : world),
    calm P -> tame_classes D P -> flat_guards D P ARead ->
    w_heap (snd (ask_all P n qs w)) = w_heap w /\ w_ext (snd (ask_all P n qs w)) = w_ext w.
Proof. intros P D n qs w C T G. destruct (still_all P D C T G n qs w) as (H1 & H2 & _). split; assumption. Qed.
Print Assumptions C91_nothing_changes.

(** Every question of a history gets the answer it would have got at the start. *)
Theorem C91_same_answers :
  forall (P : program) (D n : nat) (qs : list question) (w : world),
    calm P -> tame_classes D P -> flat_guards D P ARead ->
    fst (ask_all P n qs w) = map (fun q => fst (ask P n q w)) qs.
Proof.
  intros P D n qs w C T G.
  assert (H : forall w', alike w w' -> fst (ask_all P n qs w') = map (fun q => fst (ask P n q w)) qs); [| apply H, alike_refl].
  induction qs as [| q qs IH]; intros w' A; [reflexivity |]. cbn [ask_all map].
  pose proof (same_answer P n q w w' A) as E. pose proof (still_ask P D C T G n q w') as S1.
  destruct (ask P n q w') as [a w1]. cbn [fst snd] in *. specialize (IH w1 (alike_trans _ _ _ A S1)).
  destruct (ask_all P n qs w1) as [l w2]. cbn [fst] in *. congruence.
Qed.
Print Assumptions C91_same_answers.

(** What the library itself answers does not depend on the past for any program: two worlds
    with the same objects give the same answer. *)
Theorem C91_answer_of_objects :
  forall (P : program) (n : nat) (q : question) (w w' : world),
    w_heap w' = w_heap w -> w_ext w' = w_ext w -> w_mg w' = w_mg w -> fst (ask P n q w') = fst (ask P n q w).
Proof. intros P n q w w' H1 H2 H3. apply same_answer. repeat split; assumption. Qed.
Print Assumptions C91_answer_of_objects.

(** Two nodes, the second of which lacks the name it needs, and a read guard *)
Definition read_node : cdef := mkc "Node"
  [ f_id;
    mkf "name" "name_id" [tstr; MRequired; MValidate (PCall 1%nat) None];
    mkf "next" "next_id" [MInstance "Node"] ].
Definition read_ct (c : string) : option cdef := if String.eqb c "Node" then Some read_node else None.
Definition read_guards (c : string) (a : action) : list param := match a with ARead => [PTypes [MRequired]; PCall 1%nat] | _ => [] end.
Definition read_prog : program := mkprog read_ct read_guards no_hooks.
Definition read_obj (id : Z) (name next : value) : obj :=
  {| o_class := "Node";
     o_attr := fun n => if String.eqb n "id" then Some (VInt id)
                        else if String.eqb n "name" then Some name
                        else if String.eqb n "next" then Some next else None;
     o_new := true; o_modified := false; o_mfields := []; o_prev := []; o_lkeys := [];
     o_raw := []; o_unlinked := []; o_operator := VInt 7 |}.
Definition read_heap : heap :=
  {| h_obj := fun o => match o with 0%nat => read_obj 65 (VStr "a") (VObj 1%nat) | 1%nat => read_obj 66 VNone VNone
                       | _ => ex_obj "" 0 [] true end;
     h_next := 2%nat; h_graph := h_graph (ex_heap true) |}.
Definition questions : list question :=
  [AskJson 0%nat false false None; AskValid 0%nat; AskValidate 1%nat None; AskJson 0%nat false false None; AskJson 5%nat false false None].
Lemma read_tame P : p_ct P = read_ct -> tame_classes 3 P.
Proof.
  intros E cls c f m Hc Hf Hm. apply tame_b. rewrite E in Hc. unfold read_ct in Hc. destruct (String.eqb cls "Node"); [| discriminate Hc].
  inversion Hc; subst c. clear Hc. cbn in Hf.
  repeat (destruct Hf as [<- | Hf]; [cbn in Hm; repeat (destruct Hm as [<- | Hm]; [reflexivity |]); contradiction |]). contradiction.
Qed.
Example C91_example :
  calm read_prog /\ tame_classes 3 read_prog /\ flat_guards 3 read_prog ARead /\
  fst (ask_all read_prog 20 questions (mkw read_heap)) =
    (let j := VDict [("id", VInt 65); ("name", VStr "a"); ("next", VDict [("id", VInt 66)])] in
     [Json (Ok j); Valid (Ok false); Validated (Err (EValidation [("name", "value required")])); Json (Ok j); Json (Err (EUnauthorized "no operator"))]).
Proof.
  split; [apply mkprog_calm |]. split; [apply read_tame; reflexivity | split; [| vm_compute; reflexivity]].
  intros cls ts y Hp Hy. apply flat_b. cbn in Hp. destruct Hp as [Hp | [Hp | []]]; inversion Hp; subst. destruct Hy as [<- | []]. reflexivity.
Qed.

(** A callable that changes an object is called by a question too: with a validator that
    assigns, asking whether an object is valid changes the object, and asking again gives
    another answer. *)
Definition sly_call (f : cbid) (c : ctx) (args : list value) : st heap value :=
  fun h => (Ok (VBool (match o_attr (h_obj h 0%nat) "name" with Some (VStr "a") => true | _ => false end)),
            snd (updm 0%nat (set_attr "name" (VStr "b")) h)).
Definition sly_prog : program :=
  {| p_ct := read_ct; p_oeq := ex_oeq; p_getter := ex_getter; p_setter := ex_setter;
     p_str := ex_str; p_arith := fun _ _ _ => Err ETypeError; p_lim := 50;
     p_isa := String.eqb; p_enums := ex_enums; p_call := sly_call;
     p_guards := no_guards; p_hooks := no_hooks; p_write := fun _ => ret tt; p_delete := fun _ => ret tt |}.
Theorem C91_callable_refuted :
  exists (P : program) (D n : nat) (w : world),
    tame_classes D P /\ flat_guards D P ARead /\
    fst (ask_all P n [AskValid 0%nat; AskValid 0%nat] w) = [Valid (Ok true); Valid (Ok false)] /\
    w_heap (snd (ask_all P n [AskValid 0%nat] w)) <> w_heap w.
Proof.
  exists sly_prog, 3%nat, 20%nat.
  exists (mkw {| h_obj := fun _ => read_obj 65 (VStr "a") VNone; h_next := 1%nat; h_graph := h_graph (ex_heap true) |}).
  split; [apply read_tame; reflexivity |]. split; [intros cls ts y [] |]. split; [vm_compute; reflexivity |].
  intros X. apply (f_equal (fun h => o_attr (h_obj h 0%nat) "name")) in X. vm_compute in X. discriminate X.
Qed.
Print Assumptions C91_callable_refuted.
