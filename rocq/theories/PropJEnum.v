(** PropJEnum.v -- C09: enums registered with the decorator jsonenum. *)
From Verif Require Import Base CGraphModel CGraphSpec CGraphProofs JEnumModel JEnumSpec.
Open Scope string_scope.
Open Scope list_scope.

Lemma decorates_run d g a m : decorates d g a -> decorate d m = jsonenum a g m.
Proof. intros H. destruct H; reflexivity. Qed.

Lemma run_asked ds h : asked_for ds h -> forall m,
  fold_left (fun m d => snd (decorate d m)) ds m = cg_run h m.
Proof.
  intros H. induction H as [|d ds h g e D A IH|d ds h g a D N A IH]; intros m; [reflexivity| |];
    cbn [fold_left]; rewrite IH, (decorates_run d g _ m D).
  - unfold cg_run. cbn [fold_left]. f_equal. cbn [jsonenum].
    destruct (cg_step (PutEnum g e) m) as [[x|x] m']; reflexivity.
  - f_equal. destruct a; try reflexivity. destruct (N _ eq_refl).
Qed.

(** After any program of decorations, in any of the three ways of writing them, with classes
    and with other things, every question to the class graphs is answered as the first
    enum decorated for that graph under that name says.  Decorating gives the class itself
    if the name was free in the graph, and otherwise raises; a thing that is no class raises
    ValueError and registers nothing; and jsonenum() by itself registers nothing. *)
Theorem C09_jsonenum : forall ds h, asked_for ds h ->
  let m := decorate_all ds in
  (forall o, answers h o (fst (cg_step o m))) /\
  (forall d g e, decorates d g (AClass e) ->
     ((forall e', ~ first_enum h g (en_name e) e') /\ fst (decorate d m) = Ok (RClass e)) \/
     ((exists e', first_enum h g (en_name e) e') /\
      (fst (decorate d m) = Err ERedefinition \/ fst (decorate d m) = Err EAttributeError))) /\
  (forall d g, decorates d g AOther -> decorate d m = (Err EValueError, m)) /\
  (forall g, jsonenum ANone g m = (Ok (RDecorator g), m)).
Proof.
  intros ds h A m. assert (E : m = cg_run h []) by exact (run_asked ds h A []).
  rewrite E. split; [|split; [|split]].
  - intros o. apply answers_all.
  - intros d g e D. rewrite (decorates_run d g _ _ D). cbn [jsonenum].
    pose proof (answers_all h (PutEnum g e)) as Q.
    destruct (cg_step (PutEnum g e) (cg_run h [])) as [[x|x] m'] eqn:Z; cbn [fst] in Q; cbn [fst].
    + left. inversion Q; subst. split; [assumption|reflexivity].
    + right. inversion Q; subst. split; [eexists; eassumption|].
      match goal with K : _ \/ _ |- _ => destruct K as [-> | ->] end; [left|right]; reflexivity.
  - intros d g D. rewrite (decorates_run d g _ _ D). reflexivity.
  - reflexivity.
Qed.
Print Assumptions C09_jsonenum.

(** Every program of decorations has such a history. *)
Theorem C09_jsonenum_history : forall ds, exists h, asked_for ds h.
Proof.
  induction ds as [|d ds (h & A)]; [exists []; constructor|].
  assert (D : exists g a, decorates d g a) by (destruct d; eexists _, _; constructor).
  destruct D as (g & a & D). destruct a as [|e|].
  - exists h. apply (af_other d ds h g ANone D); [discriminate|exact A].
  - exists (PutEnum g e :: h). exact (af_class d ds h g e D A).
  - exists h. apply (af_other d ds h g AOther D); [discriminate|exact A].
Qed.
Print Assumptions C09_jsonenum_history.

(** A color for the graph y and another for the default graph, then a third in vain: the
    first ones stay. *)
Definition color (i : nat) : enumc := {| en_name := "Color"; en_id := i; en_has_cls := false |}.
Example C09_jsonenum_example :
  let ds := [Called "y" (AClass (color 1)); Plain (AClass (color 2)); Plain AOther; Direct "y" (AClass (color 3))] in
  asked_for ds [PutEnum "y" (color 1); PutEnum "default" (color 2); PutEnum "y" (color 3)] /\
  fst (cg_step (FetchEnum "y" "Color") (decorate_all ds)) = Ok (CEnum (color 1)) /\
  fst (cg_step (FetchEnum "default" "Color") (decorate_all ds)) = Ok (CEnum (color 2)) /\
  fst (decorate (Called "y" (AClass (color 4))) (decorate_all ds)) = Err EAttributeError.
Proof.
  repeat apply conj; try (vm_compute; reflexivity).
  apply af_class; [constructor|]. apply af_class; [constructor|].
  apply (af_other _ _ _ "default" AOther); [constructor|discriminate|].
  apply af_class; [constructor|]. apply af_nil.
Qed.
