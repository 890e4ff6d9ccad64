(** PropExc.v -- C102: the text and the messages of exceptions. *)
From Verif Require Import Base PyDict ExcModel.
From Coq Require Import Ascii Lia.
Open Scope list_scope.

(** A character occurs in a text *)
Fixpoint occurs (c : ascii) (s : string) : Prop :=
  match s with EmptyString => False | String d r => c = d \/ occurs c r end.

(** An entry whose keypath has no quote and whose message has no line end *)
Definition one_line (e : string * string) : Prop :=
  ~ occurs "'" (fst e) /\ ~ occurs (ascii_of_nat 10) (snd e).

Lemma sapp_assoc (a b c : string) : ((a ++ b) ++ c = a ++ b ++ c)%string.
Proof. induction a as [| x a IH]; [reflexivity |]. cbn. rewrite IH. reflexivity. Qed.

(** Up to a character that occurs in neither, two texts agree. *)
Lemma cut c a b x y : ~ occurs c a -> ~ occurs c b -> (a ++ String c x = b ++ String c y)%string -> a = b /\ x = y.
Proof.
  revert b. induction a as [| d a IH]; intros [| e b] NA NB E; cbn in E.
  - injection E as ->. auto.
  - injection E as E1 E2. exfalso. apply NB. left. exact E1.
  - injection E as E1 E2. exfalso. apply NA. left. symmetry. exact E1.
  - injection E as E1 E2. subst e. destruct (IH b) as [-> ->]; auto; intros O; [apply NA | apply NB]; right; exact O.
Qed.

Definition lines (m : list (string * string)) : string := fold_right (fun e t => (entry_line e ++ t)%string) EmptyString m.
Lemma formatted_lines m : formatted m = ("Json classes validation failed:" ++ newline ++ lines m)%string.
Proof.
  unfold formatted. rewrite <- sapp_assoc. generalize ("Json classes validation failed:" ++ newline)%string.
  induction m as [| e m IH]; intros t; cbn [fold_left lines fold_right].
  - induction t as [| c t IHt]; [reflexivity |]. cbn. rewrite <- IHt. reflexivity.
  - rewrite IH. apply sapp_assoc.
Qed.

(** The text of a validation error begins with the heading and has, for every entry in its
    order, the line with its keypath and its message, and nothing else. *)
Theorem C102_text :
  forall m, ve_messages (make_validation m) = m /\
    ve_text (make_validation m) = ("Json classes validation failed:" ++ newline ++
      fold_right (fun e t => ("  '" ++ fst e ++ "': " ++ snd e ++ newline) ++ t) EmptyString m)%string.
Proof. intros m. split; [reflexivity | apply formatted_lines]. Qed.
Print Assumptions C102_text.

(** The text tells which fields failed and why: two errors with the same text have the same
    entries, in the same order. *)
Theorem C102_text_decides :
  forall m m', Forall one_line m -> Forall one_line m' ->
    ve_text (make_validation m) = ve_text (make_validation m') -> m = m'.
Proof.
  intros m m' F F' E. cbn [ve_text make_validation] in E. rewrite !formatted_lines in E.
  assert (E' : lines m = lines m') by (cbn in E; repeat (injection E as E); exact E). clear E.
  revert m' F' E'. induction F as [| [k v] m [K V] F IH]; intros m' F' E.
  - destruct m' as [| [k' v'] m']; [reflexivity | discriminate E].
  - destruct m' as [| [k' v'] m']; [discriminate E |]. inversion F' as [| ? ? [K' V'] F2]; subst. cbn [fst snd] in *.
    unfold lines in E. cbn [fold_right] in E. unfold entry_line in E. cbn [fst snd] in E. rewrite !sapp_assoc in E.
    cbn in E. injection E as E. rewrite ?sapp_assoc in E. cbn in E.
    apply cut in E; [| assumption | assumption]. destruct E as [-> E]. injection E as E. rewrite ?sapp_assoc in E. cbn in E.
    apply cut in E; [| assumption | assumption]. destruct E as [-> E]. f_equal. apply IH; assumption.
Qed.
Print Assumptions C102_text_decides.

(** With line ends in messages it does not: one failure, whose message quotes the input, and
    two failures have the same text. *)
Theorem C102_line_end_refuted :
  exists m m', m <> m' /\ length m = 1%nat /\ length m' = 2%nat /\
    ve_text (make_validation m) = ve_text (make_validation m').
Proof.
  exists [("a", "wrong" ++ newline ++ "  'b': wrong")%string], [("a", "wrong"); ("b", "wrong")]%string.
  split; [discriminate |]. repeat split.
Qed.
Print Assumptions C102_line_end_refuted.

(** An error of a unique constraint has for each field that is named, and for no other, the
    message that was given, or the standard one if none was given or the given one is empty. *)
Theorem C102_unique :
  forall f message k,
    let names := match f with OneField n => [n] | ManyFields ns => ns end in
    let text := match message with
                | None => "value is not unique"%string
                | Some s => if String.eqb s "" then "value is not unique"%string else s
                end in
    ue_text (make_unique f message) = text /\
    (In k names -> sget k (ue_messages (make_unique f message)) = Some text) /\
    (~ In k names -> sget k (ue_messages (make_unique f message)) = None).
Proof.
  intros f message k. cbv zeta. unfold make_unique. cbn [ue_text ue_messages].
  set (text := match message with Some (String c s) => String c s | _ => "value is not unique"%string end).
  assert (ET : text = match message with None => "value is not unique"%string | Some s => if String.eqb s "" then "value is not unique"%string else s end).
  { unfold text. destruct message as [[| c s] |]; reflexivity. }
  rewrite <- ET. split; [reflexivity |]. destruct f as [n | ns].
  - unfold sget. cbn. destruct (String.eqb_spec k n) as [-> | N]; split; intros I; auto.
    + contradiction I. left. reflexivity.
    + destruct I as [<- | []]. contradiction N; reflexivity.
  - assert (G : forall d k' t, sget k (sset k' t d : list (string * string)) = if String.eqb k k' then Some t else sget k d).
    { intros d k' t. unfold sget, sset. induction d as [| [q w] d IH]; cbn; [reflexivity |].
      destruct (String.eqb_spec k' q) as [-> | N]; cbn; [destruct (String.eqb k q); reflexivity |].
      rewrite IH. destruct (String.eqb_spec k q) as [-> | N']; [| reflexivity]. destruct (String.eqb_spec q k'); [congruence | reflexivity]. }
    assert (H : forall d : list (string * string), sget k (fold_left (fun d k' => sset k' text d) ns d) = if in_dec string_dec k ns then Some text else sget k d).
    { induction ns as [| n ns IH]; intros d; [reflexivity |]. cbn [fold_left]. rewrite IH, G.
      destruct (in_dec string_dec k ns) as [I | N], (in_dec string_dec k (n :: ns)) as [I' | N']; try reflexivity.
      - contradiction N'. right. exact I.
      - destruct I' as [<- | I']; [rewrite String.eqb_refl; reflexivity | contradiction].
      - destruct (String.eqb_spec k n) as [-> | ]; [contradiction N'; left; reflexivity | reflexivity]. }
    split; intros I; rewrite H; destruct (in_dec string_dec k ns); try contradiction; reflexivity.
Qed.
Print Assumptions C102_unique.

Example C102_example :
  Forall one_line [("name", "value required"); ("tags.0", "value is not str")]%string /\
  ve_text (make_validation [("name", "value required"); ("tags.0", "value is not str")]%string) =
    ("Json classes validation failed:" ++ newline ++ "  'name': value required" ++ newline ++
     "  'tags.0': value is not str" ++ newline)%string /\
  ue_messages (make_unique (ManyFields ["a"; "b"; "a"]%string) (Some ""%string)) =
    [("a", "value is not unique"); ("b", "value is not unique")]%string.
Proof.
  split; [| split; reflexivity].
  repeat constructor; cbn; intros H; repeat (destruct H as [H | H]; [discriminate H |]); exact H.
Qed.
