(** RTypesProofs.v -- lemmas for PropRTypes.v. *)
From Verif Require Import Base Values PyStr LeafModel TypesModel RTypesModel RTypesSpec.
Open Scope list_scope.
Open Scope nat_scope.

Lemma chars_app a b : chars (a ++ b)%string = chars a ++ chars b.
Proof. induction a as [|c a IH]; simpl; [reflexivity|]. rewrite IH. reflexivity. Qed.

Lemma unchars_chars s : unchars (chars s) = s.
Proof. apply string_of_list_ascii_of_string. Qed.

(** ** union_split *)

Lemma open_app a b : open_brackets (a ++ b) = (open_brackets a + open_brackets b)%Z.
Proof. induction a as [|c a IH]; simpl; [reflexivity|]. rewrite IH. lia. Qed.

Lemma split_go_cut l : forall before cur done,
  (forall x y, cur = x ++ "|"%char :: y -> (1 <= open_brackets (before ++ x))%Z) ->
  exists pieces, union_split_go l (open_brackets (before ++ cur)) done cur = done ++ pieces
                 /\ cut before (cur ++ l) pieces.
Proof.
  induction l as [|c l IH]; intros before cur done H; simpl.
  - exists [cur]. split; [reflexivity|]. rewrite app_nil_r. constructor. exact H.
  - assert (Step : Ascii.eqb c "|" = false \/ (1 <= open_brackets (before ++ cur))%Z ->
      exists pieces, union_split_go l (open_brackets (before ++ (cur ++ [c]))) done (cur ++ [c])
                     = done ++ pieces /\ cut before (cur ++ c :: l) pieces).
    { intros C. destruct (IH before (cur ++ [c]) done) as (ps & E1 & E2).
      - intros x y E.
        destruct (app_eq_app _ _ _ _ E) as (m & [[E3 E4]|[E3 E4]]).
        + destruct m as [|d m].
          * simpl in E4. injection E4 as E4 E5. rewrite app_nil_r in E3. subst x.
            destruct C as [C|C]; [|exact C]. subst c. discriminate C.
          * simpl in E4. injection E4 as E4 E5. subst d. apply (H x m). exact E3.
        + subst x. destruct m as [|d m]; simpl in E4.
          * injection E4 as E4 E5. rewrite app_nil_r.
            destruct C as [C|C]; [|exact C]. subst c. discriminate C.
          * injection E4 as E4 E5. destruct m; discriminate E5.
      - exists ps. split; [exact E1|]. rewrite <- app_assoc in E2. exact E2. }
    destruct (Ascii.eqb c "[") eqn:B1.
    { apply Ascii.eqb_eq in B1. subst c.
      destruct Step as (ps & E1 & E2); [left; reflexivity|].
      exists ps. split; [|exact E2]. rewrite <- E1. f_equal. rewrite app_assoc, !open_app. simpl. lia. }
    destruct (Ascii.eqb c "]") eqn:B2.
    { apply Ascii.eqb_eq in B2. subst c.
      destruct Step as (ps & E1 & E2); [left; reflexivity|].
      exists ps. split; [|exact E2]. rewrite <- E1. f_equal. rewrite app_assoc, !open_app. simpl. lia. }
    assert (Z0 : open_brackets (before ++ (cur ++ [c])) = open_brackets (before ++ cur)).
    { rewrite app_assoc, open_app. simpl. rewrite B1, B2. lia. }
    destruct (Ascii.eqb c "|") eqn:B3.
    + destruct (open_brackets (before ++ cur) <? 1)%Z eqn:D.
      * apply Z.ltb_lt in D. apply Ascii.eqb_eq in B3. subst c.
        destruct (IH (before ++ cur ++ ["|"%char]) [] (done ++ [cur])) as (ps & E1 & E2).
        { intros x y E. destruct x; discriminate E. }
        rewrite app_nil_r in E1. rewrite Z0 in E1. exists (cur :: ps). split.
        { rewrite E1, <- app_assoc. reflexivity. }
        constructor; [exact H|exact D|exact E2].
      * apply Z.ltb_ge in D. destruct Step as (ps & E1 & E2); [right; exact D|].
        rewrite Z0 in E1. exists ps. auto.
    + destruct Step as (ps & E1 & E2); [left; reflexivity|].
      rewrite Z0 in E1. exists ps. auto.
Qed.

Lemma bar_in (a b : list ascii) : In "|"%char (a ++ "|"%char :: b).
Proof. apply in_or_app. right. left. reflexivity. Qed.

Lemma cut_unique before l p q : cut before l p -> cut before l q -> p = q.
Proof.
  intros H. revert q. induction H as [before l H|before a b ps H1 H2 H3 IH]; intros q K.
  - inversion K as [b0 l0 K1|b0 a b ps K1 K2 K3]; subst; [reflexivity|].
    specialize (H a b eq_refl). lia.
  - inversion K as [b0 l0 K1|b0 a' b' ps' K1 K2 K3]; subst.
    + specialize (K1 a b eq_refl). lia.
    + assert (a = a' /\ b = b') as [-> ->].
      { match goal with E : _ ++ "|"%char :: _ = _ ++ "|"%char :: _ |- _ => rename E into EQ end.
        destruct (app_eq_app _ _ _ _ EQ) as (m & [[E3 E4]|[E3 E4]]).
        - destruct m as [|d m].
          + rewrite app_nil_r in E3. simpl in E4. injection E4 as E4. split; congruence.
          + simpl in E4. injection E4 as E4 E5. subst d.
            exfalso. specialize (K1 a m E3). lia.
        - destruct m as [|d m].
          + rewrite app_nil_r in E3. simpl in E4. injection E4 as E4. split; congruence.
          + simpl in E4. injection E4 as E4 E5. subst d.
            exfalso. specialize (H1 a' m E3). lia. }
      f_equal. apply IH. exact K3.
Qed.

(** ** Induction on type expressions *)
Definition on_some {A} (P : A -> Prop) (m : option A) : Prop :=
  match m with Some x => P x | None => True end.

Lemma texp_rect' (P : texp -> Prop) :
  (forall k, P (XScalar k)) -> P XAny -> (forall s, P (XName s)) ->
  (forall t, P t -> P (XList t)) -> (forall t, P t -> P (XDict t)) ->
  (forall t, P t -> P (XOptional t)) ->
  (forall ts, Forall P ts -> P (XUnion ts)) ->
  (forall ts, Forall (on_some P) ts -> P (XBar ts)) ->
  forall t, P t.
Proof.
  intros H1 H2 H3 H4 H5 H6 H7 H8. fix F 1. intros [k| |s|t|t|t|ts|ts].
  - apply H1.
  - exact H2.
  - apply H3.
  - apply H4, F.
  - apply H5, F.
  - apply H6, F.
  - apply H7. induction ts as [|t ts IH]; constructor; [apply F|exact IH].
  - apply H8. induction ts as [|[t|] ts IH]; constructor; try exact IH; simpl; [apply F|exact Logic.I].
Qed.

(** What [accepted] says of members, as a list predicate *)
Definition union_member (t : texp) : Prop := accepted t /\ (comma_free t \/ exists v, t = XDict v).
Definition bar_member (t : texp) : Prop := accepted t /\ is_bar t = false.

Lemma accepted_union ts : accepted (XUnion ts) <-> ts <> [] /\ Forall union_member ts.
Proof.
  simpl. split; intros [H1 H2]; split; auto.
  - clear H1. induction ts as [|t ts IH]; constructor; [apply H2|apply IH, H2].
  - clear H1. induction H2; auto.
Qed.
Lemma accepted_bar ts : accepted (XBar ts) <->
  2 <= length ts /\ somes ts <> [] /\ Forall (on_some bar_member) ts.
Proof.
  simpl. split; intros (H1 & H2 & H3); repeat split; auto.
  - clear H1 H2. induction ts as [|[t|] ts IH]; constructor; simpl; auto; try apply H3.
    + apply IH, H3.
  - clear H1 H2. induction H3 as [|[t|] ts]; auto.
Qed.

(** ** Scanning for bars *)
Definition passes (d : Z) (l : text) : Prop := forall r done cur,
  union_split_go (l ++ r) d done cur = union_split_go r d done (cur ++ l).

Lemma passes_nil d : passes d [].
Proof. intros r dn cur. simpl. rewrite app_nil_r. reflexivity. Qed.

Lemma passes_app d a b : passes d a -> passes d b -> passes d (a ++ b).
Proof. intros Ha Hb r dn cur. rewrite <- app_assoc, Ha, Hb, <- app_assoc. reflexivity. Qed.

Definition plain_char (c : ascii) : bool :=
  negb (Ascii.eqb c "[") && negb (Ascii.eqb c "]") && negb (Ascii.eqb c "|").

Lemma passes_plain d l : forallb plain_char l = true -> passes d l.
Proof.
  induction l as [|c l IH]; intros H; [apply passes_nil|].
  simpl in H. apply andb_true_iff in H as [H1 H2]. unfold plain_char in H1.
  apply andb_true_iff in H1 as [H1 H3]. apply andb_true_iff in H1 as [H0 H1].
  apply negb_true_iff in H0, H1, H3.
  intros r dn cur. simpl. rewrite H0, H1, H3, (IH H2), <- app_assoc. reflexivity.
Qed.

Lemma passes_wrap d pre inner : forallb plain_char pre = true -> passes (d + 1) inner ->
  passes d (pre ++ "["%char :: inner ++ ["]"%char]).
Proof.
  intros H1 H2. apply passes_app; [apply passes_plain; exact H1|].
  intros r dn cur. simpl. rewrite <- app_assoc, H2. simpl.
  replace (d + 1 - 1)%Z with d by lia. rewrite <- !app_assoc. reflexivity.
Qed.

Lemma passes_bar d : (1 <= d)%Z -> passes d ["|"%char].
Proof.
  intros H r dn cur. simpl. destruct (d <? 1)%Z eqn:E; [apply Z.ltb_lt in E; lia|reflexivity].
Qed.

Lemma chars_separated sep l : chars (separated sep l) =
  match l with
  | [] => []
  | x :: r => chars x ++ flat_map (fun y => chars sep ++ chars y) r
  end.
Proof.
  destruct l as [|x r]; [reflexivity|]. revert x.
  induction r as [|y r IH]; intros x; cbn [separated flat_map].
  - rewrite app_nil_r. reflexivity.
  - rewrite !chars_app, <- app_assoc, <- IH. reflexivity.
Qed.

Lemma passes_separated d sep l : passes d (chars sep) -> Forall (fun x => passes d (chars x)) l ->
  passes d (chars (separated sep l)).
Proof.
  intros Hs H. rewrite chars_separated. destruct H as [|x r Hx Hr]; [apply passes_nil|].
  apply passes_app; [exact Hx|]. induction Hr; simpl; [apply passes_nil|].
  apply passes_app; [apply passes_app; assumption|assumption].
Qed.

Lemma ident_plain c : ident_char c = true -> plain_char c = true.
Proof. destruct c as [[] [] [] [] [] [] [] []]; cbv; intros H; try reflexivity; discriminate H. Qed.

Lemma forallb_imp {A} (p q : A -> bool) l : (forall x, p x = true -> q x = true) ->
  forallb p l = true -> forallb q l = true.
Proof.
  intros H. induction l as [|x l IH]; simpl; [auto|]. intros K.
  apply andb_true_iff in K as [K1 K2]. rewrite (H _ K1). auto.
Qed.

Lemma scalar_plain k : forallb plain_char (chars (scalar_name k)) = true.
Proof. destruct k; reflexivity. Qed.

Definition member_text (m : option texp) : string :=
  match m with Some t => print t | None => "None" end.

Lemma print_passes t : accepted t ->
  (forall d, (1 <= d)%Z -> passes d (chars (print t))) /\
  (is_bar t = false -> forall d, (0 <= d)%Z -> passes d (chars (print t))).
Proof.
  induction t as [k| |s|t IH|t IH|t IH|ts IH|ts IH] using texp_rect'; intros A.
  - split; intros; apply passes_plain, scalar_plain.
  - split; intros; apply passes_plain; reflexivity.
  - destruct A as (_ & A & _).
    split; intros; apply passes_plain; exact (forallb_imp _ _ _ ident_plain A).
  - assert (K : forall d, (0 <= d)%Z -> passes d (chars (print (XList t)))).
    { intros d Hd. cbn [print]. rewrite !chars_app. apply (passes_wrap d (chars "list")); [reflexivity|].
      apply (proj1 (IH A)); lia. }
    split; intros; apply K; lia.
  - destruct A as [A _].
    assert (K : forall d, (0 <= d)%Z -> passes d (chars (print (XDict t)))).
    { intros d Hd. cbn [print]. rewrite !chars_app.
      apply (passes_wrap d (chars "dict") (chars "str, " ++ chars (print t))); [reflexivity|].
      apply passes_app; [apply passes_plain; reflexivity|]. apply (proj1 (IH A)); lia. }
    split; intros; apply K; lia.
  - assert (K : forall d, (0 <= d)%Z -> passes d (chars (print (XOptional t)))).
    { intros d Hd. cbn [print]. rewrite !chars_app. apply (passes_wrap d (chars "Optional")); [reflexivity|].
      apply (proj1 (IH A)); lia. }
    split; intros; apply K; lia.
  - apply accepted_union in A as [_ A].
    assert (K : forall d, (0 <= d)%Z -> passes d (chars (print (XUnion ts)))).
    { intros d Hd. cbn [print]. rewrite !chars_app. apply (passes_wrap d (chars "Union")); [reflexivity|].
      apply passes_separated; [apply passes_plain; reflexivity|].
      apply Forall_map. rewrite Forall_forall in *. intros x Hx.
      apply (proj1 (IH _ Hx (proj1 (A _ Hx)))); lia. }
    split; intros; apply K; lia.
  - apply accepted_bar in A as (_ & _ & A). split; [|discriminate].
    intros d Hd. cbn [print]. apply passes_separated.
    + apply (passes_app d [" "%char] ["|"%char; " "%char]); [apply passes_plain; reflexivity|].
      apply (passes_app d ["|"%char] [" "%char]); [apply passes_bar; exact Hd|apply passes_plain; reflexivity].
    + apply Forall_map. rewrite Forall_forall in *. intros [t|] Hx; [|apply passes_plain; reflexivity].
      specialize (IH _ Hx). specialize (A _ Hx). simpl in IH, A.
      exact (proj1 (IH (proj1 A)) d Hd).
Qed.

(** ** White space around *)
Definition tight (l : text) : Prop :=
  exists c r, l = c :: r /\ is_space c = false /\ exists d r', rev l = d :: r' /\ is_space d = false.

Lemma lstrip_spaces sp l : forallb is_space sp = true -> lstrip (sp ++ l) = lstrip l.
Proof.
  induction sp as [|c sp IH]; simpl; intros H; [reflexivity|].
  apply andb_true_iff in H as [-> H]. apply IH. exact H.
Qed.

Lemma forallb_rev {A} (p : A -> bool) l : forallb p (rev l) = forallb p l.
Proof.
  induction l as [|x l IH]; simpl; [reflexivity|].
  rewrite forallb_app, IH. simpl. rewrite andb_true_r. apply andb_comm.
Qed.

Lemma strip_tight a l b : forallb is_space a = true -> forallb is_space b = true -> tight l ->
  strip (a ++ l ++ b) = l.
Proof.
  intros Ha Hb (c & r & -> & Hc & d & r' & Er & Hd). unfold strip.
  rewrite (lstrip_spaces a _ Ha). simpl. rewrite Hc.
  change (rev (r ++ b) ++ [c]) with (rev (c :: r ++ b)).
  change (c :: r ++ b) with ((c :: r) ++ b). rewrite rev_app_distr.
  rewrite lstrip_spaces by (rewrite forallb_rev; exact Hb).
  rewrite Er. simpl. rewrite Hd. rewrite <- Er. apply rev_involutive.
Qed.

Lemma tight_wrap a l b : tight a -> tight b -> tight (a ++ l ++ b).
Proof.
  intros (c & r & -> & Hc & _) (c' & r' & -> & _ & d & r2 & Er & Hd).
  exists c, (r ++ l ++ c' :: r'). repeat split; auto.
  exists d, (r2 ++ rev ((c :: r) ++ l)). split; [|exact Hd].
  change ((c :: r) ++ l ++ c' :: r') with ((c :: r) ++ l ++ (c' :: r')).
  rewrite app_assoc, rev_app_distr, Er. reflexivity.
Qed.

Lemma ident_no_space c : ident_char c = true -> is_space c = false.
Proof. destruct c as [[] [] [] [] [] [] [] []]; cbv; intros H; try reflexivity; discriminate H. Qed.

Lemma tight_ident l : l <> [] -> forallb ident_char l = true -> tight l.
Proof.
  intros N H. destruct l as [|c r]; [contradiction|].
  assert (R : forallb ident_char (rev (c :: r)) = true) by (rewrite forallb_rev; exact H).
  exists c, r. repeat split.
  - apply ident_no_space. simpl in H. apply andb_true_iff in H. apply H.
  - destruct (rev (c :: r)) as [|d r'] eqn:E.
    + apply (f_equal (@length _)) in E. rewrite rev_length in E. discriminate E.
    + exists d, r'. split; [reflexivity|]. apply ident_no_space. simpl in R.
      apply andb_true_iff in R. apply R.
Qed.

Lemma tight_separated sep l : l <> [] -> Forall (fun x => tight (chars x)) l ->
  tight (chars (separated sep l)).
Proof.
  intros N H. rewrite chars_separated. destruct H as [|x r Hx Hr]; [contradiction|].
  clear N. revert x Hx. induction Hr as [|y r Hy Hr IH]; intros x Hx; simpl.
  - rewrite app_nil_r. exact Hx.
  - rewrite <- app_assoc. apply tight_wrap; [exact Hx|]. apply IH. exact Hy.
Qed.

Ltac tight_const :=
  match goal with |- tight ?l => let l' := eval vm_compute in l in change l with l' end;
  eexists; eexists; split; [reflexivity|]; split; [reflexivity|];
  eexists; eexists; split; reflexivity.

Lemma print_tight t : accepted t -> tight (chars (print t)).
Proof.
  induction t as [k| |s|t IH|t IH|t IH|ts IH|ts IH] using texp_rect'; intros A.
  - destruct k; tight_const.
  - tight_const.
  - destruct A as (A1 & A2 & _). apply tight_ident; [|exact A2].
    destruct s; [contradiction A1; reflexivity|discriminate].
  - cbn [print]. rewrite !chars_app. apply tight_wrap; tight_const.
  - cbn [print]. rewrite !chars_app. rewrite app_assoc.
    change (chars "dict[str, ") with (chars "dict[" ++ chars "str, "). rewrite <- !app_assoc.
    rewrite (app_assoc (chars "str, ")). apply tight_wrap; tight_const.
  - cbn [print]. rewrite !chars_app. apply tight_wrap; tight_const.
  - cbn [print]. rewrite !chars_app. apply tight_wrap; tight_const.
  - apply accepted_bar in A as (A1 & _ & A). cbn [print]. apply tight_separated.
    + destruct ts; simpl in A1; [lia|discriminate].
    + apply Forall_map. rewrite Forall_forall in *. intros [t|] Hx; [|tight_const].
      apply (IH _ Hx). apply (A _ Hx).
Qed.

(** ** Matching *)
Lemma upto_last_end c l : upto_last c (l ++ [c]) = Some l.
Proof.
  induction l as [|d l IH]; simpl.
  - rewrite Ascii.eqb_refl. reflexivity.
  - rewrite IH. reflexivity.
Qed.

Lemma dots_none l : ~ In ","%char l -> dots comma_group l = None.
Proof.
  induction l as [|c l IH]; intros N; [reflexivity|]. simpl in *.
  rewrite IH by tauto.
  destruct l as [|d l]; [reflexivity|]. simpl.
  destruct (Ascii.eqb d ",") eqn:E; [|reflexivity].
  apply Ascii.eqb_eq in E. subst. exfalso. apply N. simpl. auto.
Qed.

Lemma drop_spaces_tight l r : tight l -> drop_spaces (l ++ r) = l ++ r.
Proof.
  intros (c & t & -> & H & _). simpl. destruct (Ascii.eqb c " ") eqn:E; [|reflexivity].
  apply Ascii.eqb_eq in E. subst. discriminate H.
Qed.

Lemma dots_dict v : tight v -> ~ In ","%char v ->
  dots comma_group (chars "str, " ++ v ++ ["]"%char]) = Some (chars "str", v).
Proof.
  intros T N.
  assert (D : dots comma_group (v ++ ["]"%char]) = None).
  { apply dots_none. rewrite in_app_iff. intros [H|H]; [tauto|]. simpl in H.
    destruct H as [H|[]]; discriminate H. }
  assert (G : comma_group (v ++ ["]"%char]) = None).
  { destruct v as [|c v]; [reflexivity|]. simpl. destruct (Ascii.eqb c ",") eqn:E; [|reflexivity].
    apply Ascii.eqb_eq in E. subst. exfalso. apply N. left. reflexivity. }
  cbn [chars list_ascii_of_string app]. unfold chars. cbn [list_ascii_of_string app dots].
  rewrite D, G. cbn [comma_group]. rewrite drop_spaces_tight by exact T.
  change (Ascii.eqb " " ",") with false. change (Ascii.eqb "," ",") with true. cbn iota.
  change (drop_spaces (" "%char :: v ++ ["]"%char])) with (drop_spaces (v ++ ["]"%char])).
  rewrite drop_spaces_tight by exact T. rewrite upto_last_end. reflexivity.
Qed.

(** ** Members of [Union[...]] *)
Lemma split_skip c r cur : Ascii.eqb c " " = false ->
  split_commas (c :: r) true cur = split_commas (c :: r) false cur.
Proof. intros E. simpl. rewrite E. reflexivity. Qed.

Lemma split_piece l : ~ In ","%char l -> forall cur,
  split_commas l false cur = [cur ++ l] /\
  forall r, split_commas (l ++ ","%char :: r) false cur = (cur ++ l) :: split_commas r true [].
Proof.
  induction l as [|c l IH]; intros N cur.
  - rewrite app_nil_r. split; reflexivity.
  - simpl in N. assert (E : Ascii.eqb c "," = false).
    { destruct (Ascii.eqb c ",") eqn:E; [|reflexivity]. apply Ascii.eqb_eq in E. tauto. }
    destruct (IH ltac:(tauto) (cur ++ [c])) as [I1 I2].
    rewrite <- app_assoc in I1, I2. simpl. rewrite E. split; [exact I1|exact I2].
Qed.

Definition comma_piece (x : string) : Prop := tight (chars x) /\ ~ In ","%char (chars x).

Lemma tight_skip l r cur : tight l -> split_commas (l ++ r) true cur = split_commas (l ++ r) false cur.
Proof.
  intros (c & t & -> & H & _). apply split_skip.
  destruct (Ascii.eqb c " ") eqn:E; [|reflexivity]. apply Ascii.eqb_eq in E. subst. discriminate H.
Qed.

Lemma split_pieces x l : Forall comma_piece (x :: l) ->
  split_commas (chars (separated ", " (x :: l))) false [] = map chars (x :: l).
Proof.
  revert x. induction l as [|y l IH]; intros x H; inversion H as [|? ? [Hx1 Hx2] Hl]; subst.
  - exact (proj1 (split_piece _ Hx2 [])).
  - cbn [separated]. rewrite !chars_app. change (chars ", ") with [","%char; " "%char].
    simpl app. rewrite (proj2 (split_piece _ Hx2 [])). simpl map. f_equal.
    transitivity (split_commas (chars (separated ", " (y :: l)) ++ []) true []).
    { rewrite app_nil_r. reflexivity. }
    rewrite tight_skip.
    + rewrite app_nil_r. exact (IH y Hl).
    + apply tight_separated; [discriminate|]. eapply Forall_impl; [|exact Hl]. intros z Hz. apply Hz.
Qed.

Definition pieces (t : texp) : list string :=
  match t with
  | XDict v => ["dict[str"; print v ++ "]"]
  | _ => [print t]
  end%string.

Lemma pieces_nonempty t : exists a r, pieces t = a :: r.
Proof. destruct t; simpl; eauto. Qed.

Lemma str_app_assoc a b c : ((a ++ b) ++ c = a ++ (b ++ c))%string.
Proof. induction a; simpl; [reflexivity|]. f_equal. assumption. Qed.

Lemma separated_cons sep x l : l <> [] -> separated sep (x :: l) = (x ++ sep ++ separated sep l)%string.
Proof. destruct l; [contradiction|reflexivity]. Qed.

Lemma pieces_joined ts : separated ", " (flat_map pieces ts) = separated ", " (map print ts).
Proof.
  induction ts as [|t ts IH]; [reflexivity|].
  destruct ts as [|u ts].
  - simpl. rewrite app_nil_r. destruct t; reflexivity.
  - assert (N : flat_map pieces (u :: ts) <> []).
    { simpl. destruct (pieces_nonempty u) as (a & r & ->). discriminate. }
    cbn [map] in *. rewrite (separated_cons _ (print t)) by discriminate. rewrite <- IH.
    change (flat_map pieces (t :: u :: ts)) with (pieces t ++ flat_map pieces (u :: ts)).
    destruct t; simpl pieces; cbn [app]; rewrite ?separated_cons by (assumption || discriminate);
      reflexivity.
Qed.

Lemma drop_prefix_ident p l rest : forallb ident_char p = true -> forallb ident_char l = true ->
  (forall c r, rest = c :: r -> ident_char c = false /\ c <> "["%char) ->
  drop_prefix (p ++ ["["%char]) (l ++ rest) = None.
Proof.
  revert l. induction p as [|c p IH]; intros l Hp Hl Hr; cbn [drop_prefix app].
  - destruct l as [|d l]; cbn [drop_prefix app].
    + destruct rest as [|d r]; [reflexivity|]. destruct (Hr d r eq_refl) as [_ N].
      destruct (Ascii.eqb "[" d) eqn:E; [|reflexivity]. apply Ascii.eqb_eq in E. congruence.
    + simpl in Hl. apply andb_true_iff in Hl as [Hd _].
      destruct (Ascii.eqb "[" d) eqn:E; [|reflexivity]. apply Ascii.eqb_eq in E. subst. discriminate Hd.
  - simpl in Hp. apply andb_true_iff in Hp as [Hc Hp]. destruct l as [|d l]; cbn [drop_prefix app].
    + destruct rest as [|d r]; [reflexivity|]. destruct (Hr d r eq_refl) as [N _].
      destruct (Ascii.eqb c d) eqn:E; [|reflexivity]. apply Ascii.eqb_eq in E. congruence.
    + simpl in Hl. apply andb_true_iff in Hl as [_ Hl].
      destruct (Ascii.eqb c d); [apply IH; assumption|reflexivity].
Qed.

(** ** The shape of printed expressions *)
Lemma chars_not_word s w : text_eqb (chars s) w = String.eqb s w.
Proof. unfold text_eqb. rewrite unchars_chars. reflexivity. Qed.

Lemma text_eqb_other l w : l <> chars w -> text_eqb l w = false.
Proof.
  intros N. unfold text_eqb. destruct (String.eqb (unchars l) w) eqn:E; [|reflexivity].
  apply String.eqb_eq in E. exfalso. apply N. rewrite <- E. unfold chars, unchars.
  symmetry. apply list_ascii_of_string_of_list_ascii.
Qed.

Lemma word_start_ident w s rest : forallb ident_char (chars w) = true ->
  forallb ident_char (chars s) = true ->
  (forall c r, rest = c :: r -> ident_char c = false /\ c <> "["%char) ->
  starts (w ++ "[") (chars s ++ rest) = None.
Proof. intros Hw Hs Hr. unfold starts. rewrite chars_app. apply drop_prefix_ident; assumption. Qed.

Lemma no_rest : forall c r, @nil ascii = c :: r -> ident_char c = false /\ c <> "["%char.
Proof. intros c r E. discriminate E. Qed.

Lemma not_dict_prefix t rest : accepted t -> is_bar t = false -> (forall v, t <> XDict v) ->
  (forall c r, rest = c :: r -> ident_char c = false /\ c <> "["%char) ->
  dict_prefix (chars (print t) ++ rest) = None.
Proof.
  intros A B D R. destruct t as [k| |s|t|t|t|ts|ts]; try discriminate B.
  - unfold dict_prefix. change "dict["%string with ("dict" ++ "[")%string.
    change "Dict["%string with ("Dict" ++ "[")%string. cbn [print].
    rewrite !word_start_ident by (reflexivity || (destruct k; reflexivity) || exact R). reflexivity.
  - unfold dict_prefix. change "dict["%string with ("dict" ++ "[")%string.
    change "Dict["%string with ("Dict" ++ "[")%string. cbn [print].
    rewrite !word_start_ident by (reflexivity || exact R). reflexivity.
  - destruct A as (_ & A & _).
    unfold dict_prefix. change "dict["%string with ("dict" ++ "[")%string.
    change "Dict["%string with ("Dict" ++ "[")%string. cbn [print].
    rewrite !word_start_ident by (reflexivity || exact R || exact A). reflexivity.
  - reflexivity.
  - exfalso. exact (D t eq_refl).
  - reflexivity.
  - reflexivity.
Qed.

Lemma comma_free_not_dict t : accepted t -> comma_free t -> dict_prefix (chars (print t)) = None.
Proof.
  intros A C. assert (D : forall v, t <> XDict v).
  { intros v ->. apply C. cbn [print]. rewrite !chars_app. apply in_or_app. left. simpl. tauto. }
  destruct (is_bar t) eqn:B.
  - destruct t as [| | | | | | |ts]; try discriminate B.
    apply accepted_bar in A as (A1 & _ & A). destruct ts as [|m [|m' ts]]; simpl in A1; try lia.
    cbn [print map]. cbn [separated]. rewrite !chars_app. destruct m as [t|]; [|reflexivity].
    inversion A as [|? ? Hm _]; subst. destruct Hm as [Hm1 Hm2].
    apply not_dict_prefix; [exact Hm1|exact Hm2| |].
    + intros v ->. apply C. cbn [print map separated]. rewrite !chars_app.
      apply in_or_app. left. apply in_or_app. left. simpl. tauto.
    + intros c r E. simpl in E. injection E as <- _. split; [reflexivity|discriminate].
  - rewrite <- (app_nil_r (chars (print t))). apply not_dict_prefix; auto. apply no_rest.
Qed.

Lemma pieces_comma t : union_member t -> Forall comma_piece (pieces t).
Proof.
  intros [A C]. destruct t as [k| |s|t|t|t|ts|ts];
    try (destruct C as [C|[v C]]; [|discriminate C]; constructor; [|constructor];
         split; [apply print_tight; exact A|exact C]).
  clear C. destruct A as [A C]. constructor; [|constructor; [|constructor]]; split.
  - simpl. tight_const.
  - simpl. intros H. repeat (destruct H as [H|H]; [discriminate H|]). exact H.
  - rewrite chars_app. rewrite <- (app_nil_l (chars "]")). apply tight_wrap; [apply print_tight; exact A|].
    tight_const.
  - rewrite chars_app, in_app_iff. intros [H|H]; [exact (C H)|]. simpl in H.
    destruct H as [H|[]]. discriminate H.
Qed.

Lemma merge_pieces ts : Forall union_member ts ->
  merge_back_dicts (map chars (flat_map pieces ts)) = Ok (map (fun t => chars (print t)) ts).
Proof.
  induction 1 as [|t ts [A C] H IH]; [reflexivity|].
  cbn [flat_map]. rewrite map_app.
  destruct t as [k| |s|t|t|t|us|us];
    try (destruct C as [C|[v C]]; [|discriminate C];
         cbn [pieces map app merge_back_dicts]; rewrite (comma_free_not_dict _ A C), IH; reflexivity).
  cbn [pieces map app merge_back_dicts].
  change (dict_prefix (chars "dict[str")) with (Some (chars "str")). cbv iota beta.
  rewrite IH. cbn [rbind map print]. rewrite !chars_app. reflexivity.
Qed.

Lemma union_tokens ts : ts <> [] -> Forall union_member ts ->
  merge_back_dicts (split_commas (chars (separated ", " (map print ts))) false []) =
  Ok (map (fun t => chars (print t)) ts).
Proof.
  intros N H. rewrite <- pieces_joined.
  assert (F : Forall comma_piece (flat_map pieces ts)).
  { clear N. induction H as [|t ts Ht H IH]; [constructor|]. simpl. apply Forall_app.
    split; [apply pieces_comma; exact Ht|exact IH]. }
  assert (K : split_commas (chars (separated ", " (flat_map pieces ts))) false [] =
              map chars (flat_map pieces ts)).
  { destruct ts as [|t ts]; [contradiction|]. cbn [flat_map] in *.
    destruct (pieces_nonempty t) as (a & r & E). rewrite E in *. apply split_pieces. exact F. }
  rewrite K. apply merge_pieces. exact H.
Qed.

(** ** Members of a bar *)
Lemma split_members l : forall x done sp, forallb is_space sp = true ->
  Forall (fun y => tight (chars y) /\ passes 0 (chars y)) (x :: l) ->
  map strip (union_split_go (chars (separated " | " (x :: l))) 0 done sp) =
  map strip done ++ map chars (x :: l).
Proof.
  induction l as [|y l IH]; intros x dn sp Hs H; inversion H as [|? ? [T P] Hl]; subst.
  - cbn [separated]. rewrite <- (app_nil_r (chars x)) at 1. rewrite P. simpl.
    rewrite map_app. simpl. rewrite <- (app_nil_r (chars x)) at 1.
    rewrite (strip_tight sp (chars x) [] Hs eq_refl T). reflexivity.
  - cbn [separated]. rewrite !chars_app. rewrite P.
    change (chars " | ") with [" "%char; "|"%char; " "%char].
    cbn [app]. cbn [union_split_go].
    change (Ascii.eqb " " "[") with false. change (Ascii.eqb " " "]") with false.
    change (Ascii.eqb " " "|") with false. change (Ascii.eqb "|" "[") with false.
    change (Ascii.eqb "|" "]") with false. change (Ascii.eqb "|" "|") with true.
    change (0 <? 1)%Z with true. cbv iota.
    rewrite (IH y _ [" "%char] eq_refl Hl). rewrite map_app. cbn [map].
    rewrite <- (app_assoc sp (chars x) [" "%char]).
    rewrite (strip_tight sp (chars x) [" "%char] Hs eq_refl T).
    rewrite <- app_assoc. reflexivity.
Qed.

Lemma bar_pieces ts : accepted (XBar ts) ->
  union_split (chars (print (XBar ts))) = map (fun m => chars (member_text m)) ts.
Proof.
  intros A. apply accepted_bar in A as (A1 & _ & A). destruct ts as [|m ts]; [simpl in A1; lia|].
  unfold union_split. cbn [print]. cbn [map]. rewrite split_members; [|reflexivity|].
  - cbn [map app]. rewrite map_map. reflexivity.
  - change ((match m with Some t => print t | None => "None"%string end) ::
            map (fun m => match m with Some t => print t | None => "None"%string end) ts)
      with (map member_text (m :: ts)).
    apply Forall_map. eapply Forall_impl; [|exact A]. intros [t|] H; simpl.
    + destruct H as [H1 H2]. split; [apply print_tight; exact H1|].
      apply (proj2 (print_passes t H1) H2). lia.
    + split; [tight_const|apply passes_plain; reflexivity].
Qed.

Lemma single_piece t : accepted t -> is_bar t = false -> length (union_split (chars (print t))) = 1.
Proof.
  intros A B. unfold union_split. rewrite map_length.
  rewrite <- (app_nil_r (chars (print t))). rewrite (proj2 (print_passes t A) B) by lia. reflexivity.
Qed.

Lemma not_none t : accepted t -> is_bar t = false -> text_eqb (chars (print t)) "None" = false.
Proof.
  intros A B. rewrite chars_not_word. destruct t as [k| |s|t|t|t|ts|ts]; try reflexivity.
  - destruct k; reflexivity.
  - destruct A as (_ & _ & A). apply String.eqb_neq. intros E. apply A. simpl in E. rewrite E. simpl. tauto.
  - discriminate B.
Qed.

(** ** Parsing *)
Definition words : list string :=
  ["str"; "int"; "float"; "bool"; "date"; "datetime"; "Any"]%string.
Definition no_word (s : text) : Prop := Forall (fun w => text_eqb s w = false) words.

(** [str_to_types] past the single words *)
Definition composite (n : nat) (s : text) (opt : bool) : res types :=
  let args := union_split s in
  if Nat.eqb (length args) 1 then
    match starts "Union[" s with
    | Some r =>
        match upto_last "]" r with
        | None => Err EAssertion
        | Some inner =>
            let* toks := merge_back_dicts (split_commas inner false []) in
            let* us := all_ok (fun t => str_to_types n t true) toks in
            Ok (req opt [MUnion us])
        end
    | None =>
    match starts "Optional[" s with
    | Some r =>
        match upto_last "]" r with
        | None => Err EAssertion
        | Some inner => str_to_types n inner true
        end
    | None =>
    match list_prefix s with
    | Some r =>
        match upto_last "]" r with
        | None => Err EAssertion
        | Some inner => let* it := str_to_types n inner false in Ok (req opt [MListOf it])
        end
    | None =>
    match dict_prefix s with
    | Some r =>
        match dots comma_group r with
        | None => Err EAssertion
        | Some (_, inner) => let* it := str_to_types n inner false in Ok (req opt [MDictOf it])
        end
    | None =>
    match starts "Annotated[" s with
    | Some r =>
        match dots comma_group1 r with
        | None => Err EAssertion
        | Some (inst, spec) => let* ts := str_to_types n inst opt in apply_link ts spec
        end
    | None => Ok (req opt [MUnresolved (unchars s)])
    end end end end end
  else
    let rs := filter (fun a => negb (text_eqb a "None")) args in
    let opt' := opt || negb (Nat.eqb (length args) (length rs)) in
    match rs with
    | [r] => str_to_types n r opt'
    | _ => let* us := all_ok (fun t => str_to_types n t true) rs in
           Ok (req opt' [MUnion us])
    end.

Lemma str_composite n s opt : no_word s -> str_to_types (S n) s opt = composite n s opt.
Proof.
  unfold no_word, words. intros H.
  repeat match goal with K : Forall _ (_ :: _) |- _ => inversion K; clear K; subst end.
  cbn [str_to_types].
  repeat match goal with K : text_eqb s _ = false |- _ => rewrite K; clear K end. reflexivity.
Qed.

Lemma req_unless opt ts : req opt ts = required_unless opt ts.
Proof. reflexivity. Qed.

Lemma all_ok_map {A B C} (f : B -> res C) (g : A -> B) (h : A -> C) l :
  Forall (fun x => f (g x) = Ok (h x)) l -> all_ok f (map g l) = Ok (map h l).
Proof. induction 1 as [|x l E H IH]; [reflexivity|]. cbn [map all_ok]. rewrite E, IH. reflexivity. Qed.

Lemma bracket_no_word c s : (forall w, In w words -> text_eqb (c ++ s) w = false) -> no_word (c ++ s).
Proof. intros H. apply Forall_forall. exact H. Qed.

Ltac no_word_tac :=
  unfold no_word, words; repeat constructor; reflexivity.

Lemma print_length_in sep l x : In x l -> length (chars x) <= length (chars (separated sep l)).
Proof.
  induction l as [|y l IH]; intros H; [destruct H|].
  destruct l as [|z l].
  - destruct H as [->|[]]. reflexivity.
  - rewrite separated_cons by discriminate. rewrite !chars_app, !app_length.
    destruct H as [->|H]; [lia|]. specialize (IH H). lia.
Qed.

Lemma print_length_bar l x : 2 <= length l -> In x l -> Forall (fun y => chars y <> []) l ->
  length (chars x) < length (chars (separated " | " l)).
Proof.
  intros L I N. destruct l as [|y [|z l]]; simpl in L; try lia.
  rewrite separated_cons by discriminate. rewrite !chars_app, !app_length.
  change (length (chars " | ")) with 3. destruct I as [->|I]; [lia|].
  pose proof (print_length_in " | " (z :: l) x I). lia.
Qed.

Lemma somes_map_filter (ts : list (option texp)) : Forall (on_some bar_member) ts ->
  filter (fun a => negb (text_eqb a "None")) (map (fun m => chars (member_text m)) ts) =
  map (fun t => chars (print t)) (somes ts).
Proof.
  induction 1 as [|[t|] ts H _ IH]; [reflexivity| |].
  - simpl in H. cbn [map filter member_text]. destruct H as [H1 H2]. rewrite (not_none t H1 H2).
    cbn [negb somes map]. f_equal. exact IH.
  - cbn [map filter member_text].
    change (text_eqb (chars "None") "None") with true. cbn [negb somes]. exact IH.
Qed.

Lemma somes_length {A} (ts : list (option A)) :
  length (somes ts) <= length ts /\ (negb (Nat.eqb (length ts) (length (somes ts))) = has_none ts).
Proof.
  induction ts as [|[t|] ts [IH1 IH2]]; [split; reflexivity| |]; cbn [somes length].
  - split; [lia|]. change (has_none (Some t :: ts)) with (has_none ts). exact IH2.
  - split; [lia|]. change (has_none (None :: ts)) with true.
    destruct (Nat.eqb (S (length ts)) (length (somes ts))) eqn:E; [apply Nat.eqb_eq in E; lia|reflexivity].
Qed.

Lemma somes_map {A B} (f : A -> B) (ts : list (option A)) :
  somes (map (fun m => match m with Some t => Some (f t) | None => None end) ts) = map f (somes ts).
Proof. induction ts as [|[t|] ts IH]; simpl; [reflexivity|rewrite IH; reflexivity|exact IH]. Qed.

Lemma in_somes {A} (x : A) ts : In x (somes ts) -> In (Some x) ts.
Proof.
  induction ts as [|[t|] ts IH]; simpl; [tauto| |]; intros H.
  - destruct H as [->|H]; [left; reflexivity|right; exact (IH H)].
  - right. exact (IH H).
Qed.

Definition by_name (s : string) : types := [MUnresolved s].

Lemma parse_print t : accepted t -> forall n opt, length (chars (print t)) < n ->
  str_to_types n (chars (print t)) opt = Ok (denote by_name t opt).
Proof.
  induction t as [k| |s|t IH|t IH|t IH|ts IH|ts IH] using texp_rect'; intros A n opt L;
    (destruct n as [|n]; [lia|]).
  - destruct k; try reflexivity; exfalso; simpl in A; tauto.
  - reflexivity.
  - destruct A as (A1 & A2 & A3). rewrite str_composite.
    2:{ unfold no_word. apply Forall_forall. intros w Hw. cbn [print]. rewrite chars_not_word.
        apply String.eqb_neq. intros ->. apply A3. unfold words in Hw. unfold reserved. simpl in *. tauto. }
    unfold composite. rewrite single_piece by (simpl; repeat split; auto). cbn [Nat.eqb print].
    assert (E : forall w, forallb ident_char (chars w) = true ->
                starts (w ++ "[") (chars s) = None).
    { intros w Hw. rewrite <- (app_nil_r (chars s)). apply word_start_ident; auto. apply no_rest. }
    unfold list_prefix, dict_prefix.
    pose proof (E "Union"%string eq_refl : starts "Union[" (chars s) = None) as ->.
    pose proof (E "Optional"%string eq_refl : starts "Optional[" (chars s) = None) as ->.
    pose proof (E "list"%string eq_refl : starts "list[" (chars s) = None) as ->.
    pose proof (E "List"%string eq_refl : starts "List[" (chars s) = None) as ->.
    pose proof (E "dict"%string eq_refl : starts "dict[" (chars s) = None) as ->.
    pose proof (E "Dict"%string eq_refl : starts "Dict[" (chars s) = None) as ->.
    pose proof (E "Annotated"%string eq_refl : starts "Annotated[" (chars s) = None) as ->.
    rewrite unchars_chars. reflexivity.
  - rewrite str_composite by no_word_tac.
    unfold composite. rewrite single_piece by (exact A || reflexivity). cbn [Nat.eqb print].
    rewrite !chars_app.
    change (starts "Union[" (chars "list[" ++ chars (print t) ++ chars "]")) with (@None text).
    change (starts "Optional[" (chars "list[" ++ chars (print t) ++ chars "]")) with (@None text).
    change (list_prefix (chars "list[" ++ chars (print t) ++ chars "]"))
      with (Some (chars (print t) ++ ["]"%char])).
    cbv iota beta. rewrite upto_last_end.
    cbn [print] in L. rewrite !chars_app, !app_length in L. simpl in L.
    rewrite IH by (assumption || lia). reflexivity.
  - rewrite str_composite by no_word_tac.
    unfold composite. rewrite single_piece by (exact A || reflexivity). cbn [Nat.eqb print].
    destruct A as [A C]. rewrite !chars_app.
    change (starts "Union[" (chars "dict[str, " ++ chars (print t) ++ chars "]")) with (@None text).
    change (starts "Optional[" (chars "dict[str, " ++ chars (print t) ++ chars "]")) with (@None text).
    change (list_prefix (chars "dict[str, " ++ chars (print t) ++ chars "]")) with (@None text).
    change (dict_prefix (chars "dict[str, " ++ chars (print t) ++ chars "]"))
      with (Some (chars "str, " ++ chars (print t) ++ ["]"%char])).
    cbv iota beta. rewrite dots_dict by (apply print_tight; exact A) || exact C.
    cbv iota beta. cbn [print] in L. rewrite !chars_app, !app_length in L. simpl in L.
    rewrite IH by (assumption || lia). reflexivity.
  - rewrite str_composite by no_word_tac.
    unfold composite. rewrite single_piece by (exact A || reflexivity). cbn [Nat.eqb print].
    rewrite !chars_app.
    change (starts "Union[" (chars "Optional[" ++ chars (print t) ++ chars "]")) with (@None text).
    change (starts "Optional[" (chars "Optional[" ++ chars (print t) ++ chars "]"))
      with (Some (chars (print t) ++ ["]"%char])).
    cbv iota beta. rewrite upto_last_end.
    cbn [print] in L. rewrite !chars_app, !app_length in L. simpl in L.
    rewrite IH by (assumption || lia). reflexivity.
  - pose proof A as A'. apply accepted_union in A' as [N M].
    rewrite str_composite by no_word_tac.
    unfold composite. rewrite single_piece by (exact A || reflexivity). cbn [Nat.eqb print].
    rewrite !chars_app.
    change (starts "Union[" (chars "Union[" ++ chars (separated ", " (map print ts)) ++ chars "]"))
      with (Some (chars (separated ", " (map print ts)) ++ ["]"%char])).
    cbv iota beta. rewrite upto_last_end. rewrite union_tokens by assumption. cbn [rbind].
    cbn [print] in L. rewrite !chars_app, !app_length in L.
    change (length (chars "Union[")) with 6 in L.
    rewrite (all_ok_map _ _ (fun t => denote by_name t true)); [reflexivity|].
    rewrite Forall_forall in *. intros x Hx. apply IH; [exact Hx|apply M; exact Hx|].
    pose proof (print_length_in ", " (map print ts) (print x) (in_map print ts x Hx)). lia.
  - pose proof A as A'. apply accepted_bar in A' as (B1 & B2 & B3).
    assert (LM : forall x, In x (somes ts) -> length (chars (print x)) < n).
    { intros x Hx. apply in_somes in Hx. cbn [print] in L.
      assert (K := print_length_bar (map member_text ts) (print x)).
      rewrite map_length in K. specialize (K B1 (in_map member_text ts (Some x) Hx)).
      assert (NE : Forall (fun y => chars y <> []) (map member_text ts)).
      { apply Forall_map. eapply Forall_impl; [|exact B3]. intros [y|] Hy; [|discriminate].
        destruct Hy as [Hy _]. simpl. destruct (print_tight y Hy) as (c & r & -> & _). discriminate. }
      specialize (K NE). unfold member_text in K. lia. }
    rewrite str_composite.
    2:{ unfold no_word. apply Forall_forall. intros w Hw. apply text_eqb_other. intros E.
        assert (U := bar_pieces ts A). rewrite E in U.
        assert (U1 : length (union_split (chars w)) = 1).
        { unfold words in Hw. simpl in Hw. repeat (destruct Hw as [<-|Hw]; [reflexivity|]). destruct Hw. }
        rewrite U, map_length in U1. lia. }
    unfold composite. rewrite bar_pieces by exact A.
    rewrite somes_map_filter by exact B3. rewrite !map_length.
    destruct (Nat.eqb (length ts) 1) eqn:E1; [apply Nat.eqb_eq in E1; lia|].
    rewrite (proj2 (somes_length ts)).
    cbn [denote]. rewrite !somes_map.
    assert (IH' : Forall (fun t => forall n opt, length (chars (print t)) < n ->
                   str_to_types n (chars (print t)) opt = Ok (denote by_name t opt)) (somes ts)).
    { rewrite Forall_forall in *. intros x Hx. apply in_somes in Hx.
      exact (IH _ Hx (proj1 (B3 _ Hx))). }
    destruct (somes ts) as [|a [|b r]] eqn:ES; [contradiction| |].
    + cbn [map hd]. inversion IH' as [|? ? Ha _]; subst. apply Ha. apply LM. left. reflexivity.
    + rewrite (all_ok_map _ _ (fun t => denote by_name t true)).
      * reflexivity.
      * rewrite Forall_forall in *. intros x Hx. apply IH'; [exact Hx|]. apply LM. exact Hx.
Qed.

(** ** Every text is done with in as many steps as it has characters *)
Lemma upto_last_len c l x : upto_last c l = Some x -> length x < length l.
Proof.
  revert x. induction l as [|d l IH]; intros x H; simpl in H; [discriminate H|].
  destruct (upto_last c l) as [y|] eqn:E.
  - injection H as <-. specialize (IH _ eq_refl). simpl. lia.
  - destruct (Ascii.eqb c d); [injection H as <-; simpl; lia|discriminate H].
Qed.
Lemma upto_last1_len c l x : upto_last1 c l = Some x -> length x < length l.
Proof.
  destruct l as [|d l]; simpl; [discriminate|]. destruct (upto_last c l) as [y|] eqn:E; [|discriminate].
  intros H. injection H as <-. apply upto_last_len in E. simpl. lia.
Qed.
Lemma drop_prefix_len p : forall l r, drop_prefix p l = Some r -> length l = length p + length r.
Proof.
  induction p as [|c p IH]; intros [|d l] r H; simpl in H; try discriminate H.
  - injection H as <-. reflexivity.
  - injection H as <-. reflexivity.
  - destruct (Ascii.eqb c d); [|discriminate H]. simpl. rewrite (IH _ _ H). reflexivity.
Qed.
Lemma drop_spaces_len l : length (drop_spaces l) <= length l.
Proof. induction l as [|c l IH]; simpl; [lia|]. destruct (Ascii.eqb c " "); simpl; lia. Qed.
Lemma comma_group_len l x : comma_group l = Some x -> length x < length l.
Proof.
  destruct l as [|c l]; simpl; [discriminate|]. destruct (Ascii.eqb c ","); [|discriminate].
  intros H. apply upto_last_len in H. pose proof (drop_spaces_len l). lia.
Qed.
Lemma spaces_group1_len l x : spaces_group1 l = Some x -> length x < length l.
Proof.
  revert x. induction l as [|c l IH]; intros x; cbn [spaces_group1]; [discriminate|].
  destruct (Ascii.eqb c " ").
  - destruct (spaces_group1 l) as [y|] eqn:E.
    + intros H. injection H as <-. specialize (IH _ eq_refl). simpl. lia.
    + apply upto_last1_len.
  - apply upto_last1_len.
Qed.
Lemma comma_group1_len l x : comma_group1 l = Some x -> length x < length l.
Proof.
  destruct l as [|c l]; simpl; [discriminate|]. destruct (Ascii.eqb c ","); [|discriminate].
  intros H. apply spaces_group1_len in H. lia.
Qed.
Lemma dots_len {A} (x : text -> option A) l p a : dots x l = Some (p, a) ->
  length p <= length l /\ exists r, x r = Some a /\ length r < length l.
Proof.
  revert p a. induction l as [|c l IH]; intros p a H; simpl in H; [discriminate H|].
  destruct (dots x l) as [[p' a']|] eqn:E.
  - injection H as <- <-. destruct (IH _ _ eq_refl) as (H1 & r & H2 & H3). simpl.
    split; [lia|]. exists r. split; [exact H2|lia].
  - destruct (x l) as [a'|] eqn:E2; [|discriminate H]. injection H as <- <-. simpl.
    split; [lia|]. exists l. split; [exact E2|lia].
Qed.

Definition total (l : list text) : nat := fold_right (fun x n => length x + 1 + n) 0 l.
Lemma total_app a b : total (a ++ b) = total a + total b.
Proof. induction a as [|x a IH]; simpl; [reflexivity|]. rewrite IH. lia. Qed.
Lemma total_in x l : In x l -> length x + 1 <= total l.
Proof. induction l as [|y l IH]; simpl; [tauto|]. intros [->|H]; [lia|]. specialize (IH H). lia. Qed.

Lemma split_commas_total l : forall b cur, total (split_commas l b cur) <= length l + length cur + 1.
Proof.
  induction l as [|c l IH]; intros b cur; cbn [split_commas].
  - simpl. lia.
  - destruct (b && Ascii.eqb c " ").
    + specialize (IH true cur). simpl. lia.
    + destruct (Ascii.eqb c ",").
      * specialize (IH true []). simpl in *. lia.
      * specialize (IH false (cur ++ [c])). rewrite app_length in IH. simpl in *. lia.
Qed.

Lemma merge_len n : forall l m, length l <= n -> merge_back_dicts l = Ok m ->
  forall x, In x m -> length x <= total l.
Proof.
  induction n as [|n IH]; intros [|a l] m L H x I; simpl in L; try lia; cbn [merge_back_dicts] in H.
  - injection H as <-. destruct I.
  - injection H as <-. destruct I.
  - destruct (dict_prefix a).
    + destruct l as [|b l]; [discriminate H|]. simpl in L.
      destruct (merge_back_dicts l) as [m'|] eqn:E; [|discriminate H].
      cbn [rbind] in H. injection H as <-. destruct I as [<-|I].
      * rewrite !app_length. simpl. lia.
      * pose proof (IH l m' ltac:(lia) E x I). simpl. lia.
    + destruct (merge_back_dicts l) as [m'|] eqn:E; [|discriminate H].
      cbn [rbind] in H. injection H as <-. destruct I as [<-|I].
      * simpl. lia.
      * pose proof (IH l m' ltac:(lia) E x I). simpl. lia.
Qed.
Lemma merge_err n : forall l e, length l <= n -> merge_back_dicts l = Err e -> e = EIndexError.
Proof.
  induction n as [|n IH]; intros [|a l] e L H; simpl in L; try lia; cbn [merge_back_dicts] in H;
    try discriminate H.
  destruct (dict_prefix a).
  - destruct l as [|b l]; [congruence|]. simpl in L.
    destruct (merge_back_dicts l) as [m'|e'] eqn:E; [discriminate H|]. cbn [rbind] in H.
    injection H as <-. exact (IH l e' ltac:(lia) E).
  - destruct (merge_back_dicts l) as [m'|e'] eqn:E; [discriminate H|]. cbn [rbind] in H.
    injection H as <-. exact (IH l e' ltac:(lia) E).
Qed.

Lemma split_go_total l : forall d dn cur,
  total (union_split_go l d dn cur) = length l + length cur + 1 + total dn.
Proof.
  induction l as [|c l IH]; intros d dn cur; simpl.
  - rewrite total_app. simpl. lia.
  - destruct (Ascii.eqb c "["); [|destruct (Ascii.eqb c "]"); [|destruct (Ascii.eqb c "|")]].
    + rewrite IH, app_length. simpl. lia.
    + rewrite IH, app_length. simpl. lia.
    + destruct (d <? 1)%Z.
      * rewrite IH, total_app. simpl. lia.
      * rewrite IH, app_length. simpl. lia.
    + rewrite IH, app_length. simpl. lia.
Qed.

Lemma lstrip_len l : length (lstrip l) <= length l.
Proof. induction l as [|c l IH]; simpl; [lia|]. destruct (is_space c); simpl; lia. Qed.
Lemma strip_len l : length (strip l) <= length l.
Proof.
  unfold strip. rewrite rev_length. pose proof (lstrip_len (rev (lstrip l))).
  pose proof (lstrip_len l). rewrite rev_length in H. lia.
Qed.

Lemma total_in_many x l : In x l -> 2 <= length l -> length x + 2 <= total l.
Proof.
  destruct l as [|a [|b l]]; simpl; intros I L; try lia.
  destruct I as [->|[->|I]]; [lia|lia|]. apply total_in in I. lia.
Qed.

Lemma split_len l x : length (union_split l) <> 1 -> In x (union_split l) -> length x < length l.
Proof.
  unfold union_split. rewrite map_length. intros N I. apply in_map_iff in I as (y & <- & I).
  pose proof (split_go_total l 0 [] []) as T. pose proof (strip_len y).
  simpl in T. pose proof (total_in_many _ _ I) as M.
  destruct (union_split_go l 0 [] []) as [|a [|b r]]; [destruct I|contradiction N; reflexivity|].
  simpl in M. simpl in T. assert (2 <= S (S (length r))) by lia. specialize (M H0). simpl in *. lia.
Qed.

Lemma all_ok_err {A B} (f : A -> res B) l e : all_ok f l = Err e -> exists x, In x l /\ f x = Err e.
Proof.
  induction l as [|a l IH]; cbn [all_ok]; intros H; [discriminate H|].
  destruct (f a) as [b|e'] eqn:E; cbn [rbind] in H.
  - destruct (all_ok f l) as [ys|e'']; cbn [rbind] in H; [discriminate H|].
    destruct (IH H) as (x & I & F). exists x. split; [right; exact I|exact F].
  - injection H as <-. exists a. split; [left; reflexivity|exact E].
Qed.

Lemma apply_link_err ts spec : apply_link ts spec <> Err ERecursion.
Proof.
  unfold apply_link. repeat match goal with |- context [match ?x with _ => _ end] => destruct x end;
    discriminate.
Qed.

Lemma parse_never_deep : forall n s opt, length s < n -> str_to_types n s opt <> Err ERecursion.
Proof.
  induction n as [|n IH]; intros s opt L; [lia|].
  assert (C : composite n s opt <> Err ERecursion).
  { unfold composite. destruct (Nat.eqb (length (union_split s)) 1) eqn:N.
    - assert (PL : forall p r, starts p s = Some r -> length s = length (chars p) + length r).
      { intros p r E. exact (drop_prefix_len _ _ _ E). }
      destruct (starts "Union[" s) as [r|] eqn:E1.
      { apply PL in E1. simpl in E1. destruct (upto_last "]" r) as [i|] eqn:E2; [|discriminate].
        apply upto_last_len in E2. pose proof (split_commas_total i false []) as T. simpl in T.
        destruct (merge_back_dicts (split_commas i false [])) as [toks|e] eqn:E3; cbn [rbind].
        - destruct (all_ok (fun t => str_to_types n t true) toks) as [us|e] eqn:E4; cbn [rbind]; [discriminate|].
          intros H. injection H as ->. apply all_ok_err in E4 as (x & I & F).
          pose proof (merge_len _ _ _ (le_n _) E3 x I). apply IH in F; [exact F|lia].
        - apply (merge_err _ _ _ (le_n _)) in E3. subst. discriminate. }
      destruct (starts "Optional[" s) as [r|] eqn:E2.
      { apply PL in E2. simpl in E2. destruct (upto_last "]" r) as [i|] eqn:E3; [|discriminate].
        apply upto_last_len in E3. apply IH. lia. }
      destruct (list_prefix s) as [r|] eqn:E3.
      { assert (length s = 5 + length r).
        { unfold list_prefix in E3. destruct (starts "list[" s) eqn:E; [injection E3 as ->|];
          [apply PL in E|apply PL in E3]; simpl in *; lia. }
        destruct (upto_last "]" r) as [i|] eqn:E4; [|discriminate].
        apply upto_last_len in E4. pose proof (IH i false) as K.
        destruct (str_to_types n i false); cbn [rbind]; [discriminate|]. apply K. lia. }
      destruct (dict_prefix s) as [r|] eqn:E4.
      { assert (length s = 5 + length r).
        { unfold dict_prefix in E4. destruct (starts "dict[" s) eqn:E; [injection E4 as ->|];
          [apply PL in E|apply PL in E4]; simpl in *; lia. }
        destruct (dots comma_group r) as [[p i]|] eqn:E5; [|discriminate].
        apply dots_len in E5 as (_ & r' & E5 & E6). apply comma_group_len in E5.
        pose proof (IH i false) as K.
        destruct (str_to_types n i false); cbn [rbind]; [discriminate|]. apply K. lia. }
      destruct (starts "Annotated[" s) as [r|] eqn:E5; [|discriminate].
      apply PL in E5. simpl in E5.
      destruct (dots comma_group1 r) as [[p i]|] eqn:E6; [|discriminate].
      apply dots_len in E6 as (E6 & _). pose proof (IH p opt) as K.
      destruct (str_to_types n p opt); cbn [rbind]; [apply apply_link_err|]. apply K. lia.
    - apply Nat.eqb_neq in N.
      assert (F : forall x, In x (filter (fun a => negb (text_eqb a "None")) (union_split s)) ->
                  length x < length s).
      { intros x I. apply filter_In in I as [I _]. exact (split_len s x N I). }
      set (rs := filter _ _) in *.
      assert (K : forall o, (let* us := all_ok (fun t => str_to_types n t true) rs in
                             Ok (req o [MUnion us])) <> Err ERecursion).
      { intros o. destruct (all_ok (fun t => str_to_types n t true) rs) as [us|e] eqn:E; cbn [rbind]; [discriminate|].
        intros H. injection H as ->. apply all_ok_err in E as (x & I & G). apply IH in G; [exact G|].
        specialize (F x I). lia. }
      destruct rs as [|a [|b r]]; [apply K| |apply K].
      apply IH. specialize (F a (or_introl eq_refl)). lia. }
  cbn [str_to_types].
  repeat match goal with |- (if ?b then _ else _) <> _ =>
    match b with text_eqb _ _ => destruct b; [discriminate|] end end.
  exact C.
Qed.

(** ** [Annotated[...]] *)
Lemma dots_none1 l : ~ In ","%char l -> dots comma_group1 l = None.
Proof.
  induction l as [|c l IH]; intros N; [reflexivity|]. simpl in *.
  rewrite IH by tauto.
  destruct l as [|d l]; [reflexivity|]. cbn [comma_group1].
  destruct (Ascii.eqb d ",") eqn:E; [|reflexivity].
  apply Ascii.eqb_eq in E. subst. exfalso. apply N. simpl. auto.
Qed.

Lemma upto_last1_end c l : l <> [] -> upto_last1 c (l ++ [c]) = Some l.
Proof. intros N. destruct l as [|d l]; [contradiction|]. simpl. rewrite upto_last_end. reflexivity. Qed.

Lemma dots_annotated p v : p <> [] -> tight v -> ~ In ","%char v ->
  dots comma_group1 (p ++ chars ", " ++ v ++ ["]"%char]) = Some (p, v).
Proof.
  intros NP T N.
  assert (NV : v <> []). { destruct T as (c & r & -> & _). discriminate. }
  assert (D : dots comma_group1 (" "%char :: v ++ ["]"%char]) = None).
  { apply dots_none1. simpl. rewrite in_app_iff. intros [H|[H|H]]; [discriminate H|tauto|]. simpl in H.
    destruct H as [H|[]]; discriminate H. }
  assert (S1 : spaces_group1 (" "%char :: v ++ ["]"%char]) = Some v).
  { cbn [spaces_group1]. change (Ascii.eqb " " " ") with true. cbv iota.
    assert (Q : spaces_group1 (v ++ ["]"%char]) = Some v).
    { destruct T as (c & r & -> & H & _). cbn [app spaces_group1].
      destruct (Ascii.eqb c " ") eqn:E; [apply Ascii.eqb_eq in E; subst; discriminate H|].
      apply (upto_last1_end "]" (c :: r)). discriminate. }
    rewrite Q. reflexivity. }
  change (chars ", ") with [","%char; " "%char]. cbn [app].
  assert (DC : forall c r, dots comma_group1 (c :: r) =
    match dots comma_group1 r with
    | Some (p, a) => Some (c :: p, a)
    | None => match comma_group1 r with Some a => Some ([c], a) | None => None end
    end) by reflexivity.
  induction p as [|c p IH]; [contradiction|]. cbn [app]. rewrite DC.
  destruct p as [|d p].
  - cbn [app]. rewrite DC, D. cbn [comma_group1].
    change (Ascii.eqb " " ",") with false. change (Ascii.eqb "," ",") with true. cbv iota.
    rewrite S1. reflexivity.
  - rewrite IH by discriminate. reflexivity.
Qed.

Lemma annotated_parse t spec : accepted t -> tight (chars spec) ->
  forallb (fun c => plain_char c && negb (Ascii.eqb c ",")) (chars spec) = true ->
  forall n opt, length (chars (print t)) < n ->
  str_to_types (S n) (chars ("Annotated[" ++ print t ++ ", " ++ spec ++ "]")) opt =
  apply_link (denote by_name t opt) (chars spec).
Proof.
  intros A T P n opt L.
  assert (PP : forallb plain_char (chars spec) = true).
  { eapply forallb_imp; [|exact P]. intros c H. apply andb_true_iff in H. apply H. }
  assert (NC : ~ In ","%char (chars spec)).
  { intros I. rewrite forallb_forall in P. specialize (P _ I). discriminate P. }
  rewrite !chars_app.
  set (s := chars "Annotated[" ++ chars (print t) ++ chars ", " ++ chars spec ++ chars "]").
  rewrite str_composite by (unfold s; no_word_tac).
  unfold composite.
  assert (U : length (union_split s) = 1).
  { unfold union_split. rewrite map_length. rewrite <- (app_nil_r s).
    assert (K : passes 0 s).
    { unfold s. change (chars "Annotated[") with (chars "Annotated" ++ ["["%char]).
      rewrite <- app_assoc. cbn [app]. rewrite !app_assoc.
      apply (passes_wrap 0 (chars "Annotated") ((chars (print t) ++ chars ", ") ++ chars spec)); [reflexivity|].
      apply passes_app; [apply passes_app|].
      - apply (proj1 (print_passes t A)). lia.
      - apply passes_plain. reflexivity.
      - apply passes_plain. exact PP. }
    rewrite K. reflexivity. }
  rewrite U. cbn [Nat.eqb]. unfold s. clear U s.
  assert (D := dots_annotated (chars (print t)) (chars spec)).
  change (chars "]") with ["]"%char].
  set (r := chars (print t) ++ chars ", " ++ chars spec ++ ["]"%char]) in *.
  change (starts "Union[" (chars "Annotated[" ++ r)) with (@None text).
  change (starts "Optional[" (chars "Annotated[" ++ r)) with (@None text).
  change (list_prefix (chars "Annotated[" ++ r)) with (@None text).
  change (dict_prefix (chars "Annotated[" ++ r)) with (@None text).
  change (starts "Annotated[" (chars "Annotated[" ++ r)) with (Some r).
  cbv iota beta. rewrite D; [| |exact T|exact NC].
  - rewrite parse_print by assumption. reflexivity.
  - destruct (print_tight t A) as (c & x & -> & _). discriminate.
Qed.
