(** UconfProofs.v -- lemmas about the configuration and the uploaders. *)
From Verif Require Import Base Mon PyStr StrDict KeypathModel KeypathProofs PyInt RegexModel
  RegexSpec RegexProofs UconfModel UconfSpec.
Open Scope nat_scope.
Open Scope string_scope.
Open Scope list_scope.

(** ** Reading *)

Lemma conf_nth_front : forall l i v, nth_error l i = Some v ->
  conf_nth l (Z.of_nat i) = Ok v.
Proof.
  intros l i v H. unfold conf_nth.
  destruct (Z.of_nat i <? 0)%Z eqn:E; [apply Z.ltb_lt in E; lia|].
  rewrite E. rewrite Nat2Z.id, H. reflexivity.
Qed.

Lemma nth_error_rev : forall (A : Type) (l : list A) i, i < length l ->
  nth_error (rev l) i = nth_error l (length l - S i).
Proof.
  intros A l i H. destruct l as [|a0 l0] eqn:El; [cbn in H; lia|]. rewrite <- El in *.
  assert (L2 : length l - S i < length l) by lia.
  rewrite (nth_error_nth' l a0 L2).
  rewrite (nth_error_nth' (rev l) a0) by (rewrite rev_length; exact H).
  f_equal. apply rev_nth. exact H.
Qed.

Lemma conf_nth_back : forall l i v, nth_error (rev l) i = Some v ->
  conf_nth l (- Z.of_nat (S i)) = Ok v.
Proof.
  intros l i v H.
  assert (L : i < length l).
  { rewrite <- rev_length. apply nth_error_Some. congruence. }
  rewrite nth_error_rev in H by exact L. unfold conf_nth.
  destruct (- Z.of_nat (S i) <? 0)%Z eqn:E; [|apply Z.ltb_ge in E; lia].
  destruct (- Z.of_nat (S i) + Z.of_nat (length l) <? 0)%Z eqn:E2.
  { apply Z.ltb_lt in E2. lia. }
  replace (Z.to_nat (- Z.of_nat (S i) + Z.of_nat (length l))) with (length l - S i) by lia.
  rewrite H. reflexivity.
Qed.

Lemma conf_nth_inv : forall l i v, conf_nth l i = Ok v ->
  (exists n, i = Z.of_nat n /\ nth_error l n = Some v) \/
  (exists n, i = (- Z.of_nat (S n))%Z /\ nth_error (rev l) n = Some v).
Proof.
  intros l i v H. unfold conf_nth in H.
  destruct (i <? 0)%Z eqn:E.
  - apply Z.ltb_lt in E. right.
    destruct (i + Z.of_nat (length l) <? 0)%Z eqn:E2; [discriminate H|].
    apply Z.ltb_ge in E2.
    destruct (nth_error l (Z.to_nat (i + Z.of_nat (length l)))) as [x|] eqn:N; [|discriminate H].
    injection H as ->. exists (Z.to_nat (- i - 1)). split; [lia|].
    rewrite nth_error_rev by lia. rewrite <- N. f_equal. lia.
  - rewrite E in H. left. apply Z.ltb_ge in E.
    destruct (nth_error l (Z.to_nat i)) as [x|] eqn:N; [|discriminate H].
    injection H as ->. exists (Z.to_nat i). split; [lia|exact N].
Qed.

(** One step of a lookup *)
Definition step_in (val : conf) (cur : string) : res conf :=
  match val with
  | CList l =>
      match py_int cur with
      | None => Err EValueError
      | Some i => if (i <? Z.of_nat (length l))%Z then conf_nth l i else Ok CNull
      end
  | CDict d => Ok (match sget cur d with Some v => v | None => CNull end)
  | _ => Ok CNull
  end.

Lemma get_in_cons : forall cur rest val,
  get_in (cur :: rest) val =
  let* next := step_in val cur in match rest with [] => Ok next | _ => get_in rest next end.
Proof.
  intros cur rest val. destruct val; try reflexivity.
  cbn [get_in step_in rbind]. destruct rest; reflexivity.
Qed.

Lemma get_in_null : forall ks, get_in ks CNull = Ok CNull.
Proof. destruct ks; reflexivity. Qed.

Lemma get_in_items : forall ks c r, ks <> [] -> item_at c ks r -> get_in ks c = Ok r.
Proof.
  induction ks as [|k ks IH]; intros c r N H; [congruence|].
  rewrite get_in_cons.
  assert (exists v, step_in c k = Ok v /\ item_at v ks r) as (v & -> & H').
  { inversion H; subst.
    - exists v. split; [|assumption]. cbn. match goal with E : sget _ _ = _ |- _ => rewrite E end.
      reflexivity.
    - exists v. split; [|assumption]. cbn. match goal with E : py_int _ = _ |- _ => rewrite E end.
      assert (L : i < length l) by (apply nth_error_Some; congruence).
      destruct (Z.of_nat i <? Z.of_nat (length l))%Z eqn:E; [|apply Z.ltb_ge in E; lia].
      apply conf_nth_front. assumption.
    - exists v. split; [|assumption]. cbn [step_in].
      match goal with E : py_int _ = _ |- _ => rewrite E end.
      destruct (- Z.of_nat (S i) <? Z.of_nat (length l))%Z eqn:E; [|apply Z.ltb_ge in E; lia].
      apply conf_nth_back. assumption. }
  cbn [rbind]. destruct ks as [|k2 ks]; [|apply IH; [discriminate|exact H']].
  inversion H'; reflexivity.
Qed.

Lemma step_in_inv : forall c k v, step_in c k = Ok v -> v <> CNull ->
  forall ks r, item_at v ks r -> item_at c (k :: ks) r.
Proof.
  intros c k v H N ks r I. destruct c; cbn [step_in] in H; try (injection H as <-; congruence).
  - destruct (py_int k) as [i|] eqn:E; [|discriminate H].
    destruct (i <? Z.of_nat (length l))%Z; [|injection H as <-; congruence].
    apply conf_nth_inv in H. destruct H as [(n & -> & H)|(n & -> & H)].
    + eapply at_index; eassumption.
    + eapply at_back; eassumption.
  - destruct (sget k d) as [x|] eqn:E; injection H as <-; [|congruence].
    eapply at_key; eassumption.
Qed.

Lemma get_in_only : forall ks c r, get_in ks c = Ok r -> r <> CNull -> item_at c ks r.
Proof.
  induction ks as [|k ks IH]; intros c r H N.
  - destruct c; cbn in H; try discriminate H. injection H as <-. congruence.
  - rewrite get_in_cons in H. destruct (step_in c k) as [v|e] eqn:E; [|discriminate H].
    cbn [rbind] in H. destruct ks as [|k2 ks].
    + injection H as ->. eapply step_in_inv; [exact E|exact N|constructor].
    + assert (Nv : v <> CNull).
      { intros ->. rewrite get_in_null in H. injection H as <-. congruence. }
      eapply step_in_inv; [exact E|exact Nv|]. apply IH; assumption.
Qed.

Lemma sget_only : forall k d v, sget k d = Some v ->
  Forall (fun kv => only_dicts (snd kv)) d -> only_dicts v.
Proof.
  intros k d v H F. rewrite Forall_forall in F. exact (F (k, v) (sget_In k v d H)).
Qed.

Lemma get_in_total : forall ks c, only_dicts c -> ks <> [] -> exists r, get_in ks c = Ok r.
Proof.
  induction ks as [|k ks IH]; intros c O N; [congruence|].
  rewrite get_in_cons.
  assert (exists v, step_in c k = Ok v /\ only_dicts v) as (v & -> & Ov).
  { inversion O; subst; cbn [step_in]; try (exists CNull; split; [reflexivity|constructor]).
    destruct (sget k d) as [x|] eqn:E.
    - exists x. split; [reflexivity|]. eapply sget_only; eassumption.
    - exists CNull. split; [reflexivity|constructor]. }
  cbn [rbind]. destruct ks as [|k2 ks]; [eauto|]. apply IH; [exact Ov|discriminate].
Qed.

Lemma get_in_app : forall a b c d, a <> [] -> b <> [] -> get_in a c = Ok d ->
  get_in (a ++ b) c = get_in b d.
Proof.
  induction a as [|k a IH]; intros b c d N1 N2 H; [congruence|].
  cbn [app]. rewrite get_in_cons in *.
  destruct (step_in c k) as [v|e]; [|discriminate H]. cbn [rbind] in *.
  destruct a as [|k2 a].
  - injection H as ->. cbn [app]. destruct b; [congruence|reflexivity].
  - change ((k2 :: a) ++ b) with (k2 :: (a ++ b)).
    change (get_in (k2 :: a ++ b) v) with (get_in ((k2 :: a) ++ b) v).
    apply IH; [discriminate|exact N2|exact H].
Qed.

Lemma get_in_scalar : forall ks c, ks <> [] -> ~ holds_items c -> get_in ks c = Ok CNull.
Proof.
  intros [|k ks] c N H; [congruence|]. rewrite get_in_cons.
  destruct c; cbn [step_in rbind] in *; try (destruct (H Logic.I));
    destruct ks; try reflexivity; apply get_in_null.
Qed.

Lemma split_dotted : forall a b,
  keypath_split (a ++ "." ++ b) = (keypath_split a ++ keypath_split b)%list.
Proof.
  intros a b. unfold keypath_split.
  change (a ++ "." ++ b)%string with (a ++ String "." b)%string.
  rewrite (split_on_sep is_sep "."%char a b) by reflexivity.
  apply filter_app.
Qed.

(** ** Loading *)

Lemma app_last_inv : forall (A : Type) (l : list A) x, l <> [] ->
  rev l = x :: tl (rev l) -> l = rev (tl (rev l)) ++ [x].
Proof.
  intros A l x N E. rewrite <- (rev_involutive l) at 1. rewrite E. reflexivity.
Qed.

Lemma drop_newline_spec : forall l,
  (l = drop_newline l \/ l = drop_newline l ++ [nl]) /\
  (forall k c, c <> nl -> l = k ++ [c] \/ l = (k ++ [c]) ++ [nl] ->
     drop_newline l = k ++ [c]).
Proof.
  intros l. split.
  - unfold drop_newline. destruct (rev l) as [|c r] eqn:E.
    + left. rewrite <- (rev_involutive l), E. reflexivity.
    + destruct (Ascii.eqb c nl) eqn:Ec; [|left; reflexivity].
      apply Ascii.eqb_eq in Ec. subst. right.
      rewrite <- (rev_involutive l), E. reflexivity.
  - intros k c N [->| ->]; unfold drop_newline.
    + rewrite rev_app_distr. cbn. apply Ascii.eqb_neq in N. rewrite N. reflexivity.
    + rewrite !rev_app_distr. cbn. rewrite rev_involutive. reflexivity.
Qed.

Lemma prefix_spec : forall p s, String.prefix p s = true <-> exists r, s = (p ++ r)%string.
Proof.
  induction p as [|c p IH]; intros s.
  - split; [intros _; exists s; reflexivity|]. destruct s; reflexivity.
  - destruct s as [|d s]; [split; [discriminate|intros (r & E); discriminate E]|].
    cbn [String.prefix]. destruct (Ascii.ascii_dec c d) as [->|N].
    + rewrite IH. split; intros (r & E); exists r.
      * rewrite E. reflexivity.
      * injection E as ->. reflexivity.
    + split; [discriminate|]. intros (r & E). injection E as E _. congruence.
Qed.

Lemma startswith_spec : forall s p, startswith s p = true <-> exists r, s = (p ++ r)%string.
Proof. intros s p. apply prefix_spec. Qed.

Lemma quote_spec : forall c, is_quote c = true <-> quote_mark (String c "").
Proof.
  intros c. unfold is_quote, quote_mark. rewrite orb_true_iff, !Ascii.eqb_eq.
  split; intros [H|H]; [left|right|left|right]; congruence.
Qed.

Lemma env_name_sound : forall s n, env_name s = Some n -> names_variable s n.
Proof.
  intros s n H. unfold env_name in H.
  destruct (drop_newline_spec (chars s)) as [D _].
  set (l := drop_newline (chars s)) in *.
  destruct (startswith (unchars l) "environ[") eqn:SW; [|discriminate H].
  apply startswith_spec in SW. destruct SW as (r0 & SW).
  apply (f_equal chars) in SW. rewrite chars_of, chars_cat in SW.
  assert (SK : skipn 8 l = chars r0) by (rewrite SW; reflexivity).
  rewrite SK in H. destruct (chars r0) as [|q r] eqn:ER; [discriminate H|].
  destruct (rev r) as [|b [|q' rname]] eqn:RR; try discriminate H.
  destruct (is_quote q && Ascii.eqb b "]" && is_quote q' &&
            negb (Nat.eqb (length rname) 0) && forallb dot rname) eqn:C; [|discriminate H].
  injection H as <-.
  apply andb_prop in C. destruct C as [C DOT]. apply andb_prop in C. destruct C as [C LEN].
  apply andb_prop in C. destruct C as [C Q']. apply andb_prop in C. destruct C as [Q B].
  apply Ascii.eqb_eq in B. subst b.
  assert (R : r = (rev rname ++ [q'] ++ ["]"%char])%list).
  { rewrite <- (rev_involutive r), RR. cbn. rewrite <- app_assoc. reflexivity. }
  assert (EL : l = chars ("environ[" ++ String q "" ++ unchars (rev rname) ++
                          String q' "" ++ "]")).
  { rewrite SW, R, !chars_cat, chars_of. reflexivity. }
  exists (String q ""), (String q' ""),
    (if list_eq_dec Ascii.ascii_dec (chars s) l then "" else newline).
  repeat apply conj.
  - apply quote_spec. exact Q.
  - apply quote_spec. exact Q'.
  - destruct (list_eq_dec _ _ _); auto.
  - intros E. apply (f_equal chars) in E. rewrite chars_of in E.
    apply negb_true_iff in LEN. apply Nat.eqb_neq in LEN. apply LEN.
    rewrite <- rev_length, E. reflexivity.
  - unfold one_line. rewrite chars_of. intros I. apply in_rev in I.
    rewrite forallb_forall in DOT. apply DOT in I. discriminate I.
  - apply chars_inj. destruct (list_eq_dec Ascii.ascii_dec (chars s) l) as [E|NE].
    + rewrite E, EL, !chars_cat. cbn [list_ascii_of_string]. reflexivity.
    + destruct D as [D|D]; [congruence|]. rewrite D, EL, !chars_cat.
      cbn [list_ascii_of_string newline]. rewrite <- !app_assoc. reflexivity.
Qed.

Lemma env_name_complete : forall s n, names_variable s n -> env_name s = Some n.
Proof.
  intros s n (q & q' & e & Q & Q' & E & N & O & ->).
  assert (exists a, q = String a "" /\ is_quote a = true) as (a & -> & Ha).
  { destruct Q as [->| ->]; eexists; (split; [reflexivity|reflexivity]). }
  assert (exists b, q' = String b "" /\ is_quote b = true) as (b & -> & Hb).
  { destruct Q' as [->| ->]; eexists; (split; [reflexivity|reflexivity]). }
  clear Q Q'. unfold env_name.
  set (body := ("environ[" ++ String a "" ++ n ++ String b "" ++ "]")%string).
  assert (DN : drop_newline
     (chars ("environ[" ++ String a "" ++ n ++ String b "" ++ "]" ++ e)) = chars body).
  { destruct (drop_newline_spec
      (chars ("environ[" ++ String a "" ++ n ++ String b "" ++ "]" ++ e))) as [_ D].
    assert (BL : chars body = (chars ("environ[" ++ String a "" ++ n ++ String b "") ++ ["]"%char])%list).
    { unfold body. rewrite !chars_cat. cbn [list_ascii_of_string]. rewrite <- !app_assoc.
      reflexivity. }
    rewrite BL. apply D; [discriminate|].
    destruct E as [->| ->]; [left|right]; rewrite !chars_cat; cbn [list_ascii_of_string newline];
      rewrite <- !app_assoc; reflexivity. }
  rewrite DN, of_chars.
  assert (SW : startswith body "environ[" = true)
    by (apply startswith_spec; eexists; reflexivity).
  rewrite SW.
  assert (SK : skipn 8 (chars body) = (a :: chars n ++ [b] ++ ["]"%char])%list).
  { unfold body. rewrite !chars_cat. reflexivity. }
  rewrite SK.
  assert (RV : rev (chars n ++ [b] ++ ["]"%char])%list = "]"%char :: b :: rev (chars n)).
  { rewrite rev_app_distr. reflexivity. }
  rewrite RV, Ha, Hb. change (Ascii.eqb "]" "]") with true. cbn [andb].
  assert (L : negb (Nat.eqb (length (rev (chars n))) 0) = true).
  { apply negb_true_iff. apply Nat.eqb_neq. rewrite rev_length. intros L.
    apply N. apply chars_inj. destruct (chars n); [reflexivity|discriminate L]. }
  rewrite L.
  assert (DT : forallb dot (rev (chars n)) = true).
  { apply forallb_forall. intros c Hc. apply in_rev in Hc. unfold dot.
    apply negb_true_iff. apply Ascii.eqb_neq. intros ->. apply O. exact Hc. }
  rewrite DT. cbn [andb]. rewrite rev_involutive, of_chars. reflexivity.
Qed.

Lemma env_name_spec : forall s n, env_name s = Some n <-> names_variable s n.
Proof. intros s n. split; [apply env_name_sound|apply env_name_complete]. Qed.

(** Induction over configurations *)
Section ConfInd.
  Variable P : conf -> Prop.
  Hypothesis Hnull : P CNull.
  Hypothesis Hbool : forall b, P (CBool b).
  Hypothesis Hnum : forall n, P (CNum n).
  Hypothesis Hstr : forall s, P (CStr s).
  Hypothesis Hlist : forall l, Forall P l -> P (CList l).
  Hypothesis Hdict : forall d, Forall (fun kv => P (snd kv)) d -> P (CDict d).
  Fixpoint conf_ind2 (c : conf) : P c :=
    match c with
    | CNull => Hnull
    | CBool b => Hbool b
    | CNum n => Hnum n
    | CStr s => Hstr s
    | CList l => Hlist l ((fix go (l : list conf) : Forall P l :=
        match l with [] => Forall_nil _ | c :: r => Forall_cons _ (conf_ind2 c) (go r) end) l)
    | CDict d => Hdict d ((fix go (d : list (string * conf)) : Forall (fun kv => P (snd kv)) d :=
        match d with
        | [] => Forall_nil _
        | kv :: r => Forall_cons _ (conf_ind2 (snd kv)) (go r)
        end) d)
    end.
End ConfInd.

Lemma dupdate_fresh : forall (e d : list (string * conf)),
  NoDup (map fst (d ++ e)%list) -> dupdate String.eqb d e = (d ++ e)%list.
Proof.
  induction e as [|[k v] e IH]; intros d N; cbn.
  - symmetry. apply app_nil_r.
  - assert (S : dset String.eqb k v d = (d ++ [(k, v)])%list).
    { assert (K : ~ In k (map fst d)).
      { rewrite map_app in N. apply NoDup_remove_2 in N. rewrite in_app_iff in N. tauto. }
      clear - K. induction d as [|[k' v'] d IH]; [reflexivity|]. cbn in *.
      destruct (String.eqb_spec k k') as [->|Ne]; [tauto|]. rewrite IH by tauto. reflexivity. }
    change (fold_left _ e (dset String.eqb k v d)) with (dupdate String.eqb (dset String.eqb k v d) e).
    rewrite S, IH; rewrite <- app_assoc; [reflexivity|exact N].
Qed.

Lemma dict_of_nodup : forall d : list (string * conf), NoDup (map fst d) ->
  dict_of String.eqb d = d.
Proof. intros d N. exact (dupdate_fresh d [] N). Qed.

Section Load.
  Variable environ : string -> option string.
  Variable underscore : string -> string.
  Notation replace_envs := (replace_envs environ).
  Notation normalize := (normalize underscore).
  Notation loaded := (loaded environ underscore).
  Notation distinct_keys := (distinct_keys underscore).

  Fixpoint replace_items (l : list conf) : res (list conf) :=
    match l with
    | [] => Ok []
    | v :: r => let* v' := replace_envs v in let* r' := replace_items r in Ok (v' :: r')
    end.
  Fixpoint replace_pairs (d : list (string * conf)) : res (list (string * conf)) :=
    match d with
    | [] => Ok []
    | (k, v) :: r => let* v' := replace_envs v in let* r' := replace_pairs r in Ok ((k, v') :: r')
    end.

  Lemma replace_list : forall l, replace_envs (CList l) = let* l' := replace_items l in Ok (CList l').
  Proof. reflexivity. Qed.
  Lemma replace_dict : forall d, replace_envs (CDict d) =
    let* d' := replace_pairs d in Ok (CDict (dict_of String.eqb d')).
  Proof. reflexivity. Qed.

  Lemma replace_pairs_keys : forall d d', replace_pairs d = Ok d' -> map fst d' = map fst d.
  Proof.
    induction d as [|[k v] d IH]; intros d' H; cbn in H.
    - injection H as <-. reflexivity.
    - destruct (replace_envs v) as [v'|]; [|discriminate H]. cbn in H.
      destruct (replace_pairs d) as [r'|]; [|discriminate H]. injection H as <-.
      cbn. f_equal. apply IH. reflexivity.
  Qed.

  Lemma nodup_of_map : forall (d : list (string * conf)),
    NoDup (map (fun kv => underscore (fst kv)) d) -> NoDup (map fst d).
  Proof.
    intros d H. apply (NoDup_map_inv underscore). rewrite map_map. exact H.
  Qed.

  (** normalizing the pairs of a dict with distinct keys *)
  Lemma normalize_dict : forall d, NoDup (map (fun kv => underscore (fst kv)) d) ->
    normalize (CDict d) = CDict (map (fun kv => (underscore (fst kv), normalize (snd kv))) d).
  Proof.
    intros d H. cbn [UconfModel.normalize]. rewrite dict_of_nodup; [reflexivity|].
    rewrite map_map. exact H.
  Qed.

  Lemma load_sound : forall f c, distinct_keys f -> replace_envs f = Ok c ->
    loaded f (normalize c).
  Proof.
    intros f. induction f as [| | |s|l IH|d IH] using conf_ind2; intros c D H.
    - injection H as <-. constructor.
    - injection H as <-. constructor.
    - injection H as <-. constructor.
    - cbn in H. unfold replace_str in H. destruct (env_name s) as [n|] eqn:E.
      + apply env_name_spec in E. destruct (environ n) as [v|] eqn:V; [|discriminate H].
        injection H as <-. eapply ld_variable; eassumption.
      + injection H as <-. apply ld_text. intros n N. apply env_name_spec in N. congruence.
    - rewrite replace_list in H. destruct (replace_items l) as [l'|] eqn:E; [|discriminate H].
      injection H as <-. cbn [UconfModel.normalize]. apply ld_list.
      inversion D as [| | | |? DL|]; subst. clear D. revert l' E.
      induction l as [|v l IHl]; intros l' E; cbn in E.
      + injection E as <-. constructor.
      + destruct (replace_envs v) as [v'|] eqn:Ev; [|discriminate E]. cbn in E.
        destruct (replace_items l) as [r'|] eqn:Er; [|discriminate E]. injection E as <-.
        inversion IH; subst. inversion DL; subst. cbn. constructor; auto.
    - rewrite replace_dict in H. destruct (replace_pairs d) as [d'|] eqn:E; [|discriminate H].
      injection H as <-. inversion D as [| | | | |? DN DL]; subst.
      assert (K := replace_pairs_keys _ _ E).
      assert (N1 : NoDup (map fst d')) by (rewrite K; apply nodup_of_map; exact DN).
      rewrite dict_of_nodup by exact N1.
      assert (N2 : NoDup (map (fun kv => underscore (fst kv)) d')).
      { rewrite <- (map_map fst underscore), K, map_map. exact DN. }
      rewrite normalize_dict by exact N2. apply ld_dict.
      clear D N1 N2 DN K. revert d' E.
      induction d as [|[k v] d IHd]; intros d' E; cbn in E.
      + injection E as <-. constructor.
      + destruct (replace_envs v) as [v'|] eqn:Ev; [|discriminate E]. cbn in E.
        destruct (replace_pairs d) as [r'|] eqn:Er; [|discriminate E]. injection E as <-.
        inversion IH as [|? ? IHv IHr]; subst. inversion DL as [|? ? Dv Dr]; subst.
        cbn [fst snd map] in *. constructor; [split; [reflexivity|apply IHv; assumption]|].
        apply IHd; auto.
  Qed.

  Lemma load_complete : forall f c, distinct_keys f -> loaded f c ->
    exists c0, replace_envs f = Ok c0 /\ normalize c0 = c.
  Proof.
    intros f. induction f as [| | |s|l IH|d IH] using conf_ind2; intros c D H.
    - inversion H; subst. exists CNull. auto.
    - inversion H; subst. eexists. split; reflexivity.
    - inversion H; subst. eexists. split; reflexivity.
    - cbn. unfold replace_str. inversion H as [| | |? T|? n v NV EV| |]; subst.
      + destruct (env_name s) as [n|] eqn:E.
        * apply env_name_spec in E. destruct (T n E).
        * exists (CStr s). auto.
      + apply env_name_spec in NV. rewrite NV, EV. exists (CStr v). auto.
    - inversion H as [| | | | |? l' F|]; subst. rewrite replace_list.
      inversion D as [| | | |? DL|]; subst.
      assert (exists l0, replace_items l = Ok l0 /\ map normalize l0 = l') as (l0 & -> & <-).
      { clear D H. revert IH DL. induction F as [|v v' l l' Hv F IHF]; intros IH DL.
        - exists []. auto.
        - inversion IH as [|? ? IHv IHl]; subst. inversion DL as [|? ? Dv Dl]; subst.
          destruct (IHv _ Dv Hv) as (v0 & E1 & E2).
          destruct (IHF IHl Dl) as (l0 & E3 & E4).
          exists (v0 :: l0). cbn. rewrite E1. cbn. rewrite E3. cbn. rewrite E2, E4. auto. }
      eexists. split; reflexivity.
    - inversion H as [| | | | | |? d' F]; subst. rewrite replace_dict.
      inversion D as [| | | | |? DN DL]; subst.
      assert (exists d0, replace_pairs d = Ok d0 /\
                map (fun kv => (underscore (fst kv), normalize (snd kv))) d0 = d')
        as (d0 & E & <-).
      { clear D H DN. revert IH DL. induction F as [|[k v] [k' v'] d d' [Hk Hv] F IHF]; intros IH DL.
        - exists []. auto.
        - inversion IH as [|? ? IHv IHl]; subst. inversion DL as [|? ? Dv Dl]; subst.
          cbn [fst snd] in *.
          destruct (IHv _ Dv Hv) as (v0 & E1 & E2).
          destruct (IHF IHl Dl) as (d0 & E3 & E4).
          exists ((k, v0) :: d0). cbn. rewrite E1. cbn. rewrite E3. cbn. rewrite E2, E4, Hk. auto. }
      rewrite E. cbn [rbind].
      assert (K := replace_pairs_keys _ _ E).
      assert (N1 : NoDup (map fst d0)) by (rewrite K; apply nodup_of_map; exact DN).
      rewrite dict_of_nodup by exact N1. eexists. split; [reflexivity|].
      apply normalize_dict. rewrite <- (map_map fst underscore), K, map_map. exact DN.
  Qed.

  (** Errors *)
  Definition dangling (f : conf) : Prop :=
    exists s n, value_in s f /\ names_variable s n /\ environ n = None.

  Lemma replace_error : forall f e, replace_envs f = Err e -> e = EKeyError /\ dangling f.
  Proof.
    intros f. induction f as [| | |s|l IH|d IH] using conf_ind2; intros e H;
      try discriminate H.
    - cbn in H. unfold replace_str in H. destruct (env_name s) as [n|] eqn:E; [|discriminate H].
      destruct (environ n) as [v|] eqn:V; [discriminate H|]. injection H as <-.
      split; [reflexivity|]. exists s, n. apply env_name_spec in E.
      repeat split; auto. constructor.
    - rewrite replace_list in H. destruct (replace_items l) as [l'|e'] eqn:E; [discriminate H|].
      injection H as <-.
      assert (X : e' = EKeyError /\ exists c, In c l /\ dangling c).
      { revert e' E. induction l as [|v l IHl]; intros e' E; cbn in E; [discriminate E|].
        inversion IH as [|? ? IHv IHr]; subst.
        destruct (replace_envs v) as [v'|e1] eqn:Ev; cbn in E.
        - destruct (replace_items l) as [r'|e2] eqn:Er; [discriminate E|].
          injection E as <-. destruct (IHl IHr e2 eq_refl) as (A & c & I & B).
          split; [exact A|]. exists c. split; [right; exact I|exact B].
        - injection E as <-. destruct (IHv e1 eq_refl) as (A & B).
          split; [exact A|]. exists v. split; [left; reflexivity|exact B]. }
      destruct X as (A & c & I & s & n & V & W). split; [exact A|]. exists s, n.
      split; [|exact W]. eapply vi_list; eassumption.
    - rewrite replace_dict in H. destruct (replace_pairs d) as [d'|e'] eqn:E; [discriminate H|].
      injection H as <-.
      assert (X : e' = EKeyError /\ exists k c, In (k, c) d /\ dangling c).
      { revert e' E. induction d as [|[k v] d IHd]; intros e' E; cbn in E; [discriminate E|].
        inversion IH as [|? ? IHv IHr]; subst.
        destruct (replace_envs v) as [v'|e1] eqn:Ev; cbn in E.
        - destruct (replace_pairs d) as [r'|e2] eqn:Er; [discriminate E|].
          injection E as <-. destruct (IHd IHr e2 eq_refl) as (A & k2 & c & I & B).
          split; [exact A|]. exists k2, c. split; [right; exact I|exact B].
        - injection E as <-. cbn [snd] in IHv. destruct (IHv e1 Ev) as (A & B).
          split; [exact A|]. exists k, v. split; [left; reflexivity|exact B]. }
      destruct X as (A & k & c & I & s & n & V & W). split; [exact A|]. exists s, n.
      split; [|exact W]. eapply vi_dict; eassumption.
  Qed.

  Lemma replace_dangling : forall f, dangling f -> exists e, replace_envs f = Err e.
  Proof.
    intros f (s & n & V & N & E). induction V as [|l c I V IH|d k c I V IH].
    - apply env_name_spec in N. cbn. unfold replace_str. rewrite N, E. eauto.
    - destruct IH as (e & IH). rewrite replace_list.
      assert (X : exists e, replace_items l = Err e).
      { clear V. induction l as [|v l IHl]; [destruct I|]. cbn. destruct I as [->|I].
        - rewrite IH. cbn. eauto.
        - destruct (replace_envs v); cbn; [|eauto].
          destruct (IHl I) as (e2 & ->). cbn. eauto. }
      destruct X as (e2 & ->). cbn. eauto.
    - destruct IH as (e & IH). rewrite replace_dict.
      assert (X : exists e, replace_pairs d = Err e).
      { clear V. induction d as [|[k2 v] d IHd]; [destruct I|]. cbn. destruct I as [I|I].
        - injection I as -> ->. rewrite IH. cbn. eauto.
        - destruct (replace_envs v); cbn; [|eauto].
          destruct (IHd I) as (e2 & ->). cbn. eauto. }
      destruct X as (e2 & ->). cbn. eauto.
  Qed.

  (** After normalizing, every key of a dict is an underscored one. *)
  Lemma dict_of_keys : forall (d acc : list (string * conf)) k,
    In k (map fst (dupdate String.eqb acc d)) -> In k (map fst acc) \/ In k (map fst d).
  Proof.
    induction d as [|[k' v] d IH]; intros acc k H; [left; exact H|].
    change (dupdate String.eqb acc ((k', v) :: d))
      with (dupdate String.eqb (sset k' v acc) d) in H.
    apply IH in H. destruct H as [H|H]; [|right; right; exact H].
    rewrite sset_keys in H. destruct (smem k' acc); [left; exact H|].
    apply in_app_iff in H. destruct H as [H|[<-|[]]]; [left; exact H|right; left; reflexivity].
  Qed.

  Lemma normalized_get : forall d k v, sget k (match normalize (CDict d) with
      CDict d' => d' | _ => [] end) = Some v -> exists k0, k = underscore k0.
  Proof.
    intros d k v H. cbn [UconfModel.normalize] in H.
    apply sget_In in H. apply (in_map fst) in H. cbn [fst] in H.
    unfold dict_of in H. apply dict_of_keys in H. destruct H as [[]|H].
    rewrite map_map in H. cbn [fst] in H. apply in_map_iff in H.
    destruct H as (kv & <- & _). eauto.
  Qed.
End Load.

(** ** Uploaders *)

Lemma request_cached : forall conf name s u, sget name (u_cache s) = Some u ->
  request_uploader conf name s = (Ok u, s).
Proof. intros conf name s u H. unfold request_uploader. rewrite H. reflexivity. Qed.

Lemma request_ok : forall conf name s u s', request_uploader conf name s = (Ok u, s') ->
  sget name (u_cache s') = Some u /\
  (forall other v, other <> name ->
     (sget other (u_cache s') = Some v <-> sget other (u_cache s) = Some v)) /\
  (forall v, sget name (u_cache s) = Some v -> v = u).
Proof.
  intros conf name s u s' H. unfold request_uploader in H.
  destruct (sget name (u_cache s)) as [v|] eqn:E.
  - injection H as <- <-. repeat split; auto. intros w W. congruence.
  - destruct (configured conf name) as [[e c]|]; [|discriminate H].
    injection H as <- <-. cbn. split; [apply sget_sset_same|]. split; [|discriminate].
    intros other v N. rewrite sget_sset_other by exact N. reflexivity.
Qed.

Lemma request_err : forall conf name s e s', request_uploader conf name s = (Err e, s') ->
  s' = s /\ configured conf name = Err e.
Proof.
  intros conf name s e s' H. unfold request_uploader in H.
  destruct (sget name (u_cache s)) as [v|] eqn:E; [discriminate H|].
  destruct (configured conf name) as [[e' c]|e'] eqn:C; [discriminate H|].
  injection H as <- <-. auto.
Qed.

(** ** File names *)

Lemma split_on_no : forall p s x, In x (split_on p s) -> forall c, In c (chars x) -> p c = false.
Proof.
  intros p s. induction s as [|a s IH]; intros x I c Hc; cbn [split_on] in I.
  - destruct I as [<-|[]]. destruct Hc.
  - destruct (p a) eqn:Pa.
    + destruct I as [<-|I]; [destruct Hc|]. eapply IH; eassumption.
    + destruct (split_on p s) as [|y r].
      * destruct I as [<-|[]]. destruct Hc as [<-|[]]. exact Pa.
      * destruct I as [<-|I]; [|eapply IH; [right|]; eassumption].
        destruct Hc as [<-|Hc]; [exact Pa|]. eapply IH; [left; reflexivity|exact Hc].
Qed.

Lemma last_in : forall (A : Type) (l : list A) d, last l d = d \/ In (last l d) l.
Proof.
  induction l as [|a l IH]; intros d; [left; reflexivity|].
  destruct l as [|b l]; [right; left; reflexivity|].
  destruct (IH d) as [E|I]; [left; exact E|right; right; exact I].
Qed.

Lemma path_name_no_slash : forall p, no_slash (path_name p).
Proof.
  intros p I. unfold path_name in I.
  set (l := filter _ _) in I. destruct (last_in string l "") as [E|L].
  - rewrite E in I. destruct I.
  - apply filter_In in L. destruct L as [L _].
    pose proof (split_on_no _ _ _ L _ I) as X. discriminate X.
Qed.

Lemma last_dot_in : forall l d, last_dot l = Some d ->
  (exists k, l = k ++ d) /\ exists r, d = "."%char :: r.
Proof.
  induction l as [|c l IH]; intros d H; [discriminate H|]. cbn in H.
  destruct (last_dot l) as [x|].
  - injection H as <-. destruct (IH x eq_refl) as ((k & E) & R). split; [|exact R].
    exists (c :: k). rewrite E at 1. reflexivity.
  - destruct (Ascii.eqb c ".") eqn:E; [|discriminate H]. injection H as <-.
    apply Ascii.eqb_eq in E. subst. split; [exists []|eexists]; reflexivity.
Qed.

Lemma last_dot_only : forall l d, last_dot l = Some d -> ~ In "."%char (tl d).
Proof.
  induction l as [|c l IH]; intros d H; [discriminate H|]. cbn in H.
  destruct (last_dot l) as [x|] eqn:E.
  - injection H as <-. apply IH. reflexivity.
  - destruct (Ascii.eqb c "."); [|discriminate H]. injection H as <-. cbn [tl].
    clear IH. revert E. induction l as [|b l IH]; intros E I; [destruct I|]. cbn in E.
    destruct (last_dot l) as [x|]; [discriminate E|].
    destruct (Ascii.eqb b ".") eqn:B; [discriminate E|].
    destruct I as [->|I]; [discriminate B|]. exact (IH eq_refl I).
Qed.

Lemma path_suffix_cases : forall p, path_suffix p = "" \/
  exists r, path_suffix p = String "." r /\ r <> "" /\ ~ In "."%char (chars r) /\
    no_slash (path_suffix p) /\ exists k, k <> "" /\ path_name p = (k ++ path_suffix p)%string.
Proof.
  intros p. unfold path_suffix. destruct (last_dot (chars (path_name p))) as [d|] eqn:E;
    [|left; reflexivity].
  destruct (Nat.ltb (length d) (length (chars (path_name p))) && Nat.ltb 1 (length d)) eqn:L;
    [|left; reflexivity].
  right. apply andb_prop in L. destruct L as [L1 L2].
  apply Nat.ltb_lt in L1. apply Nat.ltb_lt in L2.
  pose proof (last_dot_only _ _ E) as O.
  apply last_dot_in in E. destruct E as ((k & E) & r & ->). exists (unchars r).
  cbn [tl] in O.
  repeat apply conj.
  - reflexivity.
  - intros X. apply (f_equal chars) in X. rewrite chars_of in X. subst r. cbn in L2. lia.
  - rewrite chars_of. exact O.
  - unfold no_slash. rewrite chars_of. intros I. apply (path_name_no_slash p).
    rewrite E. apply in_or_app. right. exact I.
  - exists (unchars k). split.
    + intros X. apply (f_equal chars) in X. rewrite chars_of in X. subst k.
      rewrite E in L1. cbn in L1. lia.
    + apply chars_inj. rewrite chars_cat, !chars_of. exact E.
Qed.

Lemma lower_no_slash : forall c, to_lower c = "/"%char -> c = "/"%char.
Proof.
  intros c H.
  assert (X : forallb (fun c => if Ascii.eqb (to_lower c) "/" then Ascii.eqb c "/" else true)
                (map ascii_of_nat (seq 0 256)) = true) by (vm_compute; reflexivity).
  rewrite forallb_forall in X. specialize (X c).
  assert (I : In c (map ascii_of_nat (seq 0 256))).
  { apply in_map_iff. exists (nat_of_ascii c). split; [apply ascii_nat_embedding|].
    apply in_seq. pose proof (nat_ascii_bounded c). lia. }
  apply X in I. rewrite H in I. apply Ascii.eqb_eq in I. exact I.
Qed.

Lemma lower_twice : forall c, to_lower (to_lower c) = to_lower c.
Proof.
  intros c.
  assert (X : forallb (fun c => Ascii.eqb (to_lower (to_lower c)) (to_lower c))
                (map ascii_of_nat (seq 0 256)) = true) by (vm_compute; reflexivity).
  rewrite forallb_forall in X. apply Ascii.eqb_eq, X.
  apply in_map_iff. exists (nat_of_ascii c). split; [apply ascii_nat_embedding|].
  apply in_seq. pose proof (nat_ascii_bounded c). lia.
Qed.

Lemma str_lower_no_slash : forall s, no_slash s -> no_slash (str_lower s).
Proof.
  unfold no_slash, str_lower, str_map. intros s N I. rewrite chars_of in I.
  apply in_map_iff in I. destruct I as (c & E & I). apply lower_no_slash in E. congruence.
Qed.

Lemma str_lower_twice : forall s, no_upper (str_lower s).
Proof.
  intros s. unfold no_upper, str_lower, str_map. rewrite chars_of, map_map.
  f_equal. apply map_ext. apply lower_twice.
Qed.

Lemma low_hex_chars : forall c, In c (chars low_hex) ->
  c <> "/"%char /\ c <> "."%char /\ to_lower c = c.
Proof.
  intros c I.
  assert (X : forallb (fun c => negb (Ascii.eqb c "/") && negb (Ascii.eqb c ".") &&
                                Ascii.eqb (to_lower c) c) (chars low_hex) = true)
    by (vm_compute; reflexivity).
  rewrite forallb_forall in X. apply X in I.
  apply andb_prop in I. destruct I as [I I3]. apply andb_prop in I. destruct I as [I1 I2].
  apply negb_true_iff in I1, I2. apply Ascii.eqb_neq in I1, I2. apply Ascii.eqb_eq in I3. auto.
Qed.

(** ** What is configured *)

Lemma item_at_app : forall a c b r,
  item_at c (a ++ b) r <-> exists v, item_at c a v /\ item_at v b r.
Proof.
  induction a as [|k a IH]; intros c b r; cbn [app].
  - split; [intros H; exists c; split; [constructor|exact H]|].
    intros (v & H & H2). inversion H; subst. exact H2.
  - split.
    + intros H. inversion H; subst;
        match goal with X : item_at _ (a ++ b) _ |- _ => apply IH in X; destruct X as (v' & X1 & X2) end;
        exists v'; (split; [|exact X2]);
        [eapply at_key|eapply at_index|eapply at_back]; eassumption.
    + intros (v & H & H2). inversion H; subst;
        [eapply at_key|eapply at_index|eapply at_back]; try eassumption;
        apply IH; eauto.
Qed.

Lemma item_at_fun : forall ks c r r', item_at c ks r -> item_at c ks r' -> r = r'.
Proof.
  intros [|k ks] c r r' H H'.
  - inversion H; inversion H'; congruence.
  - apply get_in_items in H; [|discriminate]. apply get_in_items in H'; [|discriminate].
    congruence.
Qed.

Lemma non_null_ok : forall r v, non_null r = Ok v <-> r = Ok v /\ v <> CNull.
Proof.
  intros [[]|e] v; cbn; split; try discriminate; try (intros [H1 H2]; try discriminate H1; exact H1);
    intros H; try (split; [exact H|]; injection H as <-; discriminate).
  destruct H as [H N]. injection H as <-. congruence.
Qed.

Lemma get_attr_ok : forall c k v, keypath_split k <> [] -> v <> CNull ->
  (get_attr c k = Ok v <-> item_at c (keypath_split k) v).
Proof.
  intros c k v N V. split.
  - intros H. apply get_in_only; [|exact V]. destruct c; try discriminate H; exact H.
  - intros H. apply get_in_items in H; [|exact N].
    destruct c; try exact H; exfalso; rewrite get_in_scalar in H;
      try exact N; try (intros X; exact X); congruence.
Qed.

Lemma get_ok : forall c k v, keypath_split k <> [] -> v <> CNull ->
  (get c k = Ok v <-> item_at c (keypath_split k) v).
Proof.
  intros c k v N V. split.
  - intros H. apply get_in_only; [exact H|exact V].
  - intros H. apply get_in_items; assumption.
Qed.

Lemma get_attr_nopath : forall c k v, keypath_split k = [] -> get_attr c k <> Ok v.
Proof.
  intros c k v E H. destruct c; cbn in H; try discriminate H;
    unfold get in H; rewrite E in H; discriminate H.
Qed.

Lemma engine_named_spec : forall c e, engine_named c = Some e <-> c = CStr (engine_text e).
Proof.
  intros c e. split.
  - intros H. destruct c; try discriminate H. cbn in H.
    destruct (String.eqb_spec s "s3") as [->|_]; [injection H as <-; reflexivity|].
    destruct (String.eqb_spec s "alioss") as [->|_]; [injection H as <-; reflexivity|].
    destruct (String.eqb_spec s "localfs") as [->|_]; [injection H as <-; reflexivity|].
    discriminate H.
  - intros ->. destruct e; reflexivity.
Qed.

Lemma item_not_null : forall c k ks r, item_at c (k :: ks) r -> c <> CNull.
Proof. intros c k ks r H ->. inversion H. Qed.

Lemma configured_spec : forall c name e s,
  configured c name = Ok (e, s) <-> has_uploader c name e s.
Proof.
  intros c name e s. unfold configured, has_uploader. split.
  - intros H.
    destruct (non_null (get c "uploaders")) as [us|] eqn:E1; [|discriminate H]. cbn [rbind] in H.
    destruct (non_null (get_attr us name)) as [u|] eqn:E2; [|discriminate H]. cbn [rbind] in H.
    destruct (non_null (get_attr u "client")) as [cl|] eqn:E3; [|discriminate H]. cbn [rbind] in H.
    destruct (non_null (get_attr u "config")) as [cf|] eqn:E4; [|discriminate H]. cbn [rbind] in H.
    destruct (engine_named cl) as [en|] eqn:E5; [|discriminate H]. injection H as <- <-.
    apply non_null_ok in E1, E2, E3, E4. destruct E1 as [E1 N1], E2 as [E2 N2], E3 as [E3 N3],
      E4 as [E4 N4]. apply engine_named_spec in E5. subst cl.
    assert (P : keypath_split name <> []).
    { intros X. exact (get_attr_nopath _ _ _ X E2). }
    apply get_ok in E1; [|discriminate|exact N1].
    apply get_attr_ok in E2; [|exact P|exact N2].
    apply get_attr_ok in E3; [|discriminate|exact N3].
    apply get_attr_ok in E4; [|discriminate|exact N4].
    repeat apply conj; try assumption.
    + change ("uploaders" :: keypath_split name ++ ["client"])
        with (keypath_split "uploaders" ++ keypath_split name ++ keypath_split "client").
      apply item_at_app. exists us. split; [exact E1|]. apply item_at_app. eauto.
    + change ("uploaders" :: keypath_split name ++ ["config"])
        with (keypath_split "uploaders" ++ keypath_split name ++ keypath_split "config").
      apply item_at_app. exists us. split; [exact E1|]. apply item_at_app. eauto.
  - intros (P & N & C & F).
    change ("uploaders" :: keypath_split name ++ ["client"])
      with (keypath_split "uploaders" ++ keypath_split name ++ keypath_split "client") in C.
    change ("uploaders" :: keypath_split name ++ ["config"])
      with (keypath_split "uploaders" ++ keypath_split name ++ keypath_split "config") in F.
    apply item_at_app in C, F. destruct C as (us & U & C), F as (us' & U' & F).
    rewrite (item_at_fun _ _ _ _ U' U) in F. clear us' U'.
    apply item_at_app in C, F. destruct C as (u & V & C), F as (u' & V' & F).
    rewrite (item_at_fun _ _ _ _ V' V) in F. clear u' V'.
    assert (Nu : u <> CNull) by (eapply item_not_null; exact C).
    assert (Nus : us <> CNull).
    { destruct (keypath_split name); [congruence|]. eapply item_not_null; exact V. }
    apply get_ok in U; [|discriminate|exact Nus].
    apply get_attr_ok in V; [|exact P|exact Nu].
    apply get_attr_ok in C; [|discriminate|discriminate].
    apply get_attr_ok in F; [|discriminate|exact N].
    assert (X : forall r v, r = Ok v -> v <> CNull -> non_null r = Ok v)
      by (intros; apply non_null_ok; auto).
    rewrite (X _ _ U Nus). cbn [rbind]. rewrite (X _ _ V Nu). cbn [rbind].
    rewrite (X _ _ C) by discriminate. cbn [rbind]. rewrite (X _ _ F N). cbn [rbind].
    destruct e; reflexivity.
Qed.

(** ** Histories of requests *)

(** What every reachable state satisfies *)
Definition sound_cache (c : conf) (s : ustate) : Prop :=
  (forall n u, sget n (u_cache s) = Some u ->
     u_id u < u_made s /\ has_uploader c n (u_engine u) (u_config u)) /\
  (forall n m u v, sget n (u_cache s) = Some u -> sget m (u_cache s) = Some v ->
     u_id u = u_id v -> n = m).

Lemma request_sound : forall c n s, sound_cache c s -> sound_cache c (snd (request_uploader c n s)).
Proof.
  intros c n s [H1 H2]. unfold request_uploader.
  destruct (sget n (u_cache s)) as [u|] eqn:E; [split; assumption|].
  destruct (configured c n) as [[e k]|] eqn:C; [|split; assumption]. cbn [snd].
  apply configured_spec in C. split; cbn [u_cache u_made].
  - intros m u M. rewrite sget_sset in M. destruct (String.eqb_spec m n) as [->|N].
    + injection M as <-. cbn. split; [lia|exact C].
    + apply H1 in M. destruct M. split; [lia|assumption].
  - intros a b u v A B I. rewrite sget_sset in A, B.
    destruct (String.eqb_spec a n) as [->|Na], (String.eqb_spec b n) as [->|Nb];
      [reflexivity| | |eapply H2; eassumption].
    + injection A as <-. apply H1 in B. cbn in I. lia.
    + injection B as <-. apply H1 in A. cbn in I. lia.
Qed.

Lemma asked_sound : forall c names s, sound_cache c s -> sound_cache c (asked c names s).
Proof.
  intros c names. induction names as [|n names IH]; intros s H; [exact H|].
  cbn. apply IH. apply request_sound. exact H.
Qed.

Lemma none_sound : forall c, sound_cache c no_uploaders.
Proof. intros c. split; intros; discriminate. Qed.

Lemma request_keeps : forall c n s m u, sget m (u_cache s) = Some u ->
  sget m (u_cache (snd (request_uploader c n s))) = Some u.
Proof.
  intros c n s m u H. unfold request_uploader.
  destruct (sget n (u_cache s)) as [v|] eqn:E; [exact H|].
  destruct (configured c n) as [[e k]|]; [|exact H]. cbn [snd u_cache].
  rewrite sget_sset. destruct (String.eqb_spec m n) as [->|N]; [congruence|exact H].
Qed.

Lemma asked_keeps : forall c names s m u, sget m (u_cache s) = Some u ->
  sget m (u_cache (asked c names s)) = Some u.
Proof.
  intros c names. induction names as [|n names IH]; intros s m u H; [exact H|].
  cbn. apply IH. apply request_keeps. exact H.
Qed.
