(** PropBack.v -- C97, C98 and C99: uploader, mongoid and cross_fetch.

    The configuration, the sources of random names and ids, what counts as a file, and the
    answers of the back end are arbitrary. *)
From Verif Require Import Base Mon Values PyStr StrDict KeypathModel KeypathProofs PyInt RegexModel
  RegexSpec RegexProofs UconfModel UconfSpec UconfProofs PropUconf BackModel BackSpec.
Open Scope nat_scope.
Open Scope list_scope.

(** ** Lemmas *)

Lemma last_part : forall (c : ascii) a b n m, ~ In c n -> ~ In c m ->
  a ++ c :: n = b ++ c :: m -> n = m.
Proof.
  induction a as [|x a IH]; intros [|y b] n m N M E; cbn [app] in E.
  - injection E as E. exact E.
  - injection E as _ E. exfalso. apply N. rewrite E. apply in_or_app. right. left. reflexivity.
  - injection E as _ E. exfalso. apply M. rewrite <- E. apply in_or_app. right. left. reflexivity.
  - injection E as _ E. exact (IH b n m N M E).
Qed.

Lemma address_name : forall a b n m, no_slash n -> no_slash m ->
  (a ++ "/" ++ n)%string = (b ++ "/" ++ m)%string -> n = m.
Proof.
  intros a b n m N M E. apply chars_inj. apply (f_equal chars) in E.
  rewrite !chars_cat in E. exact (last_part "/"%char _ _ _ _ N M E).
Qed.

Lemma value_eq_none : forall v : value, {v = VNone} + {v <> VNone}.
Proof. intros []; [left; reflexivity|right; discriminate..]. Qed.

Section Uploads.
  Variable conf : conf.
  Variable hex : nat -> string.
  Variable file_of : value -> option upfile.
  Notation uploader name v := (t_uploader conf hex file_of (UName name) v).
  Notation uploads := (history (fun call => t_uploader conf hex file_of (UName (fst call)) (snd call))).

  (** One call: a state whose cache is sound stays so; drawing only goes forward; and the
      outcome is one of those of [accounts]. *)
  Definition one_call (n : string) (v : value) (s : back) (r : res value) (s' : back) : Prop :=
    sound_cache conf (b_up s') /\
    ((exists f front place, v <> VNone /\ file_of v = Some f /\ b_drawn s' = S (b_drawn s) /\
        let name := unique_filename (hex (b_drawn s)) (uf_name f) in
        r = Ok (VStr (front ++ place ++ "/" ++ name)%string) /\
        b_files s' = b_files s ++ [(place, name, uf_content f)]) \/
     (b_drawn s <= b_drawn s' <= S (b_drawn s) /\ b_files s' = b_files s /\
      ((v = VNone /\ r = Ok VNone) \/
       (v <> VNone /\ r = Ok VNone /\ exists settings, has_uploader conf n EAliOSS settings) \/
       (v <> VNone /\ exists e, r = Err e)))).

  Lemma upload_some : forall u h f s, u_engine u <> EAliOSS ->
    (exists front place, let name := unique_filename h (uf_name f) in
       upload u h f s = (Ok (CStr (front ++ place ++ "/" ++ name)%string),
                         s ++ [(place, name, uf_content f)])) \/
    (exists e, upload u h f s = (Err e, s)).
  Proof.
    intros u h f s N. pose proof (C65_stored u h f s N) as H.
    destruct (upload u h f s) as [[r|e] s'].
    - left. destruct H as (place & front & H). exists front, place. cbn zeta in *.
      destruct H as [-> ->]. reflexivity.
    - right. subst s'. exists e. reflexivity.
  Qed.

  Lemma uploader_call : forall n v s, sound_cache conf (b_up s) ->
    let '(r, s') := uploader n v s in one_call n v s r s'.
  Proof.
    intros n v s C. destruct (value_eq_none v) as [->|N].
    { cbn. split; [exact C|]. right. split; [lia|]. split; [reflexivity|]. left. auto. }
    assert (E : uploader n v s =
      (do* u <- on_up (request_uploader conf n);
       match u_engine u with
       | EAliOSS => ret VNone
       | _ =>
           do* h <- draw hex;
           match file_of v with
           | None => throw EAttributeError
           | Some f => do* c <- on_files (upload u h f); ret (address c)
           end
       end) s) by (destruct v; [contradiction N; reflexivity|reflexivity..]).
    rewrite E. clear E. unfold bind, on_up.
    pose proof (request_sound conf n (b_up s) C) as C1.
    destruct (request_uploader conf n (b_up s)) as [[u|e] up] eqn:R; cbn [snd] in C1.
    2:{ split; [exact C1|]. right. cbn. split; [lia|]. split; [reflexivity|]. right. right. eauto. }
    assert (H : has_uploader conf n (u_engine u) (u_config u)).
    { apply request_ok in R. destruct R as [R _]. apply C1 in R. apply R. }
    destruct (u_engine u) eqn:K.
    2:{ split; [exact C1|]. right. cbn. split; [lia|]. split; [reflexivity|]. right. left. eauto. }
    1, 2: unfold draw; destruct (file_of v) as [f|] eqn:F;
      [|split; [exact C1|]; right; cbn; split; [lia|]; split; [reflexivity|]; right; right; eauto];
      unfold on_files; cbn [b_up b_files b_drawn];
      destruct (upload_some u (hex (b_drawn s)) f (b_files s)) as [(front & place & U)|(e & U)];
      [congruence| |];
      rewrite U; cbn [address ret];
      [ split; [exact C1|]; left; exists f, front, place; cbn zeta; cbn [b_drawn b_files]; auto 6
      | split; [exact C1|]; right; cbn; split; [lia|]; split; [reflexivity|]; right; right; eauto ].
  Qed.

  (** Each stored name was made of a text drawn during the calls, in order. *)
  Inductive drawn_from : nat -> nat -> list string -> Prop :=
  | dr_nil : forall i k, drawn_from i k []
  | dr_cons : forall i j k client l, i <= j < k -> drawn_from (S j) k l ->
      drawn_from i k (unique_filename (hex j) client :: l).

  Lemma drawn_le : forall i j k k' l, i <= j -> k <= k' -> drawn_from j k l -> drawn_from i k' l.
  Proof.
    intros i j k k' l L L' H. revert i L. induction H as [|j j2 k client l B H IH]; intros i0 L.
    - constructor.
    - constructor; [lia|]. apply IH; [exact L'|lia].
  Qed.

  Lemma drawn_in : forall i k l x, drawn_from i k l -> In x l ->
    exists j client, i <= j < k /\ x = unique_filename (hex j) client.
  Proof.
    intros i k l x H. induction H as [|i j k client l L H IH]; intros I; [destruct I|].
    destruct I as [<-|I]; [eauto|]. destruct (IH I) as (j2 & c & K & E). exists j2, c.
    split; [lia|exact E].
  Qed.

  Lemma drawn_nodup : (forall i, hex32 (hex i)) ->
    forall a n, distinct_texts hex a n -> forall i l, a <= i -> drawn_from i (a + n) l -> NoDup l.
  Proof.
    intros HX a n NT i l LA H. remember (a + n) as top eqn:T.
    induction H as [|i j k client l L H IH]; constructor; [|apply IH; lia].
    intros I. destruct (drawn_in _ _ _ _ H I) as (j2 & c & K & E).
    refine (C65_no_overwrite (hex j) (hex j2) client c (HX j) (HX j2) _ E).
    intros X. apply NT in X; lia.
  Qed.

  Lemma history_accounts : forall calls s, sound_cache conf (b_up s) ->
    let '(rs, s') := uploads calls s in
    exists new, b_files s' = b_files s ++ new /\ accounts conf file_of calls rs new /\
      drawn_from (b_drawn s) (b_drawn s + length calls) (stored_names new) /\
      Forall2 (fun a n => exists front, a = (front ++ "/" ++ n)%string)
        (addresses rs) (stored_names new).
  Proof.
    induction calls as [|[n v] calls IH]; intros s C; cbn [history fst snd].
    - exists []. rewrite app_nil_r. repeat split; constructor.
    - pose proof (uploader_call n v s C) as H.
      destruct (uploader n v s) as [r s1]. destruct H as [C1 H].
      specialize (IH s1 C1). destruct (uploads calls s1) as [rs s2].
      destruct IH as (new & F & A & D & Z).
      destruct H as [(f & front & place & NV & FO & DR & -> & FS)|(DR & FS & H)].
      + exists ((place, unique_filename (hex (b_drawn s)) (uf_name f), uf_content f) :: new).
        split; [|split; [|split]].
        * rewrite F, FS, <- app_assoc. reflexivity.
        * apply ac_file; assumption.
        * cbn. constructor; [lia|]. eapply drawn_le; [| |exact D]; lia.
        * cbn. constructor; [|exact Z].
          exists (front ++ place)%string. rewrite str_app_assoc. reflexivity.
      + exists new. rewrite FS in F. split; [exact F|].
        apply drawn_le with (i := b_drawn s) (k' := b_drawn s + length ((n, v) :: calls)) in D;
          [|lia|cbn; lia].
        destruct H as [[-> ->]|[(NV & -> & st & HU)|(NV & e & ->)]]; split;
          try (split; [exact D|exact Z]).
        * apply ac_none. exact A.
        * eapply ac_alioss; eassumption.
        * apply ac_raised; assumption.
  Qed.

  (** ** C97 *)

  (** A history of calls of uploader modifiers, by name, from the first one on: each file is
      stored exactly once with its content, nothing else is stored and nothing is overwritten,
      and different calls give different addresses. *)
  Theorem C97_uploads : (forall i, hex32 (hex i)) ->
    forall calls files k rs s', distinct_texts hex k (length calls) ->
    uploads calls {| b_up := no_uploaders; b_files := files; b_drawn := k |} = (rs, s') ->
    exists new, b_files s' = files ++ new /\ accounts conf file_of calls rs new /\
      NoDup (stored_names new) /\ NoDup (addresses rs) /\
      Forall2 (fun a n => exists front, a = (front ++ "/" ++ n)%string)
        (addresses rs) (stored_names new).
  Proof.
    intros HX calls files k rs s' NT E.
    pose proof (history_accounts calls {| b_up := no_uploaders; b_files := files; b_drawn := k |}
                  (none_sound conf)) as H.
    rewrite E in H. destruct H as (new & F & A & D & Z). exists new.
    split; [exact F|]. split; [exact A|].
    assert (ND : NoDup (stored_names new)) by (eapply drawn_nodup; [exact HX|exact NT| |exact D]; cbn; lia).
    split; [exact ND|]. split; [|exact Z].
    assert (NS : Forall no_slash (stored_names new)).
    { apply Forall_forall. intros x I. destruct (drawn_in _ _ _ _ D I) as (j & c & _ & ->).
      apply (C65_plain_name (hex j) c (HX j)). }
    clear - Z ND NS. induction Z as [|a n la ln (front & ->) Z IH]; constructor.
    - intros I. inversion ND as [|? ? NI ND']; subst. apply NI.
      inversion NS as [|? ? N1 NS']; subst. clear - Z I N1 NS'.
      induction Z as [|a m la ln (front' & ->) Z IH]; [destruct I|].
      inversion NS'; subst. destruct I as [I|I]; [left|right; auto].
      eapply address_name; eassumption.
    - inversion ND; inversion NS; subst. auto.
  Qed.

  (** A function given to uploader is asked about every value other than None, once, and its
      answer is the value of the field. *)
  Theorem C97_function : forall f s,
    t_uploader conf hex file_of (UFun f) VNone s = (Ok VNone, s) /\
    forall v, v <> VNone -> t_uploader conf hex file_of (UFun f) v s = f v s.
  Proof.
    intros f s. split; [reflexivity|]. intros v N. destruct v; try reflexivity.
    contradiction N. reflexivity.
  Qed.

  (** Exception: what the field then holds cannot be read back.  A text is no file, so giving
      the address of a stored file to the field raises AttributeError. *)
  Theorem C97_read_back_refuted : (forall t, file_of (VStr t) = None) ->
    forall name e settings s, has_uploader conf name e settings -> e <> EAliOSS ->
    sound_cache conf (b_up s) ->
    forall t, fst (uploader name (VStr t) s) = Err EAttributeError.
  Proof.
    intros NF name e settings s H N C t. cbn [t_uploader]. unfold bind, on_up.
    pose proof (request_sound conf name (b_up s) C) as C1.
    destruct (request_uploader conf name (b_up s)) as [[u|x] up] eqn:R; cbn [snd] in C1.
    - apply request_ok in R. destruct R as [R _]. apply C1 in R. destruct R as [_ R].
      apply configured_spec in R. apply configured_spec in H. rewrite H in R. injection R as R _.
      unfold draw. rewrite NF. rewrite <- R. destruct e; [reflexivity|congruence|reflexivity].
    - apply request_err in R. apply configured_spec in H. destruct R as [_ R]. congruence.
  Qed.
End Uploads.

(** ** C98 *)

(** mongoid: a value that is there stays; where there is none a text is made, and no two of
    those made in a history of calls are the same. *)
Theorem C98_mongoid : forall object_id vs s rs s',
  distinct_texts object_id (b_drawn s) (length vs) -> history (t_mongoid object_id) vs s = (rs, s') ->
  Forall2 (fun v r => match v with VNone => exists i, r = Ok (VStr i) | _ => r = Ok v end) vs rs /\
  NoDup (made_ids vs rs) /\ b_files s' = b_files s.
Proof.
  intros object_id vs s rs s' NT E.
  cut (Forall2 (fun v r => match v with VNone => exists i, r = Ok (VStr i) | _ => r = Ok v end) vs rs /\
       NoDup (made_ids vs rs) /\ b_files s' = b_files s /\
       forall r, In r (made_ids vs rs) -> exists j, b_drawn s <= j < b_drawn s + length vs /\ r = Ok (VStr (object_id j))).
  { tauto. }
  revert s rs s' NT E. induction vs as [|v vs IH]; intros s rs s' NT E; cbn [history] in E.
  - injection E as <- <-. repeat split; [constructor|constructor|intros r []].
  - destruct (value_eq_none v) as [->|N].
    + cbn [t_mongoid] in E. unfold bind, draw, ret in E.
      destruct (history (t_mongoid object_id) vs _) as [rs1 s1] eqn:H. injection E as <- <-.
      cbn [length] in NT.
      apply IH in H; [|intros i j Li Lj; cbn [b_drawn] in *; apply NT; lia].
      destruct H as (F & D & B & I). cbn [b_files b_drawn] in *.
      split; [constructor; [eauto|exact F]|]. cbn [made_ids]. split; [|split; [exact B|]].
      * constructor; [|exact D]. intros X. destruct (I _ X) as (j & L & Y).
        injection Y as Y. apply NT in Y; lia.
      * intros r [<-|X]; [exists (b_drawn s); split; [cbn; lia|reflexivity]|]. destruct (I _ X) as (j & L & Y).
        exists j. split; [cbn; lia|exact Y].
    + assert (K : t_mongoid object_id v s = (Ok v, s))
        by (destruct v; [contradiction N; reflexivity|reflexivity..]).
      rewrite K in E.
      destruct (history (t_mongoid object_id) vs _) as [rs1 s1] eqn:H. injection E as <- <-.
      cbn [length] in NT.
      apply IH in H; [|intros i j Li Lj; apply NT; lia]. destruct H as (F & D & B & I).
      assert (M : made_ids (v :: vs) (Ok v :: rs1) = made_ids vs rs1)
        by (destruct v; [contradiction N; reflexivity|reflexivity..]).
      rewrite M. split; [|split; [exact D|split; [exact B|]]].
      2:{ intros r X. destruct (I r X) as (j & L & Y). exists j. split; [cbn; lia|exact Y]. } constructor; [|exact F].
      destruct v; [contradiction N; reflexivity|reflexivity..].
Qed.

(** ** C99 *)

Section Cross.
  Context {S : Type}.
  Variable attribute : oid -> string -> st S value.
  Variable class_found : string -> res unit.
  Variable one : string -> string -> value -> st S (option oid).
  Variable vexc : string -> exn.
  Notation cross_fetch := (t_cross_fetch attribute class_found one vexc).

  (** cross_fetch reads this key of the object, asks the back end once for an object of the
      class with that value under the other key (this key when none is given), and gives the
      answer; no answer is a validation error.  The value the field was given plays no part. *)
  Theorem C99_cross_fetch : forall cls this that parent x s s1,
    class_found cls = Ok tt -> attribute parent this s = (Ok x, s1) ->
    let key := match that with Some k => k | None => this end in
    forall v,
    (forall o s2, one cls key x s1 = (Ok (Some o), s2) ->
       cross_fetch cls this that parent v s = (Ok (VObj o), s2)) /\
    (forall s2, one cls key x s1 = (Ok None, s2) ->
       cross_fetch cls this that parent v s = (Err (vexc "cross fetch failed"), s2)) /\
    (forall e s2, one cls key x s1 = (Err e, s2) ->
       cross_fetch cls this that parent v s = (Err e, s2)).
  Proof.
    intros cls this that parent x s s1 C A key v.
    unfold t_cross_fetch, bind, lift. rewrite C, A. fold key.
    repeat split; intros; match goal with H : one _ _ _ _ = _ |- _ => rewrite H end; reflexivity.
  Qed.

  (** So when the back end answers rightly, the object in the field agrees with the object that
      holds the field. *)
  Theorem C99_agrees : forall (holds : S -> oid -> string -> value -> Prop),
    (forall cls k x s o s', one cls k x s = (Ok (Some o), s') -> holds s' o k x) ->
    forall cls this that parent v s r s',
    cross_fetch cls this that parent v s = (Ok r, s') ->
    exists o x s1, r = VObj o /\ attribute parent this s = (Ok x, s1) /\
      holds s' o (match that with Some k => k | None => this end) x.
  Proof.
    intros holds H cls this that parent v s r s' E. unfold t_cross_fetch, bind, lift in E.
    destruct (class_found cls) as [[]|]; [|discriminate E].
    destruct (attribute parent this s) as [[x|] s1]; [|discriminate E].
    destruct (one _ _ x s1) as [[[o|]|] s2] eqn:Q; try discriminate E.
    injection E as <- <-. exists o, x, s1. repeat split. eapply H. exact Q.
  Qed.
End Cross.

Print Assumptions C97_uploads.
Print Assumptions C97_function.
Print Assumptions C97_read_back_refuted.
Print Assumptions C98_mongoid.
Print Assumptions C99_cross_fetch.
Print Assumptions C99_agrees.

(** ** Concrete cases *)

Definition hexd_of (n : nat) : string :=
  match n with 0 => "0" | 1 => "1" | _ => "2" end.
Definition bk_hex (n : nat) : string := ("0123456789abcdef0123456789abcde" ++ hexd_of n)%string.
Definition bk_conf : conf := CDict [("uploaders"%string, CDict
  [("docs"%string, CDict [("client"%string, CStr "localfs"); ("config"%string,
     CDict [("dir"%string, CStr "d"); ("url"%string, CStr "u")])])])].
(** Values of other classes are files. *)
Definition bk_file (v : value) : option upfile :=
  match v with VOther _ => Some {| uf_name := "x.Png"; uf_content := "data" |} | _ => None end.
Definition bk_start : back := {| b_up := no_uploaders; b_files := []; b_drawn := 0 |}.
Definition bk_calls : list (string * value) :=
  [("docs"%string, VOther 7); ("docs"%string, VNone); ("docs"%string, VOther 7)].

Lemma bk_hex32 : forall i, hex32 (bk_hex i).
Proof.
  intros [|[|i]]; (split; [reflexivity|]); unfold all_among, among; cbn;
    repeat (constructor; [cbn; tauto|]); constructor.
Qed.

Example C97_example :
  (forall i, hex32 (bk_hex i)) /\ distinct_texts bk_hex 0 (length bk_calls) /\
  (let '(rs, s') := history (fun call => t_uploader bk_conf bk_hex bk_file (UName (fst call)) (snd call))
                      bk_calls bk_start in
   rs = [Ok (VStr ("u/public/d/" ++ bk_hex 0 ++ ".png")%string); Ok VNone;
         Ok (VStr ("u/public/d/" ++ bk_hex 1 ++ ".png")%string)] /\
   b_files s' = [("d", bk_hex 0 ++ ".png", "data")%string;
                 ("d", bk_hex 1 ++ ".png", "data")%string]) /\
  has_uploader bk_conf "docs" ELocalFS (CDict [("dir"%string, CStr "d"); ("url"%string, CStr "u")]) /\
  (forall t, bk_file (VStr t) = None).
Proof.
  split; [exact bk_hex32|]. split; [|split; [|split]].
  - intros [|[|[|i]]] [|[|[|j]]] Hi Hj; cbn in Hi, Hj; try lia; try reflexivity;
      intros E; discriminate E.
  - vm_compute. split; reflexivity.
  - apply configured_spec. vm_compute. reflexivity.
  - reflexivity.
Qed.

Example C98_example : distinct_texts bk_hex 0 3 /\
  fst (history (t_mongoid bk_hex) [VNone; VStr "a"; VNone] bk_start) =
  [Ok (VStr (bk_hex 0)); Ok (VStr "a"); Ok (VStr (bk_hex 1))].
Proof.
  split; [|vm_compute; reflexivity].
  intros [|[|[|i]]] [|[|[|j]]] Hi Hj; cbn in Hi, Hj; try lia; try reflexivity;
    intros E; discriminate E.
Qed.

(** A back end with one user, number 4, whose id is 9; the post, number 1, names it. *)
Definition bk_one (cls k : string) (x : value) : st unit (option oid) :=
  if String.eqb cls "User" && String.eqb k "id" &&
     match x with VInt 9 => true | _ => false end then ret (Some 4) else ret None.
Definition bk_attr (o : oid) (k : string) : st unit value :=
  if String.eqb k "writer_id" then ret (VInt 9) else ret VNone.

Example C99_example :
  let go this that := t_cross_fetch bk_attr (fun _ => Ok tt) bk_one
    (fun m => EValidation [("writer"%string, m)]) "User" this that 1 (VStr "ignored") tt in
  go "writer_id"%string (Some "id"%string) = (Ok (VObj 4), tt) /\
  go "id"%string None = (Err (EValidation [("writer"%string, "cross fetch failed"%string)]), tt).
Proof. split; vm_compute; reflexivity. Qed.
