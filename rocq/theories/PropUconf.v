(** PropUconf.v -- C62 and C63: reading and loading the user's configuration; C64: the
    uploaders it configures; C65: the names under which uploaded files are stored. *)
From Verif Require Import Base Mon PyStr StrDict KeypathModel KeypathProofs PyInt RegexModel
  RegexSpec RegexProofs UconfModel UconfSpec UconfProofs.
Open Scope nat_scope.
Open Scope list_scope.
Open Scope string_scope.

(** ** C62 *)

(** Reading a keypath gives the item it leads to; and it gives something other than None
    only if the keypath leads there. *)
Theorem C62_get : forall c kp r, keypath_split kp <> [] ->
  (item_at c (keypath_split kp) r -> get c kp = Ok r) /\
  (get c kp = Ok r -> r <> CNull -> item_at c (keypath_split kp) r).
Proof.
  intros c kp r N. split; [apply get_in_items; exact N|apply get_in_only].
Qed.

(** Reading in two steps is reading the dotted keypath; below anything that is neither a
    list nor a dict there is None. *)
Theorem C62_compose : forall c a b d, keypath_split a <> [] -> keypath_split b <> [] ->
  get c a = Ok d ->
  get c (a ++ "." ++ b) = get d b /\ (~ holds_items d -> get c (a ++ "." ++ b) = Ok CNull).
Proof.
  intros c a b d Na Nb H. unfold get in *. rewrite split_dotted.
  assert (E := get_in_app _ _ _ _ Na Nb H). rewrite E. split; [reflexivity|].
  intros N. apply get_in_scalar; assumption.
Qed.

(** A configuration without lists is read without an error, whatever the keypath. *)
Theorem C62_never_raises : forall c kp, only_dicts c -> keypath_split kp <> [] ->
  exists r, get c kp = Ok r.
Proof. intros c kp O N. apply get_in_total; assumption. Qed.

(** Exceptions: a keypath without a name raises IndexError, a name that is not a number
    raises ValueError inside a list, and an index far below zero raises IndexError,
    although an index that is too large gives None. *)
Theorem C62_empty_refuted : forall c kp, c <> CNull -> keypath_split kp = [] ->
  get c kp = Err EIndexError.
Proof. intros c kp N E. unfold get. rewrite E. destruct c; first [congruence | reflexivity]. Qed.

Theorem C62_list_refuted : forall l,
  get (CList l) "name" = Err EValueError /\
  (exists kp, get (CList l) kp = Err EIndexError) /\
  exists kp i, keypath_split kp = [i] /\ py_int i = Some (Z.of_nat (length l)) /\
    get (CList l) kp = Ok CNull.
Proof.
  assert (D : forall z, exists kp, keypath_split kp = [kp] /\ py_int kp = Some z).
  { intros z. exists (string_of_Z z). split; [|apply int_of_str].
    apply split_good, int_good. }
  intros l. split; [reflexivity|]. split.
  - destruct (D (- Z.of_nat (S (length l)))%Z) as (kp & E & I). exists kp.
    unfold get. rewrite E. cbn [get_in]. rewrite I.
    destruct (- Z.of_nat (S (length l)) <? Z.of_nat (length l))%Z eqn:L;
      [|apply Z.ltb_ge in L; lia].
    unfold conf_nth. destruct (- Z.of_nat (S (length l)) <? 0)%Z eqn:L2;
      [|apply Z.ltb_ge in L2; lia].
    destruct (- Z.of_nat (S (length l)) + Z.of_nat (length l) <? 0)%Z eqn:L3;
      [reflexivity|apply Z.ltb_ge in L3; lia].
  - destruct (D (Z.of_nat (length l))) as (kp & E & I). exists kp, kp.
    split; [exact E|]. split; [exact I|]. unfold get. rewrite E. cbn [get_in]. rewrite I.
    rewrite Z.ltb_irrefl. reflexivity.
Qed.

(** ** C63 *)

(** Loading a file keeps its items, underscores its keys and replaces the strings that
    name an environment variable. *)
Theorem C63_load : forall environ underscore d c, distinct_keys underscore (CDict d) ->
  (load environ underscore (Some (CDict d)) = Ok c <-> loaded environ underscore (CDict d) c).
Proof.
  intros environ underscore d c D. cbn [load]. split.
  - intros H. destruct (replace_envs environ (CDict d)) as [c0|] eqn:E; [|discriminate H].
    cbn [rbind] in H. injection H as <-. apply load_sound; assumption.
  - intros H. apply load_complete in H; [|exact D]. destruct H as (c0 & E & <-).
    rewrite E. reflexivity.
Qed.

(** It fails exactly when a string names a variable that is not set, with KeyError. *)
Theorem C63_missing_variable : forall environ underscore d,
  (exists e, load environ underscore (Some (CDict d)) = Err e) <->
  exists s n, value_in s (CDict d) /\ names_variable s n /\ environ n = None.
Proof.
  intros environ underscore d. unfold load. split.
  - intros (e & H). destruct (replace_envs environ (CDict d)) as [c|e'] eqn:E; [discriminate H|].
    apply replace_error in E. destruct E as [_ E]. exact E.
  - intros H. destruct (replace_dangling environ (CDict d) H) as (e & E).
    exists e. rewrite E. reflexivity.
Qed.

Theorem C63_missing_error : forall environ underscore d e,
  load environ underscore (Some (CDict d)) = Err e -> e = EKeyError.
Proof.
  intros environ underscore d e H. unfold load in H.
  destruct (replace_envs environ (CDict d)) as [c|e'] eqn:E; [discriminate H|].
  cbn in H. injection H as <-. apply (replace_error environ _ _ E).
Qed.

(** Without a file the configuration is empty: every reading gives None. *)
Theorem C63_no_file : forall environ underscore c kp,
  load environ underscore None = Ok c -> keypath_split kp <> [] -> get c kp = Ok CNull.
Proof.
  intros environ underscore c kp H N. injection H as <-. unfold get.
  destruct (keypath_split kp) as [|k [|k2 ks]]; [congruence|reflexivity|].
  rewrite get_in_cons. cbn [step_in sget dget rbind]. apply get_in_null.
Qed.

(** Exceptions: of two keys that underscore makes equal only the last keeps its value; and
    a file that does not hold a dict raises AttributeError. *)
Theorem C63_collision_refuted : forall environ underscore k1 k2 a b,
  k1 <> k2 -> underscore k1 = underscore k2 ->
  load environ underscore (Some (CDict [(k1, CNum a); (k2, CNum b)])) =
    Ok (CDict [(underscore k1, CNum b)]).
Proof.
  intros environ underscore k1 k2 a b N E. cbn -[String.eqb].
  destruct (String.eqb_spec k2 k1) as [X|_]; [congruence|]. cbn -[String.eqb].
  rewrite E, String.eqb_refl. reflexivity.
Qed.

Theorem C63_toplevel_refuted : forall environ underscore l,
  load environ underscore (Some (CList l)) = Err EAttributeError.
Proof. reflexivity. Qed.

(** ** C64 *)

(** After any history of requests, a request succeeds exactly when the configuration names
    an engine and settings for the name, and gives an uploader with these. *)
Theorem C64_request : forall c names name,
  let s := asked c names no_uploaders in
  (forall e settings, has_uploader c name e settings ->
     exists u s', request_uploader c name s = (Ok u, s') /\
       u_engine u = e /\ u_config u = settings) /\
  (forall u s', request_uploader c name s = (Ok u, s') ->
     has_uploader c name (u_engine u) (u_config u)).
Proof.
  intros c names name s. assert (SC : sound_cache c s) by (apply asked_sound, none_sound).
  split.
  - intros e settings H. pose proof H as C. apply configured_spec in C.
    unfold request_uploader. rewrite C. destruct (sget name (u_cache s)) as [u|] eqn:E.
    + exists u, s. split; [reflexivity|]. destruct SC as [SC _]. apply SC in E.
      destruct E as [_ E]. apply configured_spec in E. rewrite C in E. injection E as <- <-.
      auto.
    + eexists _, _. split; [reflexivity|]. auto.
  - intros u s' H. pose proof (request_sound c name s SC) as [SC' _]. rewrite H in SC'.
    apply request_ok in H. destruct H as [H _]. cbn [snd] in SC'. apply SC' in H. apply H.
Qed.

(** An uploader that was given once is given again for the same name, whatever is
    requested in between, and never for another name. *)
Theorem C64_same : forall c name s u s' names,
  request_uploader c name s = (Ok u, s') ->
  request_uploader c name (asked c names s') = (Ok u, asked c names s').
Proof.
  intros c name s u s' names H. apply request_ok in H. destruct H as [H _].
  apply request_cached. apply asked_keeps. exact H.
Qed.

Theorem C64_distinct : forall c before between a b u v s1 s2,
  request_uploader c a (asked c before no_uploaders) = (Ok u, s1) ->
  request_uploader c b (asked c between s1) = (Ok v, s2) ->
  a <> b -> u_id u <> u_id v.
Proof.
  intros c before between a b u v s1 s2 A B N E.
  assert (S1 : sound_cache c s1).
  { change s1 with (snd (Ok (A := uploader) u, s1)). rewrite <- A.
    apply request_sound, asked_sound, none_sound. }
  assert (S2 : sound_cache c s2).
  { change s2 with (snd (Ok (A := uploader) v, s2)). rewrite <- B.
    apply request_sound, asked_sound, S1. }
  apply request_ok in A. destruct A as [A _].
  assert (KA : sget a (u_cache s2) = Some u).
  { change s2 with (snd (Ok (A := uploader) v, s2)). rewrite <- B.
    apply request_keeps, asked_keeps, A. }
  apply request_ok in B. destruct B as [B _].
  destruct S2 as [_ S2]. apply N. eapply S2; eassumption.
Qed.

(** A request that fails changes nothing, and a name that is not configured fails with
    ValueError. *)
Theorem C64_failure : forall c name s,
  (forall e s', request_uploader c name s = (Err e, s') -> s' = s) /\
  (forall d, item_at c ["uploaders"] (CDict d) -> keypath_split name = [name] ->
     sget name d = None -> sget name (u_cache s) = None ->
     request_uploader c name s = (Err EValueError, s)).
Proof.
  intros c name s. split.
  - intros e s' H. apply request_err in H. apply H.
  - intros d U P N F. unfold request_uploader. rewrite F.
    change ["uploaders"] with (keypath_split "uploaders") in U.
    apply get_ok in U; [|discriminate|discriminate]. unfold configured. rewrite U.
    cbn [non_null rbind]. unfold get_attr, get. rewrite P. cbn [get_in]. rewrite N. reflexivity.
Qed.

(** Exception: an uploader whose name in the file is changed by underscore cannot be
    requested under that name. *)
Theorem C64_name_refuted : forall environ underscore d c name names,
  load environ underscore (Some (CDict d)) = Ok c ->
  keypath_split name = [name] -> py_int name = None -> (forall k, underscore k <> name) ->
  exists e s', request_uploader c name (asked c names no_uploaders) = (Err e, s').
Proof.
  intros environ underscore d c name names L P I N.
  destruct (request_uploader c name (asked c names no_uploaders)) as [[u|e] s'] eqn:R;
    [|eauto]. exfalso.
  apply (proj2 (C64_request c names name)) in R. destruct R as (_ & _ & R & _).
  rewrite P in R. cbn [app] in R.
  unfold load in L. destruct (replace_envs environ (CDict d)) as [c0|] eqn:E0; [|discriminate L].
  cbn [rbind] in L. injection L as <-.
  rewrite replace_dict in E0. destruct (replace_pairs environ d) as [d0|]; [|discriminate E0].
  cbn [rbind] in E0. injection E0 as <-.
  set (dd := dict_of String.eqb d0) in R.
  inversion R as [|? ? us ? ? G R1| |]; subst. 
  assert (U : exists x, us = normalize underscore x).
  { cbn [normalize] in *. apply sget_In in G.
    assert (Z : forall (l acc : list (string * conf)) k v,
      In (k, v) (dupdate String.eqb acc l) -> In (k, v) acc \/ In (k, v) l).
    { induction l as [|[k' v'] l IH]; intros acc k v H; [left; exact H|].
      change (dupdate String.eqb acc ((k', v') :: l))
        with (dupdate String.eqb (sset k' v' acc) l) in H.
      apply IH in H. destruct H as [H|H]; [|right; right; exact H].
      clear IH. induction acc as [|[k2 v2] acc IHa]; cbn in H.
      - destruct H as [H|[]]. right; left. congruence.
      - unfold sset in H. cbn in H. destruct (String.eqb k' k2) eqn:Ek.
        + destruct H as [H|H]; [right; left; apply String.eqb_eq in Ek; congruence|].
          left; right; exact H.
        + destruct H as [H|H]; [left; left; exact H|].
          destruct (IHa H) as [X|X]; [left; right; exact X|right; exact X]. }
    apply Z in G. destruct G as [[]|G]. apply in_map_iff in G.
    destruct G as ([k x] & G & _). injection G as _ <-. exists x. reflexivity. }
  destruct U as (x & ->).
  destruct x; cbn [normalize] in R1; inversion R1; subst; try congruence.
  match goal with G2 : sget name ?dd2 = Some _ |- _ =>
    destruct (normalized_get underscore d1 name _ G2) as (k0 & ->) end.
  exact (N k0 eq_refl).
Qed.

(** ** C65 *)

(** Whatever a client calls a file, it is stored under a plain name without capitals that
    begins with the random part and goes on with nothing or an extension. *)
Theorem C65_plain_name : forall hex client, hex32 hex ->
  plain_file_name (unique_filename hex client) /\ no_upper (unique_filename hex client) /\
  exists ext, unique_filename hex client = hex ++ ext /\
    (ext = "" \/ exists r, ext = "." ++ r /\ r <> "" /\ no_slash r).
Proof.
  intros hex client [L A]. unfold all_among in A. rewrite Forall_forall in A.
  assert (NS : no_slash (str_lower (path_suffix client))).
  { apply str_lower_no_slash. destruct (path_suffix_cases client) as [->|(r & _ & _ & _ & X & _)];
      [intros []|exact X]. }
  unfold unique_filename. repeat apply conj.
  - destruct hex; [discriminate L|discriminate].
  - destruct hex as [|a [|b h]]; try discriminate L. discriminate.
  - destruct hex as [|a [|b [|c h]]]; try discriminate L. discriminate.
  - unfold no_slash. rewrite chars_cat. intros I. apply in_app_iff in I. destruct I as [I|I].
    + apply A in I. apply low_hex_chars in I. destruct I as [I _]. congruence.
    + exact (NS I).
  - unfold no_upper. rewrite lower_cat.
    assert (H : str_lower hex = hex).
    { apply chars_inj. unfold str_lower, str_map. rewrite chars_of.
      rewrite <- (map_id (chars hex)) at 2. apply map_ext_in. intros c I.
      apply A in I. apply low_hex_chars in I. apply I. }
    rewrite H. f_equal. apply str_lower_twice.
  - eexists. split; [reflexivity|].
    destruct (path_suffix_cases client) as [->|(r & E & N & _ & X & _)]; [left; reflexivity|].
    right. exists (str_lower r). rewrite E. repeat apply conj.
    + reflexivity.
    + intros Y. apply N. apply chars_inj. apply (f_equal chars) in Y.
      unfold str_lower, str_map in Y. rewrite chars_of in Y. destruct (chars r); [reflexivity|discriminate Y].
    + apply str_lower_no_slash. intros I. apply X. rewrite E. right. exact I.
Qed.

(** The extension of the client's name is kept, in small letters. *)
Theorem C65_extension : forall hex base ext,
  base <> "" -> no_slash base -> ext <> "" -> no_slash ext -> ~ In "."%char (chars ext) ->
  unique_filename hex (base ++ "." ++ ext) = hex ++ "." ++ str_lower ext.
Proof.
  intros hex base ext B NB E NE ND. unfold unique_filename. f_equal.
  set (p := base ++ "." ++ ext).
  assert (PN : path_name p = p).
  { unfold path_name.
    assert (S : split_on (Ascii.eqb "/") p = [p]).
    { apply split_on_plain. intros c Hc. destruct (Ascii.eqb_spec "/" c) as [<-|]; [|reflexivity].
      exfalso. revert Hc. unfold p. rewrite !chars_cat. intros I. apply in_app_iff in I.
      destruct I as [I|I]; [exact (NB I)|]. destruct I as [I|I]; [discriminate I|exact (NE I)]. }
    rewrite S.
    assert (X : nonempty p && negb (String.eqb p ".") = true).
    { unfold p. destruct base as [|b base]; [congruence|]. cbn -[String.eqb].
      apply negb_true_iff. apply String.eqb_neq. intros Y. injection Y as _ Y.
      destruct base; discriminate Y. }
    cbn [filter]. rewrite X. reflexivity. }
  assert (LD : last_dot (chars p) = Some (chars ("." ++ ext))).
  { unfold p. rewrite chars_cat. clear -ND.
    assert (X : last_dot (chars ("." ++ ext)) = Some (chars ("." ++ ext))).
    { cbn. assert (Y : last_dot (chars ext) = None).
      { induction (chars ext) as [|c l IH]; [reflexivity|]. cbn.
        rewrite IH by (intros I; apply ND; right; exact I).
        destruct (Ascii.eqb_spec c "."); [|reflexivity]. subst. destruct ND. left. reflexivity. }
      rewrite Y. reflexivity. }
    induction (chars base) as [|c l IH]; [exact X|]. cbn [app last_dot]. rewrite IH. reflexivity. }
  assert (PS : path_suffix p = "." ++ ext).
  { unfold path_suffix. rewrite PN, LD.
    assert (L : Nat.ltb (length (chars ("." ++ ext))) (length (chars p)) &&
                Nat.ltb 1 (length (chars ("." ++ ext))) = true).
    { unfold p. rewrite (chars_cat base), app_length. apply andb_true_intro.
      destruct base; [congruence|]. destruct ext; [congruence|]. 
      split; apply Nat.ltb_lt; cbn; lia. }
    rewrite L. apply of_chars. }
  rewrite PS. reflexivity.
Qed.

(** Files stored with different random parts have different names, whatever the clients
    call them. *)
Theorem C65_no_overwrite : forall hex hex' client client', hex32 hex -> hex32 hex' ->
  hex <> hex' -> unique_filename hex client <> unique_filename hex' client'.
Proof.
  intros hex hex' client client' [L _] [L' _] N E. apply N. apply chars_inj.
  apply (f_equal chars) in E. unfold unique_filename in E. rewrite !chars_cat in E.
  assert (X : length (chars hex) = length (chars hex')).
  { rewrite !chars_length. congruence. }
  revert X E. generalize (chars hex) (chars hex'). 
  intros l l'. revert l'. induction l as [|c l IH]; intros [|c' l'] X E; try discriminate X.
  - reflexivity.
  - cbn in E, X. injection E as -> E. injection X as X. f_equal. apply IH; assumption.
Qed.

(** A successful upload stores the content once under such a name, and the address it
    gives ends in that name; a failed one stores nothing. *)
Theorem C65_stored : forall u hex f s,
  u_engine u <> EAliOSS ->
  match upload u hex f s with
  | (Ok r, s') => exists place front, let name := unique_filename hex (uf_name f) in
      s' = (s ++ [(place, name, uf_content f)])%list /\ r = CStr (front ++ place ++ "/" ++ name)
  | (Err _, s') => s' = s
  end.
Proof.
  intros u hex f s N. unfold upload, bind, lift, ret. destruct (u_engine u); [|congruence|].
  - destruct (conf_str (u_config u) "bucket") as [b|e]; [|reflexivity].
    destruct (conf_str (u_config u) "endpoint_url") as [url|e]; [|reflexivity].
    exists b, (url ++ "/"). cbn zeta. split; [reflexivity|]. rewrite str_app_assoc. reflexivity.
  - destruct (conf_str (u_config u) "dir") as [b|e]; [|reflexivity].
    destruct (conf_str (u_config u) "url") as [url|e]; [|reflexivity].
    exists b, (url ++ "/public/"). cbn zeta. split; [reflexivity|]. rewrite str_app_assoc. reflexivity.
Qed.

(** Exception: the alioss engine stores nothing and gives None. *)
Theorem C65_alioss_refuted : forall u hex f s, u_engine u = EAliOSS ->
  upload u hex f s = (Ok CNull, s).
Proof. intros u hex f s E. unfold upload. rewrite E. reflexivity. Qed.

Print Assumptions C62_get.
Print Assumptions C62_compose.
Print Assumptions C62_never_raises.
Print Assumptions C62_empty_refuted.
Print Assumptions C62_list_refuted.
Print Assumptions C63_load.
Print Assumptions C63_missing_variable.
Print Assumptions C63_missing_error.
Print Assumptions C63_no_file.
Print Assumptions C63_collision_refuted.
Print Assumptions C63_toplevel_refuted.
Print Assumptions C64_request.
Print Assumptions C64_same.
Print Assumptions C64_distinct.
Print Assumptions C64_failure.
Print Assumptions C64_name_refuted.
Print Assumptions C65_plain_name.
Print Assumptions C65_extension.
Print Assumptions C65_no_overwrite.
Print Assumptions C65_stored.
Print Assumptions C65_alioss_refuted.

(** ** Concrete cases *)

(** a stand-in for underscore that changes two keys *)
Definition uc_underscore (k : string) : string :=
  if String.eqb k "avatarImages" then "avatar_images"
  else if String.eqb k "endpointUrl" then "endpoint_url" else k.

Definition uc_environ (n : string) : option string :=
  if String.eqb n "BUCKET" then Some "photos" else None.

Definition uc_file : list (string * conf) :=
  [("uploaders", CDict
     [("avatarImages", CDict
        [("client", CStr "s3");
         ("config", CDict [("bucket", CStr "environ['BUCKET']"); ("endpointUrl", CStr "http://s3")])]);
      ("docs", CDict [("client", CStr "localfs"); ("config", CDict [("dir", CStr "d"); ("url", CStr "u")])])]);
   ("ports", CList [CNum 80; CNum 81])].

Definition uc_conf : conf := CDict
  [("uploaders", CDict
     [("avatar_images", CDict
        [("client", CStr "s3");
         ("config", CDict [("bucket", CStr "photos"); ("endpoint_url", CStr "http://s3")])]);
      ("docs", CDict [("client", CStr "localfs"); ("config", CDict [("dir", CStr "d"); ("url", CStr "u")])])]);
   ("ports", CList [CNum 80; CNum 81])].

Example C62_example :
  keypath_split "uploaders.docs.client" <> [] /\
  item_at uc_conf (keypath_split "uploaders.docs.client") (CStr "localfs") /\
  get uc_conf "ports.-1" = Ok (CNum 81) /\ get uc_conf "ports.2" = Ok CNull /\
  get uc_conf "ports.one" = Err EValueError /\ get uc_conf "uploaders.docs.client.x" = Ok CNull.
Proof.
  split; [discriminate|]. split.
  - apply get_in_only; [vm_compute; reflexivity|discriminate].
  - repeat apply conj; vm_compute; reflexivity.
Qed.

Lemma uc_distinct : distinct_keys uc_underscore (CDict uc_file).
Proof.
  assert (N : forall l : list string, NoDup l -> NoDup l) by auto.
  unfold uc_file.
  repeat first [ apply dk_dict; [cbn; repeat (constructor; [cbn; intuition discriminate|]); constructor|]
               | apply dk_list | apply Forall_cons; cbn [snd] | apply Forall_nil
               | apply dk_str | apply dk_num ].
Qed.

Example C63_example :
  distinct_keys uc_underscore (CDict uc_file) /\
  load uc_environ uc_underscore (Some (CDict uc_file)) = Ok uc_conf /\
  loaded uc_environ uc_underscore (CDict uc_file) uc_conf /\
  load (fun _ => None) uc_underscore (Some (CDict uc_file)) = Err EKeyError.
Proof.
  split; [exact uc_distinct|]. split; [vm_compute; reflexivity|]. split.
  - apply C63_load; [exact uc_distinct|vm_compute; reflexivity].
  - vm_compute. reflexivity.
Qed.

Example C64_example :
  has_uploader uc_conf "docs" ELocalFS (CDict [("dir", CStr "d"); ("url", CStr "u")]) /\
  (let s := asked uc_conf ["docs"; "none"; "avatar_images"] no_uploaders in
   map fst (u_cache s) = ["docs"; "avatar_images"] /\
   fst (request_uploader uc_conf "avatarImages" s) = Err EValueError) /\
  (forall k, uc_underscore k <> "avatarImages").
Proof.
  split.
  - apply configured_spec. vm_compute. reflexivity.
  - split; [split; vm_compute; reflexivity|].
    intros k. unfold uc_underscore. destruct (String.eqb_spec k "avatarImages"); [discriminate|].
    destruct (String.eqb_spec k "endpointUrl"); [discriminate|congruence].
Qed.

Definition uc_hex : string := "0123456789abcdef0123456789abcdef".

Example C65_example :
  hex32 uc_hex /\
  unique_filename uc_hex "../../etc/Photo.JPG" = uc_hex ++ ".jpg" /\
  unique_filename uc_hex "a.b/../.." = uc_hex /\
  no_slash "Photo" /\ ~ In "."%char (chars "JPG") /\
  upload {| u_id := 0; u_engine := ELocalFS;
            u_config := CDict [("dir", CStr "d"); ("url", CStr "u")] |} uc_hex
         {| uf_name := "x.Png"; uf_content := "data" |} [] =
    (Ok (CStr ("u/public/d/" ++ uc_hex ++ ".png")), [("d", uc_hex ++ ".png", "data")]).
Proof.
  split.
  - split; [reflexivity|]. apply all_among_b. vm_compute. reflexivity.
  - split; [vm_compute; reflexivity|]. split; [vm_compute; reflexivity|].
    split; [intros I; cbn in I; intuition discriminate|].
    split; [intros I; cbn in I; intuition discriminate|vm_compute; reflexivity].
Qed.
