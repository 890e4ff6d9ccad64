(** PropSub.v -- C95: the modifier that replaces the matches of a regular expression.

    In the section, [S] is the program state, [resolve] evaluates a modifier's parameter,
    [compile] reads the text of a pattern and [template] the text of a replacement.  All are
    arbitrary. *)
From Verif Require Import Base Mon Values PyStr LeafSpec RegexModel RegexSpec RegexProofs
  SubModel SubSpec SubProofs.
Open Scope nat_scope.
Open Scope list_scope.

Section Props.
  Context {S P : Type}.
  Variable resolve : P -> st S value.
  Variable compile : string -> res rx.
  Variable template : rx -> string -> res (list ascii -> list ascii).
  Notation denotes := (resolves resolve).
  Notation replacer := (t_replacer resolve compile template).

  Lemma replacer_runs : forall reg rep p q r t s st,
    denotes reg (VStr p) -> denotes rep (VStr q) -> compile p = Ok r -> template r q = Ok t ->
    replacer reg rep (VStr s) st = (Ok (VStr (re_sub r t s)), st).
  Proof.
    intros reg rep p q r t s st H1 H2 H3 H4. unfold t_replacer, bind.
    rewrite H1, H2, H3. cbn [lift]. rewrite H4. reflexivity.
  Qed.

  (** replacer turns a string into one in which the text is cut into copied characters and
      replaced matches, reading from the left and leaving no match standing; it returns every
      value that is not a string as it is. *)
  Theorem C95_replacer : forall reg rep p q r t,
    denotes reg (VStr p) -> denotes rep (VStr q) -> compile p = Ok r -> template r q = Ok t ->
    (forall s, exists s', substituted r t s s' /\
       forall st, replacer reg rep (VStr s) st = (Ok (VStr s'), st)) /\
    (forall v st, (forall s, v <> VStr s) -> replacer reg rep v st = (Ok v, st)).
  Proof.
    intros reg rep p q r t H1 H2 H3 H4. split.
    - intros s. exists (re_sub r t s). split; [apply re_sub_cuts|].
      intros st. eapply replacer_runs; eauto.
    - intros v st N. unfold t_replacer, bind. rewrite H1, H2.
      destruct v; try reflexivity. exfalso. eapply N. reflexivity.
  Qed.

  (** A string in which the pattern does not occur stays as it is. *)
  Theorem C95_no_match : forall reg rep p q r t s,
    denotes reg (VStr p) -> denotes rep (VStr q) -> compile p = Ok r -> template r q = Ok t ->
    ~ occurs_in r s ->
    forall st, replacer reg rep (VStr s) st = (Ok (VStr s), st).
  Proof.
    intros reg rep p q r t s H1 H2 H3 H4 N st.
    rewrite (replacer_runs reg rep p q r t s st H1 H2 H3 H4). do 3 f_equal.
    destruct (re_sub_cuts r t s) as (ps & T & O & C & _). apply unchars_inj.
    rewrite O, T. apply no_pieces. intros m I. apply in_split in I.
    destruct I as (ps1 & ps2 & E). apply N. destruct (C ps1 m ps2 E) as [M _].
    exists (text ps1), m, (text ps2). split; [|exact M].
    rewrite T, E, text_app. reflexivity.
  Qed.

  (** A pattern for one character out of a class: exactly the characters of the class are
      replaced, each by itself. *)
  Theorem C95_characters : forall reg rep p q cls t s,
    denotes reg (VStr p) -> denotes rep (VStr q) ->
    compile p = Ok (RChar cls) -> template (RChar cls) q = Ok t ->
    forall st, replacer reg rep (VStr s) st =
      (Ok (VStr (unchars (flat_map (fun c => if cls c then t [c] else [c]) (chars s)))), st).
  Proof.
    intros reg rep p q cls t s H1 H2 H3 H4 st.
    rewrite (replacer_runs reg rep p q (RChar cls) t s st H1 H2 H3 H4).
    unfold re_sub. rewrite chars_replaced by lia. reflexivity.
  Qed.

  (** A pattern for runs of such characters: every run is replaced once, as a whole. *)
  Theorem C95_runs : forall reg rep p q cls t runs tail s,
    denotes reg (VStr p) -> denotes rep (VStr q) ->
    compile p = Ok (rplus (RChar cls)) -> template (rplus (RChar cls)) q = Ok t ->
    whole_runs cls runs tail -> chars s = run_text runs tail ->
    forall st, replacer reg rep (VStr s) st = (Ok (VStr (unchars (run_out t runs tail))), st).
  Proof.
    intros reg rep p q cls t runs tail s H1 H2 H3 H4 (F & G & T) E st.
    rewrite (replacer_runs reg rep p q _ t s st H1 H2 H3 H4).
    unfold re_sub. rewrite E, runs_replaced; auto.
  Qed.

  (** A malformed pattern or replacement raises whatever reading it raises, also for the
      strings without a match. *)
  Theorem C95_malformed : forall reg rep p q s e,
    denotes reg (VStr p) -> denotes rep (VStr q) ->
    compile p = Err e \/ (exists r, compile p = Ok r /\ template r q = Err e) ->
    raises (replacer reg rep (VStr s)) e.
  Proof.
    intros reg rep p q s e H1 H2 H3 st. unfold t_replacer, bind. rewrite H1, H2.
    destruct H3 as [H3|(r & H3 & H4)]; rewrite H3; [reflexivity|].
    cbn [lift]. rewrite H4. reflexivity.
  Qed.
End Props.

Print Assumptions C95_replacer.
Print Assumptions C95_no_match.
Print Assumptions C95_characters.
Print Assumptions C95_runs.
Print Assumptions C95_malformed.

(** ** A concrete case *)

Definition ex_resolve (v : value) : st unit value := ret v.
Definition ex_compile (s : string) : res rx :=
  if String.eqb s "[0-9]+" then Ok (rplus (RChar is_digit))
  else if String.eqb s "x*" then Ok (RStar (RChar (Ascii.eqb "x")))
  else if String.eqb s "[0-9]" then Ok (RChar is_digit) else Err EValueError.
Definition ex_template (r : rx) (q : string) : res (list ascii -> list ascii) :=
  Ok (fun _ => chars q).

(** Numbers become a hash sign; [x*] replaces runs and, Python's way, the empty places. *)
Example C95_example :
  let go p q s := fst (t_replacer ex_resolve ex_compile ex_template (VStr p) (VStr q) (VStr s) tt) in
  go "[0-9]+"%string "#"%string "a12b3"%string = Ok (VStr "a#b#") /\
  go "[0-9]"%string "#"%string "a12b3"%string = Ok (VStr "a##b#") /\
  go "x*"%string "-"%string "abxd"%string = Ok (VStr "-a-b--d-") /\
  go "[0-9]+"%string "#"%string "abc"%string = Ok (VStr "abc") /\
  whole_runs is_digit [(chars "a", chars "12"); (chars "b", chars "3")] [] /\
  ~ occurs_in (RChar is_digit) "abc".
Proof.
  cbv zeta. repeat match goal with |- _ /\ _ => split end; try (vm_compute; reflexivity).
  - assert (N : forall (c : ascii) l, c :: l <> []) by (intros c l X; discriminate X).
    split; [|split].
    + apply Forall_cons; [|apply Forall_cons; [|apply Forall_nil]];
        (split; [repeat constructor|split; [repeat constructor|apply N]]).
    + apply Forall_cons; [apply N|apply Forall_nil].
    + apply Forall_nil.
  - intros H. apply re_search_spec in H. revert H. vm_compute. intros H. discriminate H.
Qed.

(** Surrounding matches are replaced once: replacing again may change the text, so replacer
    need not be idempotent. *)
Theorem C95_again_refuted : exists r t s, re_sub r t (re_sub r t s) <> re_sub r t s.
Proof.
  exists (RChar (Ascii.eqb "a")), (fun _ => chars "aa"), "a"%string.
  vm_compute. intros H. discriminate H.
Qed.
Print Assumptions C95_again_refuted.
