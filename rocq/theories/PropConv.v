(** PropConv.v -- C75 and C76: conversions of values, and passwords. *)
From Coq Require Import QArith.
From Verif Require Import Base Mon Values PyStr KeypathModel PyInt LeafModel LeafSpec ConvModel ConvSpec ConvProofs.
Open Scope string_scope.
Open Scope list_scope.
Open Scope Z_scope.

(** ** C75 Conversions *)

(** toint reads exactly the texts of ints, turns bools into 0 and 1, and leaves every other
    value alone.  Any other text raises ValueError (finding: it is not reported as an
    invalid value). *)
Theorem C75_toint : forall S,
  (forall s z, int_text s z -> gives (@t_toint S (VStr s)) (VInt z)) /\
  (forall s, (forall z, ~ int_text s z) -> raises (@t_toint S (VStr s)) EValueError) /\
  (forall b, gives (@t_toint S (VBool b)) (VInt (if b then 1 else 0))) /\
  (forall v, (forall s, v <> VStr s) -> (forall b, v <> VBool b) -> gives (@t_toint S v) v).
Proof.
  intros S. split; [|split; [|split]].
  - intros s z H x. apply int_reads in H. cbn. rewrite H. reflexivity.
  - intros s N x. cbn. destruct (py_int s) as [z|] eqn:E; [|reflexivity].
    destruct (N z). apply int_reads, E.
  - intros b x. reflexivity.
  - intros v NS NB x. destruct v; try reflexivity; [destruct (NB b eq_refl)|destruct (NS s eq_refl)].
Qed.
Print Assumptions C75_toint.

(** No text is that of two ints, so toint never has a choice. *)
Theorem C75_int_text_unique : forall s z k, int_text s z -> int_text s k -> z = k.
Proof. intros s z k A B. apply int_reads in A. apply int_reads in B. congruence. Qed.
Print Assumptions C75_int_text_unique.

(** An int written with tostr is read back by toint; bools are written as words, and reading
    these back raises. *)
Theorem C75_round_trip : forall S pf,
  (forall z, gives (do* w <- @t_tostr S pf (VInt z); t_toint w) (VInt z)) /\
  (forall b, raises (do* w <- @t_tostr S pf (VBool b); t_toint w) EValueError).
Proof.
  intros S pf. split.
  - intros z x. unfold bind, t_tostr, t_toint, ret.
    rewrite int_of_str. reflexivity.
  - intros b x. destruct b; reflexivity.
Qed.
Print Assumptions C75_round_trip.

(** tostr changes numbers and bools only; no two ints are written alike. *)
Theorem C75_tostr : forall S pf,
  (forall z, exists s, gives (@t_tostr S pf (VInt z)) (VStr s) /\ int_text s z) /\
  (forall z k s, gives (@t_tostr S pf (VInt z)) (VStr s) -> gives (@t_tostr S pf (VInt k)) (VStr s) ->
     inhabited S -> z = k) /\
  (forall f, gives (@t_tostr S pf (VFloat f)) (VStr (pf f))) /\
  gives (@t_tostr S pf (VBool true)) (VStr "True") /\ gives (@t_tostr S pf (VBool false)) (VStr "False") /\
  (forall v, is_number v = false -> (forall b, v <> VBool b) -> gives (@t_tostr S pf v) v).
Proof.
  intros S pf. split; [|split; [|split; [|split; [|split]]]].
  - intros z. exists (string_of_Z z). split; [intros x; reflexivity|]. apply int_reads, int_of_str.
  - intros z k s A B [s0]. specialize (A s0). specialize (B s0). cbn in A, B.
    injection A as A. injection B as B. rewrite <- A in B.
    apply (f_equal py_int) in B. rewrite !int_of_str in B. congruence.
  - intros f x. reflexivity.
  - intros x. reflexivity.
  - intros x. reflexivity.
  - intros v NN NB x. destruct v; try reflexivity; try discriminate NN. destruct (NB b eq_refl).
Qed.
Print Assumptions C75_tostr.

(** What Python takes for false *)
Inductive falsy : value -> Prop :=
| fa_none : falsy VNone
| fa_false : falsy (VBool false)
| fa_zero : falsy (VInt 0)
| fa_fzero : forall q, (q == 0)%Q -> falsy (VFloat (FFin q))
| fa_str : falsy (VStr "")
| fa_list : falsy (VList [])
| fa_dict : falsy (VDict []).

(** tobool gives False for exactly these.  So the texts "false" and "0" give True. *)
Theorem C75_tobool : forall S v,
  (falsy v -> gives (@t_tobool S v) (VBool false)) /\ (~ falsy v -> gives (@t_tobool S v) (VBool true)).
Proof.
  intros S v. split.
  - intros F x. destruct F; try reflexivity. unfold t_tobool. cbn [truthy].
    apply Qeq_bool_iff in H. rewrite H. reflexivity.
  - intros N x. unfold t_tobool. replace (truthy v) with true; [reflexivity|]. symmetry.
    destruct v; try reflexivity; cbn [truthy].
    + destruct N; constructor.
    + destruct b; [reflexivity|]. destruct N; constructor.
    + destruct (z =? 0) eqn:E; [|reflexivity]. apply Z.eqb_eq in E. subst z. destruct N; constructor.
    + destruct f; try reflexivity. destruct (Qeq_bool q 0) eqn:E; [|reflexivity].
      apply Qeq_bool_iff in E. destruct N; constructor; exact E.
    + destruct (String.eqb s "") eqn:E; [|reflexivity]. apply String.eqb_eq in E. subst s. destruct N; constructor.
    + destruct l; [destruct N; constructor|reflexivity].
    + destruct d; [destruct N; constructor|reflexivity].
Qed.
Print Assumptions C75_tobool.

(** tolist makes the list of the characters of a string, from which the string can be put
    together again; lists and other values stay. *)
Theorem C75_tolist : forall S,
  (forall s, exists l, gives (@t_tolist S (VStr s)) (VList (map (fun c => VStr c) l)) /\
     String.concat "" l = s /\ forall c, In c l -> String.length c = 1%nat) /\
  (forall v, (forall s, v <> VStr s) -> gives (@t_tolist S v) v).
Proof.
  intros S. split.
  - intros s. exists (map (fun c => String c "") (chars s)). split; [|split].
    + intros x. cbn. rewrite map_map. reflexivity.
    + induction s as [|c s IH]; [reflexivity|]. cbn [list_ascii_of_string map].
      destruct (map (fun c0 => String c0 "") (chars s)) as [|y r] eqn:E.
      * cbn. cbn in IH. subst s. reflexivity.
      * cbn in *. rewrite IH. reflexivity.
    + intros c H. apply in_map_iff in H. destruct H as (k & <- & _). reflexivity.
  - intros v N x. destruct v; try reflexivity. destruct (N s eq_refl).
Qed.
Print Assumptions C75_tolist.

(** sqrt reports negative numbers and nan, gives the root of every other number, and
    leaves other values alone. *)
Theorem C75_sqrt : forall S vexc root,
  (forall v x r, number v x -> at_most zero x -> root v = Ok r -> gives (@t_sqrt S vexc root v) (VFloat r)) /\
  (forall v x, number v x -> ~ at_most zero x -> exists msg, raises (@t_sqrt S vexc root v) (vexc msg)) /\
  (forall v, is_number v = false -> gives (@t_sqrt S vexc root v) v).
Proof.
  intros S vexc root.
  assert (LE : forall v x, number v x -> exists b, py_le (VInt 0) v = Ok b /\ (b = true <-> at_most zero x)).
  { intros v x N. destruct N; (eexists; split; [reflexivity|]); cbn; split; intros H; try discriminate H.
    - apply Qle_bool_iff in H. apply Qle_lteq in H. destruct H as [H|H]; [left|right]; constructor; exact H.
    - apply Qle_bool_iff. destruct H as [H|H]; inversion H; subst; [apply Qlt_le_weak; assumption|match goal with Q : (_ == _)%Q |- _ => rewrite Q end; apply Qle_refl].
    - apply Qle_bool_iff in H. apply Qle_lteq in H. destruct H as [H|H]; [left|right]; constructor; exact H.
    - apply Qle_bool_iff. destruct H as [H|H]; inversion H; subst; [apply Qlt_le_weak; assumption|match goal with Q : (_ == _)%Q |- _ => rewrite Q end; apply Qle_refl].
    - destruct H as [H|H]; inversion H.
    - left. constructor.
    - reflexivity.
    - destruct H as [H|H]; inversion H. }
  assert (EQ : forall v x, number v x -> @t_sqrt S vexc root v =
    (do* ok <- lift (py_le (VInt 0) v);
     if ok then do* r <- lift (root v); ret (VFloat r)
     else throw (vexc "value is less than 0 thus cannot be sqrted"))) by (intros v x N; destruct N; reflexivity).
  split; [|split].
  - intros v x r N A R s. rewrite (EQ v x N). destruct (LE v x N) as (b & E & B).
    unfold bind, lift. rewrite E. rewrite (proj2 B A), R. reflexivity.
  - intros v x N A. eexists. intros s. rewrite (EQ v x N). destruct (LE v x N) as (b & E & B).
    unfold bind, lift. rewrite E. destruct b; [destruct (A (proj1 B eq_refl))|reflexivity].
  - intros v N s. destruct v; try reflexivity; discriminate N.
Qed.
Print Assumptions C75_sqrt.

(** tofloat gives whatever [float] reads, or ValueError. *)
Theorem C75_tofloat : forall S rf,
  (forall s f, rf s = Some f -> gives (@t_tofloat S rf (VStr s)) (VFloat f)) /\
  (forall s, rf s = None -> raises (@t_tofloat S rf (VStr s)) EValueError) /\
  (forall b, gives (@t_tofloat S rf (VBool b)) (VFloat (FFin (if b then 1 else 0)))) /\
  (forall v, (forall s, v <> VStr s) -> (forall b, v <> VBool b) -> gives (@t_tofloat S rf v) v).
Proof.
  intros S rf. split; [|split; [|split]].
  - intros s f H x. cbn. rewrite H. reflexivity.
  - intros s H x. cbn. rewrite H. reflexivity.
  - intros b x. destruct b; reflexivity.
  - intros v NS NB x. destruct v; try reflexivity; [destruct (NB b eq_refl)|destruct (NS s eq_refl)].
Qed.
Print Assumptions C75_tofloat.

Example C75_example :
  int_text "  -1_024 " (-1024) /\ @t_toint unit (VStr "  -1_024 ") tt = (Ok (VInt (-1024)), tt) /\
  (forall z, ~ int_text "1__0" z) /\ (forall z, ~ int_text "12.5" z) /\
  gives (@t_tobool unit (VStr "false")) (VBool true).
Proof.
  split; [apply int_reads; reflexivity|]. split; [reflexivity|].
  split; [intros z H; apply int_reads in H; discriminate H|].
  split; [intros z H; apply int_reads in H; discriminate H|]. intros x. reflexivity.
Qed.

(** ** C76 Passwords *)

Section Passwords.
  Context (S : Type) (vexc : string -> exn).
  Context (same : string -> string -> Prop).
  Context (gensalt : st S string) (hashpw : string -> string -> res string) (bcheck : string -> string -> res bool).

  (** A password that was salted is accepted, and nothing else: checking a text against the
      stored value succeeds exactly if the text is the same password, and reports an invalid
      value otherwise.  Only strings are ever accepted. *)
  Theorem C76_passwords : bcrypt_law same hashpw bcheck ->
    forall p s h s', t_salt gensalt hashpw (VStr p) s = (Ok (VStr h), s') ->
    (forall q, decides vexc (@v_checkpw S vexc bcheck (fun _ => ret (VStr q)) (VStr h)) (same p q)) /\
    (forall w, (forall q, w <> VStr q) -> rejects vexc (@v_checkpw S vexc bcheck (fun _ => ret w) (VStr h))) /\
    (forall q v, (forall t, v <> VStr t) -> rejects vexc (@v_checkpw S vexc bcheck (fun _ => ret (VStr q)) v)).
  Proof.
    intros LAW p s h s' H. split; [|split].
    - intros q. cbn [t_salt] in H. unfold bind, lift, ret in H.
      destruct (gensalt s) as [[g|e] s1]; [|discriminate H].
      destruct (hashpw p g) as [h'|e] eqn:E; [|discriminate H]. injection H as -> ->.
      destruct (LAW p g h q E) as (b & B & BS).
      assert (RUN : forall x : S, @v_checkpw S vexc bcheck (fun _ => ret (VStr q)) (VStr h) x =
                (if b then Ok tt else Err (vexc "value is incorrect"), x)).
      { intros x. unfold v_checkpw, bind, lift, ret. rewrite B. destruct b; reflexivity. }
      destruct b.
      + split; split.
        * intros _. apply BS. reflexivity.
        * intros _ x. apply RUN.
        * intros (msg & R). specialize (R s). rewrite RUN in R. discriminate R.
        * intros N. destruct N. apply BS. reflexivity.
      + split; split.
        * intros A. specialize (A s). rewrite RUN in A. discriminate A.
        * intros A. apply BS in A. discriminate A.
        * intros _ A. apply BS in A. discriminate A.
        * intros _. exists "value is incorrect". intros x. apply RUN.
    - intros w N. exists "value is incorrect". intros x. destruct w; try reflexivity. destruct (N s0 eq_refl).
    - intros q v N. exists "value is incorrect". intros x. destruct v; try reflexivity. destruct (N s0 eq_refl).
  Qed.

  (** Values that are no strings are not hashed; a password that cannot be hashed raises,
      and is not stored as it is. *)
  Theorem C76_salt : forall v s,
    ((forall p, v <> VStr p) -> t_salt gensalt hashpw v s = (Ok v, s)) /\
    (forall p, v = VStr p -> forall w s', t_salt gensalt hashpw v s = (Ok w, s') ->
       exists g h s1, gensalt s = (Ok g, s1) /\ hashpw p g = Ok h /\ w = VStr h).
  Proof.
    intros v s. split.
    - intros N. destruct v; try reflexivity. destruct (N s0 eq_refl).
    - intros p -> w s' H. cbn [t_salt] in H. unfold bind, lift, ret in H.
      destruct (gensalt s) as [[g|e] s1] eqn:G; [|discriminate H].
      destruct (hashpw p g) as [h|e] eqn:E; [|discriminate H]. injection H as <- _.
      exists g, h, s1. split; [reflexivity|]. split; [exact E|reflexivity].
  Qed.

  (** A value that passes through salt a second time, because the stored object is fed
      through its own transformations again, no longer matches the password. *)
  Theorem C76_twice_refuted : bcrypt_law same hashpw bcheck ->
    forall p s h h' s1 s2, t_salt gensalt hashpw (VStr p) s = (Ok (VStr h), s1) ->
    t_salt gensalt hashpw (VStr h) s1 = (Ok (VStr h'), s2) -> ~ same h p ->
    rejects vexc (@v_checkpw S vexc bcheck (fun _ => ret (VStr p)) (VStr h')).
  Proof.
    intros LAW p s h h' s1 s2 A B N.
    destruct (C76_passwords LAW h s1 h' s2 B) as (D & _). apply (proj2 (D p)). exact N.
  Qed.
End Passwords.
Print Assumptions C76_passwords.
Print Assumptions C76_salt.
Print Assumptions C76_twice_refuted.

(** A toy hash that satisfies the law: a mark and the password itself *)
Definition toy_hash (p g : string) : res string := Ok ("$" ++ p)%string.
Definition toy_check (q h : string) : res bool := Ok (String.eqb h ("$" ++ q)%string).
Example C76_example : bcrypt_law eq toy_hash toy_check /\
  t_salt (@ret unit string "g") toy_hash (VStr "secret") tt = (Ok (VStr "$secret"), tt) /\
  ~ "$secret" = "secret".
Proof.
  split; [|split; [reflexivity|discriminate]].
  intros p g h q H. injection H as <-. eexists. split; [reflexivity|].
  rewrite String.eqb_eq. cbn. split; [intros H; injection H as ->; reflexivity|intros ->; reflexivity].
Qed.
