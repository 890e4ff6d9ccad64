(** PropRound.v -- C85: what tojson writes, the constructor and set read back. *)
From Coq Require Import Lia.
From Verif Require Import Base Mon PyList PyDict StrDict KeypathModel KeypathSpec Values CalModel CalSpec OGraphModel ChainModel TypesModel ObjModel
  ObjSpec ObjExample IoModel IoExample IoBase EnumSpec TameSpec GraphSpec CivilSpec OutSpec OutFormSpec WriteSpec InitProofs MakeSpec PropGraph PropWrite PropMake
  PropOut PropOutForm SetInSpec PropSetIn RoundSpec RoundProofs.
From Verif Require LeafModel WriteFrame.
Open Scope string_scope.
Open Scope list_scope.

(** ** C85 *)
(** A value, to any depth: if [v] of type [ts] is written [j], then [ts] reads [j] as [v] and
    does nothing else, if it has enough recursion depth, and never reads it as anything else. *)
Theorem C85_value : forall P h x operator ignore_writeonly reverse out_null p ts v j,
  kept P ts v -> form P h x operator ignore_writeonly reverse out_null p ts v j ->
  (exists N, forall n c w, (N <= n)%nat -> c_val c = j -> c_fdef c = fdef_of ts -> c_original c = VNone -> (exists o, c_owner c = VObj o) ->
     t_transform (interp P n) ts c w = (Ok v, w)) /\
  (forall n c w y w', c_val c = j -> c_fdef c = fdef_of ts -> c_original c = VNone -> t_transform (interp P n) ts c w = (Ok y, w') -> y = v /\ w' = w).
Proof.
  intros P h x op ig rv on p ts v j K F. destruct (proj1 (kept_back_both P h x op ig rv on) _ _ K _ _ F) as [_ B1 B2]. auto.
Qed.
Print Assumptions C85_value.

(** An object: made anew from the output of [o], anywhere and at any time, an object has the
    same value in every data field that is visible, not read-only, and whose value is kept. *)
Theorem C85_object : forall P D d f v o n ignore_writeonly reverse out_null m w w1 n' w2 x w3,
  calm P -> tame_classes D P -> late_classes D P -> flat_guards D P ARead -> own_name P (fl_name f) ->
  considerate P (h_next (w_heap w2)) (fl_name f) -> newborn P (h_next (w_heap w2)) -> (2 <= p_lim P)%nat ->
  p_ct P (o_class (h_obj (w_heap w) o)) = Some d -> proper_names d -> own_key d f ->
  In f (cd_fields d) -> plain_field f = true -> visible ignore_writeonly (w_ext w o) f = true ->
  f_write_rule (fl_fdef f) <> NoWrite ->
  reads P (w_heap w) o (fl_name f) v -> kept P (fl_types f) v -> (v = VNone -> fl_default f = VNone) ->
  (key_given d m -> nowhere_held (o_class (h_obj (w_heap w) o)) D P) -> Forall (fun kv => plain (fst kv)) m ->
  tojson P n o ignore_writeonly reverse out_null w = (Ok (VDict m), w1) ->
  construct P n' (o_class (h_obj (w_heap w) o)) m w2 = (Ok x, w3) ->
  attr (w_heap w3) x (fl_name f) = Some v.
Proof.
  intros P D d f v o n iw rev on m w w1 n' w2 x w3 C T L G ON CS NB Lim Ed Pn Ok Hf Pf V Wr R K Df Kg Pl J E.
  pose proof (C82_form P D w n o iw rev on _ w1 C T G J) as F.
  destruct (output_input P _ _ _ _ _ _ _ o d m f v Ed (pn_names _ Pn) Ok Hf Pf V R K F) as [I1 I2].
  destruct (C30_fields_and_new P D _ d f m n' w2 x w3 T L ON CS NB Ed Pn Lim Hf Pf Kg Pl E) as (_ & _ & _ & _ & y & Hy & X).
  rewrite Hy. f_equal. unfold expected in X.
  assert (Mk : forall j, back P (fl_types f) j v -> makes_of P x f j y -> y = v).
  { intros j B (n0 & c & w4 & w5 & E1 & _ & E2 & E2' & E3). exact (proj1 (b_only _ _ _ _ B n0 c w4 y w5 E1 E2 E2' E3)). }
  assert (Dec : v = VNone \/ v <> VNone) by (destruct v; auto; right; discriminate).
  destruct Dec as [-> | Nv].
  - destruct (I2 eq_refl) as [B I3]. specialize (Df eq_refl).
    assert (Dm : default_of P x f y -> y = VNone) by (unfold default_of; rewrite Df; apply Mk; exact B).
    destruct I3 as [I3 | I3]; rewrite I3 in X; [exact (Dm X) |]. destruct X as [[_ X] | [_ X]]; [exact (Mk _ B X) | exact (Dm X)].
  - destruct (I1 Nv) as (j & Nj & I3 & B). rewrite I3 in X. destruct X as [[_ X] | [X _]]; [exact (Mk _ B X) |].
    exfalso. apply X. unfold takes. destruct (f_write_rule (fl_fdef f)); try exact Logic.I; [contradiction Wr; reflexivity | exact Nj].
Qed.
Print Assumptions C85_object.

(** Set on another object of the class, the output of [o] gives it the same values, or leaves
    equal ones; here the field must not be write-once, and its value not None. *)
Theorem C85_copied : forall P D d f v o n ignore_writeonly reverse out_null m w w1 n' w2 x cur w3,
  calm P -> tame_classes D P -> late_classes D P -> flat_guards D P ARead -> own_name P (fl_name f) ->
  considerate P x (fl_name f) -> holds_data P (w_heap w2) x f -> (1 <= p_lim P)%nat ->
  o_class (h_obj (w_heap w2) x) = o_class (h_obj (w_heap w) o) ->
  p_ct P (o_class (h_obj (w_heap w) o)) = Some d -> NoDup (map fl_name (cd_fields d)) -> own_key d f ->
  In f (cd_fields d) -> plain_field f = true -> visible ignore_writeonly (w_ext w o) f = true ->
  f_write_rule (fl_fdef f) <> NoWrite -> f_write_rule (fl_fdef f) <> WriteOnce ->
  reads P (w_heap w) o (fl_name f) v -> kept P (fl_types f) v -> v <> VNone ->
  (key_given d m -> nowhere_held (o_class (h_obj (w_heap w) o)) D P) -> Forall (fun kv => plain (fst kv)) m ->
  attr (w_heap w2) x (fl_name f) = Some cur ->
  tojson P n o ignore_writeonly reverse out_null w = (Ok (VDict m), w1) ->
  jset P n' x m w2 = (Ok tt, w3) ->
  exists z, attr (w_heap w3) x (fl_name f) = Some z /\ becomes P cur v z.
Proof.
  intros P D d f v o n iw rev on m w w1 n' w2 x cur w3 C T L G ON CS HD Lim Ec Ed Nd Ok Hf Pf V W1 W2 R K Nv Kg Pl Ha J E.
  pose proof (C82_form P D w n o iw rev on _ w1 C T G J) as F.
  destruct (output_input P _ _ _ _ _ _ _ o d m f v Ed Nd Ok Hf Pf V R K F) as [I1 _].
  destruct (I1 Nv) as (j & Nj & I3 & B). rewrite <- Ec in Ed, Kg.
  destruct (C84_set P D d f m x cur n' w2 w3 T L ON CS HD Ed Nd Hf Lim Kg Pl Ha E) as (z & Hz & X).
  exists z. split; [exact Hz |]. unfold after_set in X. rewrite I3 in X.
  assert (Tk : takes_now f cur j) by (unfold takes_now; destruct (f_write_rule (fl_fdef f)); try exact Logic.I; try contradiction; exact Nj).
  destruct X as [(_ & y & (n0 & c & w4 & w5 & E1 & _ & E2 & E2' & E3) & X) | (X & _)]; [| contradiction (X Tk)].
  destruct (b_only _ _ _ _ B n0 c w4 y w5 E1 E2 E2' E3) as [-> _]. exact X.
Qed.
Print Assumptions C85_copied.

(** ** A program that meets the hypotheses *)
Definition renamed (j : string) (f : field) : field :=
  {| fl_name := fl_name f; fl_json := j; fl_ref := fl_ref f; fl_cref := fl_cref f; fl_default := fl_default f; fl_types := fl_types f |}.
Definition rf_title : field := renamed "theTitle" (mkf "the_title" "t_id" [tstr; MRequired]).
Definition rf_size : field := mkf "size" "size_id" [tint; MDefault (PVal (VInt 5))].
Definition rf_days : field := mkf "days" "days_id" [MListOf [tdate]; MRequired].
Definition rf_mood : field := mkf "mood" "mood_id" [MEnum "Color"; MOutputName].
Definition rf_grid : field := mkf "grid" "grid_id" [MDictOf [MListOf [tint]]].
Definition rf_memo : field := mkf "memo" "memo_id" [tstr; MWriteonce].
Definition c_log : cdef := mkc "Log" [ f_id; rf_title; rf_size; rf_days; rf_mood; rf_grid; rf_memo ].
Definition log_prog : program := mkprog (fun c => if String.eqb c "Log" then Some c_log else None) no_guards no_hooks.
Definition log_heap : heap :=
  {| h_obj := fun o => out_obj "Log" 1 [("the_title", VStr "a"); ("size", VInt 7); ("days", VList [VDate (may 1); VDate (may 2)]);
       ("mood", VEnum "Color" "RED"); ("grid", VDict [("a", VList [VInt 1; VInt 2]); ("b", VList [])]); ("memo", VNone)];
     h_next := 1%nat; h_graph := {| graphs := []; graph_of := fun o => o |} |}.
Definition log_out := tojson log_prog 9 0%nat false false None (mkw log_heap).
Definition log_json : list (string * value) :=
  [("id", VInt 1); ("theTitle", VStr "a"); ("size", VInt 7); ("days", VList [VStr "2021-05-01T00:00:00.000Z"; VStr "2021-05-02T00:00:00.000Z"]);
   ("mood", VStr "RED"); ("grid", VDict [("a", VList [VInt 1; VInt 2]); ("b", VList [])])].
Definition log_made := construct log_prog 9 "Log" log_json make_world.
Definition log_fields : list field := [rf_title; rf_size; rf_days; rf_mood; rf_grid; rf_memo].
Definition log_value (f : field) : value := value_at log_prog log_heap 0%nat (fl_name f).

Ltac in_log Hc Hf := cbn in Hc; match type of Hc with (if ?b then _ else _) = _ => destruct b; [| discriminate Hc] end;
  injection Hc as <-; cbn in Hf; repeat (destruct Hf as [<- | Hf]; [| try contradiction]); try contradiction.
Lemma log_tame : tame_classes 3 log_prog.
Proof. intros cls c f m Hc Hf Hm. apply tame_b. in_log Hc Hf; in_chain Hm; reflexivity. Qed.
Lemma log_late : late_classes 3 log_prog.
Proof. intros cls c f Hc Hf. in_log Hc Hf; (split; [apply no_eager; reflexivity | intros m Hm; apply late_b; in_chain Hm; reflexivity]). Qed.
Lemma log_own f : In f log_fields -> own_name log_prog (fl_name f).
Proof.
  intros Hk. apply WriteFrame.own_data.
  - intros cls d g Hc Hf E. in_log Hc Hf; try reflexivity; exfalso; cbn in Hk; repeat (destruct Hk as [<- | Hk]; [discriminate E |]); contradiction.
  - intros cls d g Hc Hf E. in_log Hc Hf; exfalso; cbn in Hk; repeat (destruct Hk as [<- | Hk]; [discriminate E |]); contradiction.
Qed.
Lemma log_names : proper_names c_log.
Proof.
  split.
  - cbn. repeat (constructor; [cbn; intuition discriminate |]). constructor.
  - intros f g Hf Hg L. cbn in Hf. repeat (destruct Hf as [<- | Hf]; [discriminate L |]). contradiction.
Qed.
Lemma log_keys f : In f log_fields -> own_key c_log f.
Proof.
  intros Hf g Hg. split.
  - intros N. cbn in Hf, Hg. repeat (destruct Hf as [<- | Hf]; [repeat (destruct Hg as [<- | Hg]; [try (contradiction N; reflexivity); split; discriminate |]); contradiction |]). contradiction.
  - intros L. cbn in Hg. repeat (destruct Hg as [<- | Hg]; [discriminate L |]). contradiction.
Qed.
Lemma log_kept f : In f log_fields -> kept log_prog (fl_types f) (log_value f).
Proof.
  assert (Mark : forall v m, silent m = true -> leaves_alone v m) by (intros; left; assumption).
  assert (Ints : forall v, In v [VList [VInt 1; VInt 2]; VList []] -> kept log_prog [MListOf [tint]; MRequired] v).
  { intros v Hv. apply (kept_at log_prog [] (MListOf [tint]) [MRequired]); [constructor | repeat constructor |].
    destruct Hv as [<- | [<- | []]]; (eapply k_list; [reflexivity | reflexivity |]); intros u Hu; cbn in Hu;
      repeat (destruct Hu as [<- | Hu]; [apply (kept_at log_prog [] tint [MRequired]); repeat constructor |]); contradiction. }
  intros Hf. cbn in Hf. repeat (destruct Hf as [<- | Hf]); try contradiction; vm_compute log_value; cbn [fl_types renamed rf_title rf_size rf_days rf_mood rf_grid rf_memo mkf].
  - apply (kept_at log_prog [] tstr [MRequired]); repeat constructor.
  - apply (kept_at log_prog [] tint [MDefault (PVal (VInt 5))]); [constructor | | constructor]. constructor; [| constructor]. right. split; [discriminate | eauto].
  - apply (kept_at log_prog [] (MListOf [tdate]) [MRequired]); [constructor | repeat constructor |]. eapply k_list; [reflexivity | reflexivity |].
    intros v Hv. cbn in Hv. repeat (destruct Hv as [<- | Hv]; [apply (kept_at log_prog [] tdate [MRequired]); repeat constructor |]). contradiction.
  - apply (kept_at log_prog [] (MEnum "Color") [MOutputName]); [constructor | repeat constructor |].
    eapply (k_enum log_prog _ "Color" _ "RED" (VStr "r")); try reflexivity.
    + split; [cbn; repeat (constructor; [cbn; intuition discriminate |]); constructor |]. exists []. eexists. split; [reflexivity |]. split; [reflexivity | intros m []].
    + discriminate.
    + split; reflexivity.
  - apply (kept_at log_prog [] (MDictOf [MListOf [tint]]) []); [constructor | constructor |].
    eapply k_dict; [reflexivity | cbn; repeat (constructor; [cbn; intuition discriminate |]); constructor |].
    intros k v Hv. apply Ints. cbn in Hv |- *. destruct Hv as [E | [E | []]]; inversion E; auto.
  - apply (kept_at log_prog [] tstr [MWriteonce]); repeat constructor.
Qed.
(** Text under another JSON name, a number with a default, dates in a list, an enum member, a
    dict of lists, and None *)
Example C85_example :
  (calm log_prog /\ tame_classes 3 log_prog /\ late_classes 3 log_prog /\ flat_guards 3 log_prog ARead) /\
  (forall f, In f log_fields ->
     own_name log_prog (fl_name f) /\ own_key c_log f /\ In f (cd_fields c_log) /\ plain_field f = true /\ visible false ext0 f = true /\
     f_write_rule (fl_fdef f) <> NoWrite /\ reads log_prog log_heap 0%nat (fl_name f) (log_value f) /\ kept log_prog (fl_types f) (log_value f) /\
     fl_default f = VNone) /\
  (forall k, considerate log_prog 0%nat k) /\ newborn log_prog 0%nat /\ proper_names c_log /\ (2 <= p_lim log_prog)%nat /\
  (key_given c_log log_json /\ nowhere_held "Log" 3 log_prog) /\ Forall (fun kv => plain (fst kv)) log_json /\
  fst log_out = Ok (VDict log_json) /\ fst log_made = Ok 0%nat /\
  map (fun f => attr (w_heap (snd log_made)) 0%nat (fl_name f)) log_fields = map (fun f => Some (log_value f)) log_fields.
Proof.
  repeat apply conj; try (match goal with |- _ = _ => vm_compute; reflexivity end).
  - apply mkprog_calm.
  - apply log_tame.
  - apply log_late.
  - intros cls ts y [].
  - intros f Hf. repeat apply conj.
    + apply log_own, Hf.
    + apply log_keys, Hf.
    + right. exact Hf.
    + cbn in Hf. repeat (destruct Hf as [<- | Hf]; [reflexivity |]). contradiction.
    + cbn in Hf. repeat (destruct Hf as [<- | Hf]; [reflexivity |]). contradiction.
    + cbn in Hf. repeat (destruct Hf as [<- | Hf]; [discriminate |]). contradiction.
    + cbn in Hf. repeat (destruct Hf as [<- | Hf]; [vm_compute; reflexivity |]). contradiction.
    + apply log_kept, Hf.
    + cbn in Hf. repeat (destruct Hf as [<- | Hf]; [reflexivity |]). contradiction.
  - intros k. apply (calls_nothing log_prog 0%nat k); reflexivity.
  - apply (calls_nothing log_prog 0%nat ""); reflexivity.
  - apply log_names.
  - cbn. lia.
  - exists f_id, (VInt 1). split; [reflexivity | split; [reflexivity | discriminate]].
  - intros cls c f m Hc Hf Hm. in_log Hc Hf; in_chain Hm; cbn; try exact Logic.I; try discriminate; intros y Hy; in_chain Hy; cbn; try exact Logic.I; try discriminate.
    intros y Hy; in_chain Hy; exact Logic.I.
  - repeat (constructor; [cbn; unfold plain; cbn; intuition discriminate |]). constructor.
Qed.

(** The same output set on another log *)
Definition log_world2 : world := mkw
  {| h_obj := fun o => {| o_class := "Log";
       o_attr := fun n => sget n [("id", VInt 2); ("the_title", VStr "z"); ("size", VInt 0); ("days", VNone); ("mood", VNone); ("grid", VNone); ("memo", VNone)];
       o_new := false; o_modified := false; o_mfields := []; o_prev := []; o_lkeys := [];
       o_raw := []; o_unlinked := []; o_operator := VNone |};
     h_next := 1%nat; h_graph := {| graphs := repeat [] 1; graph_of := fun o => 0%nat |} |}.
Definition log_copy := jset log_prog 9 0%nat log_json log_world2.
Example C85_copied_example :
  (forall f, In f [rf_title; rf_size; rf_days; rf_mood; rf_grid] ->
     holds_data log_prog (w_heap log_world2) 0%nat f /\ f_write_rule (fl_fdef f) <> WriteOnce /\ log_value f <> VNone /\
     exists cur, attr (w_heap log_world2) 0%nat (fl_name f) = Some cur) /\
  fst log_copy = Ok tt /\
  map (fun f => attr (w_heap (snd log_copy)) 0%nat (fl_name f)) log_fields = map (fun f => Some (log_value f)) log_fields.
Proof.
  repeat apply conj; try (match goal with |- _ = _ => vm_compute; reflexivity end).
  intros f Hf. repeat apply conj.
  - constructor.
    + cbn. lia.
    + exists c_log. split; [reflexivity |]. split; [cbn in Hf |- *; intuition |].
      intros g Hg E. cbn in Hf, Hg. repeat (destruct Hf as [<- | Hf];
        [repeat (destruct Hg as [<- | Hg]; [try reflexivity; discriminate E |]); contradiction |]). contradiction.
    + cbn in Hf. repeat (destruct Hf as [<- | Hf]; [reflexivity |]). contradiction.
    + intros lab. cbn. discriminate.
    + cbn in Hf. repeat (destruct Hf as [<- | Hf]; [reflexivity |]). contradiction.
  - cbn in Hf. repeat (destruct Hf as [<- | Hf]; [discriminate |]). contradiction.
  - cbn in Hf. repeat (destruct Hf as [<- | Hf]; [vm_compute; discriminate |]). contradiction.
  - cbn in Hf. repeat (destruct Hf as [<- | Hf]; [eexists; reflexivity |]). contradiction.
Qed.

(** ** Where more might be expected *)
Definition trip (P : program) (cls : string) (attrs : list (string * value)) : res value :=
  let w := mkw {| h_obj := fun o => out_obj cls 1 attrs; h_next := 1%nat; h_graph := {| graphs := []; graph_of := fun o => o |} |} in
  match tojson P 9 0%nat false false None w with
  | (Ok (VDict m), _) => match construct P 9 cls m make_world with
                         | (Ok x, w') => Ok (match attr (w_heap w') x "it" with Some v => v | None => VNone end)
                         | (Err e, _) => Err e
                         end
  | (Ok v, _) => Ok v
  | (Err e, _) => Err e
  end.
Definition one_prog (ts : types) : program := mkprog (fun c => if String.eqb c "One" then Some (mkc "One" [f_id; mkf "it" "it_id" ts]) else None) no_guards no_hooks.

(** None in a field with a default is not written, and the default takes its place; a date in
    a union of text and date comes back as text; a read-only field comes back as None. *)
Theorem C85_default_refuted : trip (one_prog [tint; MDefault (PVal (VInt 5))]) "One" [("it", VNone)] = Ok (VInt 5).
Proof. vm_compute. reflexivity. Qed.
Theorem C85_union_refuted :
  trip (one_prog [MUnion [[tstr]; [tdate]]]) "One" [("it", VDate (may 1))] = Ok (VStr "2021-05-01T00:00:00.000Z").
Proof. vm_compute. reflexivity. Qed.
Theorem C85_readonly_refuted : trip (one_prog [tint; MReadonly]) "One" [("it", VInt 5)] = Ok VNone.
Proof. vm_compute. reflexivity. Qed.
Print Assumptions C85_default_refuted.
Print Assumptions C85_union_refuted.
Print Assumptions C85_readonly_refuted.

(** Two fields whose names are written alike: the output has one entry for both, the later
    one's, and both read it back. *)
Definition f_named (name json : string) (ts : types) : field :=
  {| fl_name := name; fl_json := json; fl_ref := name ++ "_id"; fl_cref := json ++ "Id"; fl_default := VNone; fl_types := ts |}.
Definition c_alike : cdef := mkc "Alike" [f_id; f_named "zip_code" "zipCode" [tstr]; f_named "zipCode" "zipCode" [tstr]].
Definition alike_prog : program := mkprog (fun c => if String.eqb c "Alike" then Some c_alike else None) no_guards no_hooks.
Theorem C85_alike_names_refuted :
  exists P cls d a b n o w m w1 n' w2 x w3,
    calm P /\ p_ct P cls = Some d /\ In a (map fl_name (cd_fields d)) /\ In b (map fl_name (cd_fields d)) /\ NoDup (map fl_name (cd_fields d)) /\
    attr (w_heap w) o a = Some (VStr "1") /\ attr (w_heap w) o b = Some (VStr "2") /\
    tojson P n o false false None w = (Ok (VDict m), w1) /\ construct P n' cls m w2 = (Ok x, w3) /\
    attr (w_heap w3) x a = Some (VStr "2") /\ attr (w_heap w3) x b = Some (VStr "2").
Proof.
  set (w := mkw {| h_obj := fun o => out_obj "Alike" 1 [("zip_code", VStr "1"); ("zipCode", VStr "2")]; h_next := 1%nat; h_graph := {| graphs := []; graph_of := fun o => o |} |}).
  set (m := [("id", VInt 1); ("zipCode", VStr "2")]).
  exists alike_prog, "Alike", c_alike, "zip_code", "zipCode", 9%nat, 0%nat, w, m, (snd (tojson alike_prog 9 0%nat false false None w)), 9%nat, make_world,
    0%nat, (snd (construct alike_prog 9 "Alike" m make_world)).
  split; [apply mkprog_calm |]. split; [reflexivity |]. split; [cbn; tauto |]. split; [cbn; tauto |].
  split; [repeat constructor; cbn; intuition discriminate |]. split; [reflexivity |]. split; [reflexivity |].
  split; [rewrite (surjective_pairing (tojson alike_prog 9 0%nat false false None w)) at 1; f_equal; vm_compute; reflexivity |].
  split; [rewrite (surjective_pairing (construct alike_prog 9 "Alike" m make_world)) at 1; f_equal; vm_compute; reflexivity |].
  split; vm_compute; reflexivity.
Qed.
Print Assumptions C85_alike_names_refuted.
