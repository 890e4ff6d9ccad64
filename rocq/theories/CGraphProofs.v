(** CGraphProofs.v -- lemmas for C09. *)
From Verif Require Import Base StrDict CGraphModel CGraphSpec.

(* what a store of graphs holds under a graph name and a class name *)
Definition held_class (m : gmap) (g n : string) : option cdefn :=
  match sget g m with Some x => sget n (g_map x) | None => None end.
Definition held_enum (m : gmap) (g n : string) : option enumc :=
  match sget g m with Some x => sget n (g_enums x) | None => None end.

Lemma named_class n m g x : held_class (snd (graph_named n m)) g x = held_class m g x.
Proof.
  unfold graph_named, held_class. destruct (sget n m) eqn:E; simpl; [reflexivity|].
  rewrite sget_sset. destruct (String.eqb_spec g n) as [->|]; [rewrite E|]; reflexivity.
Qed.
Lemma named_enum n m g x : held_enum (snd (graph_named n m)) g x = held_enum m g x.
Proof.
  unfold graph_named, held_enum. destruct (sget n m) eqn:E; simpl; [reflexivity|].
  rewrite sget_sset. destruct (String.eqb_spec g n) as [->|]; [rewrite E|]; reflexivity.
Qed.
Lemma named_get n m : sget n (snd (graph_named n m)) = Some (fst (graph_named n m)).
Proof.
  unfold graph_named. destruct (sget n m) eqn:E; simpl; [exact E|]. apply sget_sset_same.
Qed.
Lemma named_map n m x : sget x (g_map (fst (graph_named n m))) = held_class m n x.
Proof. rewrite <- (named_class n m n x). unfold held_class. rewrite named_get. reflexivity. Qed.
Lemma named_enums n m x : sget x (g_enums (fst (graph_named n m))) = held_enum m n x.
Proof. rewrite <- (named_enum n m n x). unfold held_enum. rewrite named_get. reflexivity. Qed.

Lemma step_class o m g x :
  held_class (snd (cg_step o m)) g x =
  match o with
  | PutClass g' c => match held_class m g x with
                     | Some c0 => Some c0
                     | None => if String.eqb g g' && String.eqb x (cd_name c) then Some c else None
                     end
  | _ => held_class m g x
  end.
Proof.
  destruct o as [g' c|g' n|g' n|g' c|g' n|g' n]; simpl;
    pose proof (named_class g' m g x) as Hc; pose proof (named_get g' m) as Hg;
    pose proof (fun x => named_map g' m x) as Hm; pose proof (fun x => named_enums g' m x) as He;
    destruct (graph_named g' m) as [gr m1]; simpl in *; try exact Hc.
  - unfold cg_put. rewrite Hm. destruct (held_class m g' (cd_name c)) as [c0|] eqn:E0; simpl.
    + rewrite Hc. destruct (held_class m g x) eqn:E1; [reflexivity|].
      destruct (String.eqb_spec g g') as [->|]; [|reflexivity].
      destruct (String.eqb_spec x (cd_name c)) as [->|]; [congruence|reflexivity].
    + unfold held_class at 1. rewrite sget_sset.
      destruct (String.eqb_spec g g') as [->|]; simpl.
      * rewrite sget_sset, Hm. destruct (String.eqb_spec x (cd_name c)) as [->|].
        { rewrite E0. reflexivity. }
        destruct (held_class m g' x); reflexivity.
      * fold (held_class m1 g x). rewrite Hc. destruct (held_class m g x); reflexivity.
  - unfold cg_put_enum. rewrite He. destruct (held_enum m g' (en_name c)) as [e0|] eqn:E0; simpl.
    { destruct (en_has_cls e0); exact Hc. }
    unfold held_class at 1. rewrite sget_sset.
    destruct (String.eqb_spec g g') as [->|]; simpl; [apply Hm|]. exact Hc.
Qed.

Lemma step_enum o m g x :
  held_enum (snd (cg_step o m)) g x =
  match o with
  | PutEnum g' c => match held_enum m g x with
                     | Some c0 => Some c0
                     | None => if String.eqb g g' && String.eqb x (en_name c) then Some c else None
                     end
  | _ => held_enum m g x
  end.
Proof.
  destruct o as [g' c|g' n|g' n|g' c|g' n|g' n]; simpl;
    pose proof (named_enum g' m g x) as Hc; pose proof (named_get g' m) as Hg;
    pose proof (fun x => named_map g' m x) as Hm; pose proof (fun x => named_enums g' m x) as He;
    destruct (graph_named g' m) as [gr m1]; simpl in *; try exact Hc.
  - unfold cg_put. rewrite Hm. destruct (held_class m g' (cd_name c)) as [e0|] eqn:E0; simpl; [exact Hc|].
    unfold held_enum at 1. rewrite sget_sset.
    destruct (String.eqb_spec g g') as [->|]; simpl; [apply He|]. exact Hc.
  - unfold cg_put_enum. rewrite He. destruct (held_enum m g' (en_name c)) as [c0|] eqn:E0; simpl.
    + assert (H : snd (if en_has_cls c0 then (@Err cout ERedefinition, m1) else (Err EAttributeError, m1)) = m1)
        by (destruct (en_has_cls c0); reflexivity).
      destruct (en_has_cls c0); simpl; rewrite Hc; (destruct (held_enum m g x) eqn:E1; [reflexivity|];
      destruct (String.eqb_spec g g') as [->|]; [|reflexivity];
      destruct (String.eqb_spec x (en_name c)) as [->|]; [congruence|reflexivity]).
    + unfold held_enum at 1. rewrite sget_sset.
      destruct (String.eqb_spec g g') as [->|]; simpl.
      * rewrite sget_sset, He. destruct (String.eqb_spec x (en_name c)) as [->|].
        { rewrite E0. reflexivity. }
        destruct (held_enum m g' x); reflexivity.
      * fold (held_enum m1 g x). rewrite Hc. destruct (held_enum m g x); reflexivity.
Qed.

Lemma run_snoc h o m : cg_run (h ++ [o]) m = snd (cg_step o (cg_run h m)).
Proof. unfold cg_run. rewrite fold_left_app. reflexivity. Qed.

Lemma first_class_snoc h o g n c :
  first_class h g n c -> first_class (h ++ [o]) g n c.
Proof.
  intros (b & a & -> & Hn & Hb). exists b, (a ++ [o]). rewrite <- app_assoc. auto.
Qed.
Lemma first_enum_snoc h o g n c :
  first_enum h g n c -> first_enum (h ++ [o]) g n c.
Proof.
  intros (b & a & -> & Hn & Hb). exists b, (a ++ [o]). rewrite <- app_assoc. auto.
Qed.

Lemma held_first_class h : forall g n,
  match held_class (cg_run h []) g n with
  | Some c => first_class h g n c
  | None => forall c, In (PutClass g c) h -> cd_name c <> n
  end.
Proof.
  induction h as [|o h IH] using rev_ind; intros g n.
  - simpl. intros c [].
  - rewrite run_snoc, step_class. specialize (IH g n).
    assert (Hkeep : match o with PutClass g' c => g <> g' \/ n <> cd_name c | _ => True end ->
      match held_class (cg_run h []) g n with
      | Some c => first_class (h ++ [o]) g n c
      | None => forall c, In (PutClass g c) (h ++ [o]) -> cd_name c <> n
      end).
    { intros Ho. destruct (held_class _ _ _) as [c|]; [apply first_class_snoc; exact IH|].
      intros c Hin. apply in_app_iff in Hin. destruct Hin as [Hin|[->|[]]]; [apply IH; exact Hin|].
      destruct Ho; congruence. }
    destruct o as [g' c|g' x|g' x|g' c|g' x|g' x]; try (apply Hkeep; exact I).
    destruct (held_class (cg_run h []) g n) as [c0|] eqn:E; [apply first_class_snoc; exact IH|].
    destruct (String.eqb_spec g g') as [->|Hg]; simpl.
    + destruct (String.eqb_spec n (cd_name c)) as [->|Hn].
      * exists h, []. auto.
      * apply Hkeep. auto.
    + apply Hkeep. auto.
Qed.

Lemma held_first_enum h : forall g n,
  match held_enum (cg_run h []) g n with
  | Some c => first_enum h g n c
  | None => forall c, In (PutEnum g c) h -> en_name c <> n
  end.
Proof.
  induction h as [|o h IH] using rev_ind; intros g n.
  - simpl. intros c [].
  - rewrite run_snoc, step_enum. specialize (IH g n).
    assert (Hkeep : match o with PutEnum g' c => g <> g' \/ n <> en_name c | _ => True end ->
      match held_enum (cg_run h []) g n with
      | Some c => first_enum (h ++ [o]) g n c
      | None => forall c, In (PutEnum g c) (h ++ [o]) -> en_name c <> n
      end).
    { intros Ho. destruct (held_enum _ _ _) as [c|]; [apply first_enum_snoc; exact IH|].
      intros c Hin. apply in_app_iff in Hin. destruct Hin as [Hin|[->|[]]]; [apply IH; exact Hin|].
      destruct Ho; congruence. }
    destruct o as [g' c|g' x|g' x|g' c|g' x|g' x]; try (apply Hkeep; exact I).
    destruct (held_enum (cg_run h []) g n) as [c0|] eqn:E; [apply first_enum_snoc; exact IH|].
    destruct (String.eqb_spec g g') as [->|Hg]; simpl.
    + destruct (String.eqb_spec n (en_name c)) as [->|Hn].
      * exists h, []. auto.
      * apply Hkeep. auto.
    + apply Hkeep. auto.
Qed.

Lemma no_first_class h g n :
  (forall c, In (PutClass g c) h -> cd_name c <> n) -> forall c, ~ first_class h g n c.
Proof. intros H c (b & a & -> & Hn & _). apply (H c); [apply in_elt|exact Hn]. Qed.
Lemma no_first_enum h g n :
  (forall c, In (PutEnum g c) h -> en_name c <> n) -> forall c, ~ first_enum h g n c.
Proof. intros H c (b & a & -> & Hn & _). apply (H c); [apply in_elt|exact Hn]. Qed.

Lemma answers_all h o : answers h o (fst (cg_step o (cg_run h []))).
Proof.
  destruct o as [g c|g n|g n|g c|g n|g n]; simpl;
    pose proof (fun x => named_map g (cg_run h []) x) as Hm;
    pose proof (fun x => named_enums g (cg_run h []) x) as He;
    destruct (graph_named g (cg_run h [])) as [gr m1]; simpl in *.
  - unfold cg_put. rewrite Hm. pose proof (held_first_class h g (cd_name c)) as H.
    destruct (held_class _ _ _); simpl; econstructor; [exact H|]. apply no_first_class. exact H.
  - unfold cg_fetch. rewrite Hm. pose proof (held_first_class h g n) as H.
    destruct (held_class _ _ _); simpl; constructor; [exact H|]. apply no_first_class. exact H.
  - unfold cg_has. rewrite Hm. pose proof (held_first_class h g n) as H.
    destruct (held_class _ _ _) as [c|]; simpl; [exact (a_has h g n c H)|].
    apply a_has_none. apply no_first_class. exact H.
  - unfold cg_put_enum. rewrite He. pose proof (held_first_enum h g (en_name c)) as H.
    destruct (held_enum _ _ _) as [e'|]; simpl.
    + destruct (en_has_cls e'); simpl; eapply a_pute_again; eauto.
    + apply a_pute. apply no_first_enum. exact H.
  - unfold cg_fetch_enum. rewrite He. pose proof (held_first_enum h g n) as H.
    destruct (held_enum _ _ _); simpl; constructor; [exact H|]. apply no_first_enum. exact H.
  - unfold cg_has_enum. rewrite He. pose proof (held_first_enum h g n) as H.
    destruct (held_enum _ _ _) as [c|]; simpl; [exact (a_hase h g n c H)|].
    apply a_hase_none. apply no_first_enum. exact H.
Qed.

Lemma first_class_unique h g n c c' : first_class h g n c -> first_class h g n c' -> c = c'.
Proof.
  intros (b & a & E & Hn & Hb) (b' & a' & E' & Hn' & Hb'). rewrite E in E'. clear E.
  revert b' E' Hb'. induction b as [|x b IH]; intros [|x' b'] E' Hb'; simpl in E'.
  - injection E' as -> _. reflexivity.
  - injection E' as <- _. exfalso. apply (Hb' c); [left; reflexivity|exact Hn].
  - injection E' as -> _. exfalso. apply (Hb c'); [left; reflexivity|exact Hn'].
  - injection E' as -> E'. apply (IH (fun y Hy => Hb y (or_intror Hy)) b' E').
    intros y Hy. apply Hb'. right. exact Hy.
Qed.

Lemma enum_again_attribute_error :
  exists (h : list cop) (e : enumc), In (PutEnum "default" e) h /\
    fst (cg_step (PutEnum "default" e) (cg_run h [])) = Err EAttributeError.
Proof.
  exists [PutEnum "default" {| en_name := "Color"; en_id := 0; en_has_cls := false |}],
    {| en_name := "Color"; en_id := 0; en_has_cls := false |}.
  split; [left; reflexivity|reflexivity].
Qed.
