(** TypesSpec.v -- the kinds of marks, written without the model's [define]. *)
From Verif Require Import Base TypesModel.

(** [k m = Some x]: the mark [m] is of the kind and sets it to [x]. *)

(** readonly, readwrite, writeonce, writenonnull *)
Definition write_mark (m : mdf) : option writerule :=
  match m with
  | MReadonly => Some NoWrite
  | MReadwrite => Some WriteUnlimited
  | MWriteonce => Some WriteOnce
  | MWritenonnull => Some WriteNonnull
  | _ => None
  end.

(** writeonly, readwrite *)
Definition read_mark (m : mdf) : option readrule :=
  match m with
  | MWriteonly => Some NoRead
  | MReadwrite => Some ReadUnlimited
  | _ => None
  end.

(** embedded, temp, linkto, linkedby, linkedthru, linkedin, getter, setter *)
Definition store_mark (m : mdf) : option fstore :=
  match m with
  | MEmbedded => Some Embedded
  | MTemp => Some Temp
  | MLinkto => Some LocalKey
  | MLinkedby _ | MLinkedthru _ | MLinkedin _ => Some ForeignKey
  | MGetter _ | MSetter _ => Some Calculated
  | _ => None
  end.

(** nullable, for the items of a collection *)
Definition item_null_mark (m : mdf) : option nullability :=
  match m with MNullable => Some NNullable | _ => None end.

(** nonnull, for a collection *)
Definition collection_null_mark (m : mdf) : option nullability :=
  match m with MNonnull => Some NNonnull | _ => None end.

Definition strict_mark (m : mdf) : option strictness :=
  match m with MStrict => Some SStrict | _ => None end.

(** outputname, outputvalue, outputlname; an enum mark sets the output only when no
    other mark has *)
Definition output_mark (m : mdf) : option enumoutput :=
  match m with
  | MOutputName => Some OutName
  | MOutputValue => Some OutValue
  | MOutputLname => Some OutLname
  | _ => None
  end.

(** nullify, cascade, deny *)
Definition delete_mark (m : mdf) : option deleterule :=
  match m with
  | MNullify => Some DNullify
  | MCascade => Some DCascade
  | MDeny => Some DDeny
  | _ => None
  end.

Definition query_mark (m : mdf) : option queryability :=
  match m with
  | MQueryable => Some QQueryable
  | MUnqueryable => Some QUnqueryable
  | _ => None
  end.

(** The setting [get] of a definition is decided by the last mark of kind [k], and is
    [dflt] when there is none. *)
Definition decided_by {A} (get : fdef -> A) (k : mdf -> option A) (dflt : A) : Prop :=
  (forall before m after x,
      k m = Some x -> (forall m', In m' after -> k m' = None) ->
      get (fdef_of (before ++ m :: after)) = x) /\
  (forall ts, (forall m, In m ts -> k m = None) -> get (fdef_of ts) = dflt).
