(** BackSpec.v -- what uploader and mongoid do over a history of calls. *)
From Verif Require Import Base Mon Values PyStr KeypathModel PyInt RegexModel RegexSpec UconfModel
  UconfSpec BackModel.
Open Scope list_scope.

(** Calls one after another, each with its result; a call that raises does not stop the next. *)
Fixpoint history {A} (f : A -> st back value) (calls : list A) (s : back)
  : list (res value) * back :=
  match calls with
  | [] => ([], s)
  | a :: l => let '(r, s1) := f a s in
              let '(rs, s2) := history f l s1 in (r :: rs, s2)
  end.

(** What calls of uploader (a name and a value each) with these results have stored:
    - a file is stored once, with its content, and the result is its address;
    - None is left alone; an uploader of the engine alioss gives None; an exception is raised:
      in these cases nothing is stored. *)
Inductive accounts (c : conf) (file_of : value -> option upfile)
  : list (string * value) -> list (res value) -> store -> Prop :=
| ac_nil : accounts c file_of [] [] []
| ac_file : forall n v f front place name calls rs new, v <> VNone -> file_of v = Some f ->
    accounts c file_of calls rs new ->
    accounts c file_of ((n, v) :: calls)
      (Ok (VStr (front ++ place ++ "/" ++ name)%string) :: rs)
      ((place, name, uf_content f) :: new)
| ac_none : forall n calls rs new, accounts c file_of calls rs new ->
    accounts c file_of ((n, VNone) :: calls) (Ok VNone :: rs) new
| ac_alioss : forall n v settings calls rs new, v <> VNone ->
    has_uploader c n EAliOSS settings -> accounts c file_of calls rs new ->
    accounts c file_of ((n, v) :: calls) (Ok VNone :: rs) new
| ac_raised : forall n v e calls rs new, v <> VNone -> accounts c file_of calls rs new ->
    accounts c file_of ((n, v) :: calls) (Err e :: rs) new.

(** The names under which files are stored, and the addresses given *)
Definition stored_names (new : store) : list string := map (fun e => snd (fst e)) new.
Definition addresses (rs : list (res value)) : list string :=
  flat_map (fun r => match r with Ok (VStr s) => [s] | _ => [] end) rs.

(** Of the [n] texts from the [k]th on, none is drawn twice. *)
Definition distinct_texts (source : nat -> string) (k n : nat) : Prop :=
  forall i j, (k <= i < k + n)%nat -> (k <= j < k + n)%nat -> source i = source j -> i = j.

(** The ids that mongoid made in these calls: the results where None was given *)
Fixpoint made_ids (vs : list value) (rs : list (res value)) : list (res value) :=
  match vs, rs with
  | VNone :: vs, r :: rs => r :: made_ids vs rs
  | _ :: vs, _ :: rs => made_ids vs rs
  | _, _ => []
  end.
