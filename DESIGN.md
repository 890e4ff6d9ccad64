# A machine-checked model of jsonclasses

The code under study is `/repo/jsonclasses` (Python).  The model is written in
Coq 8.16.1 under `rocq/theories`, logical name `Verif`.

## 1. How the model is organised

| File group | Content |
|---|---|
| `Base.v`, `Mon.v`, `PyList.v`, `PyDict.v`, `PyStr.v`, `Values.v` | exceptions and results, the state-and-exception monad, Python values, list indexing and slicing, insertion-ordered dicts, strings, equality |
| `*Model.v` | one model file per part of the code, each definition citing the lines it models; no proofs |
| `*Spec.v` | small specifications: the words the theorems are stated in |
| `*Proofs.v`, `*Base.v`, `*Run.v`, `*Track.v`, `*Sound.v`, `*Frame.v`, `Keep.v` ... | lemmas |
| `*Example.v` | concrete programs and heaps used in the examples |
| `Prop*.v` | the property theorems, each followed by `Print Assumptions` and by an `Example` (or a lemma) that shows a concrete case meeting its hypotheses; refutations |

Conventions:

* Functions that may raise return a result value: `Ok v` or `Err e`.  Functions
  that also change objects are in a state-and-exception monad in which the state
  at the time of the exception survives, as it does in Python.
* User code (callbacks, transformers, validators, guards, getters, setters,
  object equality, `str`, non-int arithmetic, the write of the data base) is a
  parameter, universally quantified in every theorem (`program` in `IoModel.v`).
* Python recursion that is not structural takes fuel.  Running out of fuel is a
  distinguished error (`ERecursion`, Python's `RecursionError`), never a normal
  value; termination claims say that it does not occur, and every other theorem
  holds for every amount of fuel.
* Where the code does not have a property that its user would expect, the
  exception is a theorem whose name ends in `_refuted`: a computed run of the
  model.  The English statement in `properties.jsonl` names the exception, and
  the main theorem has the absence of the exception as a hypothesis.

## 2. Plan per property

| Property | What is modelled | How it is proved | Where |
|---|---|---|---|
| C01, C02 | `keypath.py` as string functions | induction on strings / lists | `PropKeypath.v` |
| C03, C04 | `olist.py`, every mutator, emitting a trace of owner calls; Python list semantics separately | refinement against plain list, ledger invariant by induction over operation lists | `PropOList.v` |
| C05 | `odict.py` likewise over insertion-ordered dicts | same | `PropODict.v` |
| C06 | `outils.py` over nested trees | structural induction on nested trees | `PropOUtils.v` |
| C07 | `ograph.py`, and the sharing of graphs among objects | induction over put/merge histories | `PropOGraph.v` |
| C08 | `mgraph.py` | induction over mark histories | `PropMGraph.v` |
| C09 | `cgraph.py`, named graphs; the decorator `jsonenum` | induction over registration histories and over programs of decorations | `PropCGraph.v`, `PropJEnum.v` |
| C10-C12 | `chained_modifier.py` over arbitrary modifiers; C12 also on whole objects | list induction | `PropChain.v`, `PropValidate.v` |
| C13-C17, C22, C51, C52 | leaf modifiers over Python values with exact rationals, infinities and NaN for floats | case analysis and arithmetic | `PropNum.v`, `PropStr.v` |
| C18-C20, C53 | civil calendar; the `tobo*`, `tonext*`, `before`, `after`, `date`, `datetime` modifiers | arithmetic over the calendar, for every valid date | `PropCal.v` |
| C21, C23 | `enum_modifier.py`, `union_modifier.py` | case analysis, induction on the member types | `PropEnum.v`, `PropUnion.v` |
| C24, C25 | `required_modifier.py`, `present*_modifier.py`, collection modifiers, `fdef.item_types` | induction on nested types and values | `PropPresence.v`, `PropCollection.v` |
| C26, C27 | `set` with `instanceof_modifier.transform` over an object heap | frame invariant by induction on fuel | `PropWrite.v` |
| C28 | strictness check of `instanceof_modifier.transform` | case analysis | `PropStrict.v` |
| C29 | `update` | induction on the arguments | `PropUpdate.v` |
| C30 | `__init__` | induction on the fields, with the frame of C26 | `PropMake.v` |
| C31-C33 | `__setattr__`, owned collection callbacks, `reset` | invariants over operation histories | `PropTrack.v`, `PropReset.v` |
| C34-C38 | `__link_field__`, `__unlink_field__`, reference lists and stored keys over a heap of objects | invariants over operation histories | `PropLink.v` |
| C39, C40 | `instanceof_modifier.validate` with visited marks over a heap | induction on fuel; measure = unmarked objects | `PropValidate.v`, `PropGraph.v` |
| C41-C43 | `instanceof_modifier.tojson` | induction on fuel; measure = classes not yet on the path and levels of embedding | `PropOut.v` |
| C44, C45, C54 | `save`, `delete`, `tojson` guards with an effect trace | case analysis over arbitrary callbacks | `PropGuard.v`, `PropSave.v` |
| C46, C56 | `_set_on_save`, `instanceof_modifier.serialize` | induction on fuel; measure = unmarked objects | `PropOnsave.v`, `PropSaveGraph.v` |
| C47 | `rtypes.py` string functions | induction on strings and type trees | `PropRTypes.v` |
| C48 | `jconf.py` | case analysis | `PropJConf.v` |
| C49 | `types.py`/`fdef.py`: `define` of each mark | induction over chains | `PropTypes.v` |
| C50, C55 | `_keypath_set`, `_set_to_container`, nested owned collections | induction on paths | `PropKpSet.v` |
| C57-C61 | a backtracking matcher for patterns as trees; the fixed patterns of `securepw`, `hexcolor`, `email`, `url`; `match` with an arbitrary pattern | the matcher finds exactly the ends that a relational definition of matching allows (induction on the pattern); each fixed pattern is shown equal to a plain grammar | `PropRegex.v` |
| C62, C63 | configurations as trees; `get`, key normalisation, environment substitution; `underscore` and the environment are parameters | induction on configurations and paths, against a relation for each | `PropUconf.v` |
| C64, C65 | `request_uploader` with its cache; file names of uploads; a store of files | invariant over histories of requests; string lemmas | `PropUconf.v` |
| C66, C67, C70 | the modifiers that call functions of the user or run types as checks; a function of the user is an arbitrary function of its context, arguments and the objects | case analysis; induction on lists; the log records each call | `PropCall.v`, `PropNestCall.v`, `PropSaveCall.v` |
| C68, C69 | `canc`, `canu`, `canr`, `getop`, `isthis`, `isobjof`, `asop`, and `opby` | case analysis; induction on the fields of a class, with the assignment of an object's key as one step | `PropCall.v` |
| C71, C72, C73 | `include`, `persisted_modified_fields`, `complete`, `pick`, `omit` (`FetchModel.v`); a data base is an arbitrary function from queries to answers that may change the objects or raise | C71 from the invariant of C34 for one assignment; C72 by induction on the record and from C31 | `PropFetch.v` |
| C74 | the random modifiers (`RandomModel.v`) over an arbitrary source of randomness | `random.sample` picks without replacement: invariant of the remaining pool; every selection reached by an explicit script for the source | `PropRandom.v` |
| C75, C76 | the conversions, `salt`, `checkpw` (`ConvModel.v`); float text, square roots and bcrypt are parameters | `py_int` against a grammar of numerals, both directions by induction; bcrypt by its law | `ConvProofs.v`, `PropConv.v` |
| C77 | `fval`, `fobj`, `isobj` and the permission made of them (`OwnModel.v`) | case analysis over what the reference holds; `fobj` from C71 | `PropOwn.v` |
| C78 | the `__eq__` that dataclasses generate (`EqModel.v`), with fuel for the nesting of objects | against an inductive relation "same content", both directions; monotone in fuel; the relation is an equivalence; discharges `distinct_objects` of C34-C38 | `EqProofs.v`, `PropEq.v` |
| C79 | validation over the whole object graph (the model of C39, C40) | induction on fuel with an invariant: every object in the mark graph is either completely checked or still being checked; at the end none is still being checked | `ReachProofs.v`, `PropReach.v` |
| C80 | the errors that validation raises, with their keypaths | a logic of reports (`Say.v`: every modifier that holds no others reports under its own keypath), then induction on fuel over the places below the validated object | `ReportProofs.v`, `PropReport.v` |
| C81 | `_add` and `_del` items of a list of references in the input of `set`: stored keys and noted keys | a step lemma for each command on the watched key list, induction over the commands, then the run of `set` for one field | `RefKeysProofs.v`, `PropRefKeys.v` |
| C82 | `tojson` at all depths: the form of every value as an inductive relation, JSON data as a predicate | induction over the depth of the recursion, with a loop invariant for each loop; then mutual induction over the form; validation (C79) gives the typing | `OutFormProofs.v`, `PropOutForm.v` |
| C83 | getters and setters written with types (`CalcModel.v`): `this`, `passin`, `fval`, `assign` and the modifiers between them; the knot between attribute access and pipelines is tied by a bound on the nesting | chains of setters and of getters as inductive relations, induction on them; ranks and circles by induction on the bound | `CalcProofs.v`, `PropCalcField.v` |
| C84 | `IoModel.v` | `set` (`IoModel.jset`) on an object that exists: `SetInSpec.v` says what a data field holds afterwards (`after_set`); the proof follows the one field through the traversal of the fields with the protection invariant of `WriteProofs.v`, on success and on failure | `PropSetIn.v` |
| C85 | `IoModel.v` | the JSON form of a value (C82) is given to construction (C30) and `set` (C84): `RoundSpec.v` says which values of which types are kept; by induction on that, the types read the form back as the value; then the field finds its form in the output of the object under its JSON name | `PropRound.v` |
| C86 | `ClassModel.v` | the loop of `CDef.__init__`, the merging of inherited fields and `_resolve_ref_names` (`ClassModel.v`): each list is characterised by induction on the fields; the definitions persist by induction on the program | `PropClass.v` |
| C87 | `ClassModel.v` | a program is a list of definitions and look-ups; invariant: the owner of a types object is the last class that has it, and what was kept of earlier look-ups is what a look-up would give now; from it the other side is the declared one, and the relation meets the hypotheses of C34 to C38 | `PropSides.v` |
| C88 | `IoModel.v` | a logic over the transform half of the interpreter: each step keeps the classes of objects, and a validation error it raises is accounted for; chains by tracking what the modifiers run so far made of the input, objects by the facts about their classes, unions by a judgement that ignores errors; induction on fuel | `PropInErr.v` |
| C89 | `IoModel.v` | every fact about a field of an object is kept as an invariant (the logic of C26 and C30) by everything that runs later; a frame for all facts about objects made since a point, and induction on fuel, with the depth as a parameter of the statement (`NestSpec.v`) | `PropMake.v`, `PropNest.v` |
| C90 | `IoModel.v` | the JSON form of the tree (C82) is given to construction and `set` of nested input (C89); by induction on the depth, what is built from the form of a value is a copy of it, with C85 for the values at the leaves (`TripSpec.v`) | `PropTrip.v` |
| C91 | questions (`tojson`, `validate`, `is_valid`) and histories of them (`ReadSpec.v`) | the logic of C40-C43 for the frame; for the answers, every operation of the interpreter commutes with a longer log of events (`LogFree.v`), by the structure of the operation | `PropRead.v` |
| C92 | `encoder.py` on the recursion of Python's encoder (`EncModel.v`) | against an inductive relation, both directions; induction on values; the frame and the answers from C91 | `PropEnc.v` |
| C93 | `set` with values that need no conversion, objects among them, as a list of assignments (`GiveSpec.v`) | `set` is shown equal to the assignments as a function of the world (`GiveProofs.v`); the relation theorems of C34-C38 are then applied to that history (`GiveLink.v`) | `PropGive.v` |
| C94 | the constructor with objects among its arguments: an empty object and then the assignments of C93 (`GiveSpec.v`) | the state of the new object by induction on the fields; the assignments before the relation by the frame theorem of C34 with the primary key of the new object left out; the rest by C34-C38 (`GiveNew.v`) | `PropGiveNew.v` |
| C95 | `re.sub` over pattern trees with a matcher that keeps Python's order of alternatives (`SubModel.v`); the specification cuts a text into copied characters and replaced matches (`SubSpec.v`) | the ordered matcher finds the places of `ends` (C57), then induction on the text with the pieces read so far; runs by induction on the runs (`SubProofs.v`) | `PropSub.v` |
| C96 | fmtd, alone and behind the date and datetime types (`FmtModel.v`); `strftime` is a parameter | the text the type writes read back by the reader of C20 | `PropFmt.v` |
| C97, C98, C99 | uploader, mongoid and cross_fetch over a state of uploaders, files and drawn texts; the sources of random texts, the files and the answers of the back end are parameters (`BackModel.v`, `BackSpec.v`) | induction on the history of calls, with C64 and C65 | `PropBack.v` |
| C100 | extending a list by a list that another attribute holds: the second walk over the argument reads it anew at each step (`LiveModel.v`) | for lists of data, step by step the same notifications as for the items; for references, a counterexample | `PropLive.v` |
| C101 | assigning the attribute that stores the key or keys of a reference (`ObjModel.set_local_key`) | the assignment is split into storing the key, an assignment to the reference (C34, C38) and storing the key again; the setting of the relation is shown not to depend on which key is stored; histories by induction | `PropKeyAssign.v` |
| C102 | the text of ValidationException and the messages of UniqueConstraintException (`ExcModel.v`) | induction over the entries; reading the text back entry by entry | `PropExc.v` |
| C103 | which objects a save prepares, through the whole graph (`IoModel.v`, set_on_save) | invariant over the recursion: the marks made, the objects they stand for, the calls due for these; closure under the fields looked at | `PropPrep.v` |
| C104 | None in the four operations of a chain (`LeafModel.v`, `IoModel.v`, `ChainModel.v`) | cases over every modifier, then induction over the chain; `NoneSpec.v` lists the modifiers that can tell | `PropNone.v` |
| C105 | nested input for relations: the input side (`IoModel.v`) on top of the links (`ObjModel.v`) | invariant (both sides agree, references lead to their classes) kept by every assignment and by the birth of an object; strong induction over the fuel, inside it over fields and list items; `NestLinkSpec.v` has the words | `PropNestLink.v` |
| C106 | the key an object is stored under (`PrevIdModel.v`) | invariant of one attribute of one object (unrecorded and as it was, or recorded with the value it had) kept by every operation on every object; `types.primary` keeps its two marks in any chain | `PropPrevId.v` |
| C107 | case, replacement, length and character checks (`LeafModel.v`, `PyStr.v`) | the two alphabets written out and compared over all characters; induction over the text for words and for the leftmost occurrence | `PropText.v` |

No property of the list is left without a theorem, and none is proved only in part
(`_partial`): where the English statement was too strong for the code it was amended and
the difference is a `_refuted` theorem.

## 3. What the theorems about whole programs ask for

The conditions are defined in the `*Spec.v` files; each has a lemma or example showing a
program that meets it.

| Name | Meaning | Used by |
|---|---|---|
| `tame_classes D P` (`TameSpec.v`) | the type chains given to modifiers *as arguments* (of `default`, `validate`, `transform`, bounds ...) contain no object, list, dict or union types; nesting is below `D` | C26, C27, C30, C40-C43, C56 |
| `calm P` | callables change no object | C40-C43 |
| `ending P` | callables, getters and arithmetic do not themselves raise `RecursionError` | C40, C42, C56 |
| `finite_graph P h` (`GraphSpec.v`) | the objects are finitely many | C40, C42, C56 |
| `orderly_classes P`, `embedding P h rk M` (`OutSpec.v`) | a chain has one modifier about the parts of a value, nothing before it replaces the value; embedded objects are not embedded in themselves | C42 |
| `considerate P x k`, `own_name P k`, `late_classes`, `avoids` (`WriteSpec.v`) | user code does not itself write the protected field; no reference uses the field's name; collections are not checked before an eager marker; no compound key leads into the field | C26, C27, C30 |
| `newborn P x` | user code leaves a new object new | C30 |
| `at_rest P h K` (`OnsaveSpec.v`) | a closed set of saved, unmodified objects without forced fields | C46 |
| `gentle P`, `plain_keys P`, `keys_apart P h` (`SaveGraphSpec.v`) | user code and on-save setters leave classes, primary keys and the tables of stored keys alone | C56 |
| `assignments_end P h` | a single assignment does not exceed the recursion limit | C56 termination |
| `eager_first` | no eager marker follows a preserialize marker | C56, at most once |
| `unset_reference P h o f`, `assigned P o op f y` (`CallSpec.v`) | the object holds neither a value nor a key for a field that asks for the operator; the field's function leaves the objects alone | C69, `opby` on a new object |
| `setting … h`, `on_side R h1 (HSet o name v)`, `asks …` (`LinkSpec.v`, `FetchSpec.v`) | the heap is consistent before and after the query, and the answer consists of distinct objects of the right class; `asks` says which query that is | C71, `C71_include_example` |
| `source`, `unit_source` (`RandomSpec.v`) | a random number is below its bound | C74, `C74_example` |
| `bcrypt_law` (`ConvSpec.v`) | a hash matches the passwords that are the same to bcrypt | C76, `C76_example` |
| `single_reference` (`OwnSpec.v`) | the field refers to one object and holds None or an object; a stored key exists | C77, `C77_example` |
| `proper_heap`, `keyed` (`EqSpec.v`) | dicts have no key twice; keys are declared first and told apart | C78, `C78_example` |
| `plain_classes D P`, `told_apart` (`ReachSpec.v`) | as `tame_classes`, and union members hold no objects; no two reached objects of one class have keys that print the same | C79, `C79_example` |
| `courteous P` (`ReportSpec.v`) | callables, getters and arithmetic raise no validation error of their own | C80, `C80_example` |
| `unloaded P w o d f`, `keeps_keys w o d f` (`RefKeysSpec.v`) | `f` is a writable list of references whose objects are not loaded and whose name is its own; its keys are stored in the object | C81, `C81_example` |
| `well_typed P h x op iw`, `json_types P ts` (`OutFormSpec.v`) | the visible fields hold values that a modifier of their types can write, stored keys and what formatters answer are JSON data; the types are text, numbers, dates, enums, objects and lists, dicts, unions of these | C82 |
| `data_field`, `calc_field`, `computes`, `comes_to`, `comes_from`, `ranked`, `circle` (`CalcSpec.v`) | the field keeps plain data and is there; the field is calculated; the steps between give this value and change nothing; chains of setters and getters end at a data field; calculated fields read only names of lower rank; they read each other in a circle | C83 |
| `takes_now`, `becomes`, `after_set` (`SetInSpec.v`) | the write rule of the field, which holds this value, takes the input; the value held after an assignment; what a field holds after `set` with this input |
| `silent`, `leaves_alone`, `kept`, `own_key` (`RoundSpec.v`) | marks and checks that change no value; modifiers that leave this value alone; values of a type whose JSON form says them in full; no other field writes under the names of this one |
| `unshared`, `two_sides`, `no_third`, `known_classes` (`ClassSpec.v`) | no types object in fields of two classes; two fields declared as the sides of a relation; no third field declared with either; every class that is named has been defined |
| `polite` (`InErrSpec.v`) | callables, getters and setters of the user raise no validation error; callables and setters remove no object and change the class of none |
| `described` (`NestSpec.v`) | a data field whose name is used by no relation and which no user callable or setter writes to, in any object |
| `unkeyed` (`NestSpec.v`) | the class has no primary key, or the input gives none and it has no default |
| `object_types`, `list_types`, `dict_types` (`NestSpec.v`) | the declared types are one object, list or dict type among modifiers that leave values other than None alone |
| `travels`, `settable`, `keyless` (`TripSpec.v`) | the field is data, shown, and alone under its names in JSON; its write rule takes input in a new object (write-once only without a default); the object has no primary key or None as its key |
| `turns`, `assigns`, `names_known` (`GiveSpec.v`) | the value given for a field is one its types leave as it is (objects, members, texts, numbers, dates, and lists and dicts of them), or None standing for a default or an empty collection; fields that can be written once only are not in the input; a strict class knows the names given |
| `unborn`, `born`, `beside`, `own_keys` (`GiveSpec.v`) | before the constructor runs no attribute holds the object it will make; the primary key is declared before the fields of the relation; the stored keys of a class have different names |
| `distinct_texts` (`BackSpec.v`) | the random texts drawn during the history do not repeat |
| `data_list`, `no_container` (`PropLive.v`) | the list belongs to a field of data, its new items are no lists or dicts | C100 |
| `key_assignment`, `link_or_key` (`KeyAssignSpec.v`) | the assigned list holds integers or strings and names no listed object twice; each operation of a history is lawful in the state it finds | C101 |
| `one_line` (`PropExc.v`) | a keypath without quote, a message without line end | C102 (`C102_text_decides`) |
| `tidy`, `ready` (`PrepSpec.v`) | fields either pass the save on to the objects in them or look at one value only; a primary key is not set on save; no two objects of a class with the same key; the saved object refers to others by lists only (the exception shows why) | C103 |
| `plain_program`, `sound_heap`, `entries` (`NestLinkSpec.v`) | callables change no objects, equality is identity, every field is data, a list or dict of data, one object or a list of objects with silent modifiers beside it; the input names no stored keys, and nested dicts no primary key | met by `C105_example` |
| `typed_hop`, a key that is no list or dict (C106) | the history assigns fields and stored keys and changes lists and dicts held by fields, with objects of the declared classes; calculated fields are left out | met by `C106_example` |
| `resolves` (C107) | the parameters denote values and evaluating them has no effect | met by `C107_example` |
| `asked_for` (C09, jsonenum) | the registrations that a program of decorations asks for; `C09_jsonenum_history` shows that every program has them | met by `C09_jsonenum_example` |
| `ready`, `caller` (C70, whole save) | all fields of the object hold data, have been given a value equal to itself, and have onsave, onwrite, onupdate and modifiers that do nothing on save; callbacks return and change no object | met by `sc_ready`; `C70_book_saved` |
| distinct objects of a relation are not equal, and calls return normally | the two exceptions to symmetric links | C34-C38 |

## 4. Findings

Behaviour of the code that a user would not expect; each is a theorem about the model.

| Theorem | What happens |
|---|---|
| `C03_one_shot_iterator_refuted` | `extend`/`+=` with a one-shot iterator, which a plain list accepts, is rejected |
| `C04_owned_list_ledger_refuted`, `C04_owned_list_index_refuted` | extending a list with itself is reported twice, a slice assigned from an iterator not at all; negative `insert` indexes are reported as given |
| `C05_owned_dict_refuted` | one-shot iterators, and `setdefault(key)` without a default |
| `C08_rekeyed_object_refuted` | an object whose key changes is not recognised as visited |
| `C09_enum_redefinition_error_refuted` | redefining an enum raises AttributeError while building the intended error |
| `C10_eager_after_preserialize_refuted`, `C56_eager_after_refuted` | a modifier between a preserialize marker and a later eager marker runs in two phases; an on-save setter there runs twice per save |
| `C13_nan_passes_refuted` | nan passes every range check |
| `C20_whole_second_refuted`, `C20_offset_refuted` | datetimes without fraction are written malformed; offsets are dropped on input |
| `C21_inputall_loses_names_refuted`, `C21_mixed_case_lname_refuted` | enum input forms that are never tried |
| `C23_union_input_loses_accepted_value_refuted` | union input takes the first member that does not raise |
| `C24_*_refuted` (3) | `required` on stored keys looks at the wrong object in lists; `presentwith` on references |
| `C25_preserialize_item_refuted` | a save-time modifier in an item type lets None items through |
| `C26_keypath_refuted`, `C26_shared_name_refuted`, `C26_eager_refuted`, `C26_reference_refuted` | four ways in which `set` changes a read-only field |
| `C27_transformed_null_refuted` | a transform can write None to a writenonnull field |
| `C30_same_key_refuted`, `C30_nested_writeonce_refuted` | nested input with the key of the object under construction; write-once fields with defaults in nested objects |
| `C31_*_refuted` (5), `C33_unlinked_refuted` | changes that are not tracked, or tracked on a new object |
| `C32_*_refuted` (3) | values that `reset` does not bring back |
| `C34_*_refuted` (3), `C36_same_item_refuted`, `C37_reordering_refuted` | links and stored keys that get out of step |
| `C41_stored_key_refuted` | the stored key of a write-only reference is output |
| `C42_embedded_cycle_refuted` | output of an object embedded in itself never ends |
| `C44_eager_guard_refuted` | a guard chain failing in its eager part raises a validation error |
| `C45_written_valid_refuted`, `C46_rejected_value_stored_refuted`, `C46_neighbour_refuted` | on-save setters can store invalid values, and write to the object that holds theirs |
| `C47_*_refuted` (3) | type strings that are not read as written |
| `C50_silent_refuted`, `C50_raises_yet_writes_refuted`, `C55_*` | compound keys that are ignored, or raise after writing; putting a list into a list in place always exceeds the recursion limit |
| `C52_pow_refuted` | `pow(n)` computes n to the value |
| `C54_all_unlinked_saved_refuted` | `save` saves every second unlinked object |
| `C56_rekeyed_refuted` | an object whose key is set on save is prepared twice |
| `C58_length_refuted`, `C58_symbols_refuted` | a four-character password is secure; percent signs and carets are not symbols |
| `C59_trailing_refuted`, `C60_trailing_refuted`, `C61_newline_refuted` | text after a colour, an address or (a newline) a URL is accepted |
| `C61_ip_refuted` | IP numbers are not bounded by 255 |
| `C62_empty_refuted`, `C62_list_refuted` | reading a configuration raises for an empty keypath, and for some keys in lists |
| `C63_collision_refuted`, `C63_toplevel_refuted` | a key that underscores to a later one loses its value; a file that holds a list is not read |
| `C64_name_refuted` | an uploader named in camel case in the file cannot be requested by that name |
| `C65_alioss_refuted` | the alioss engine stores nothing |
| `C66_oneisvalid_callable_refuted` | functions given to `oneisvalid` are never called (the builtin `callable` is called in their place) |
| `C66_compare_in_list_refuted`, `C66_compare_reference_refuted`, `C66_desk_refuted` | `compare` on a field of an object in a list or dict makes validate raise AttributeError (`compare_modifier.py:26` asks the list for previous values); on a reference to one object it raises IndexError (`compare_modifier.py:24`, empty path) |
| `C70_nested_refuted`, `C70_in_list_refuted`, `C70_desk_lamp_refuted`, `C70_desk_pens_refuted` | saving an object: onwrite and onupdate of the objects it refers to ask the saved object, not their own, whether their field was modified (`ctx.py:166-181` keeps the parent), so they are not called; in lists and dicts save raises AttributeError |
| `C67_filter_truthy_refuted` | `filter` drops items for which its function answers 1 |
| `C68_callable_refuted`, `C68_no_key_refuted` | a function as permission raises AttributeError; objects without keys pass `isthis` for each other |
| `C69_operator_refuted` | an operator given as a key raises AttributeError after it was noted |
| `C71_fetched_objects_refuted` | the objects that `include` fetched count as modified, and would be written again |
| `C71_reset_refuted` | resetting an unmodified object after `include` drops what was fetched and clears the fetched objects' stored keys |
| `C72_nested_refuted` | `persisted_modified_fields` raises ValueError after a change inside a nested list or dict, or after sorting stored keys |
| `C73_assign_refuted` | `complete` replaces the record of modified fields by a list, so that the next assignment to a saved object raises AttributeError |
| `C73_pick_refuted` | `pick` and `omit` assign a property without setter and always raise AttributeError |
| `C74_repeats_refuted` | no character occurs twice in a random string; a length above the size of the alphabet raises ValueError |
| `C74_randomint_refuted` | `randomint` never gives the upper bound, and refuses equal bounds |
| `C75_toint`, `C75_tofloat` | text that is no number raises ValueError instead of a validation error |
| `C76_twice_refuted` | a value that goes through `salt` twice no longer matches the password |
| `C77_unsaved_refuted` | two objects of a class without keys count as the same, so one may act on what is the other's |
| `C78_cycle_refuted` | comparing two unsaved objects whose references lead back to them raises RecursionError |
| `C78_stored_keys_refuted` | stored keys of references that have not been loaded are not compared by `==` |
| `C79_same_key_refuted` | of two objects of one class with the same key only the first is validated; the second may lack required values |
| `C79_class_refuted` | an object that was already met in a field of its class is accepted in a field of any other class |
| `C79_union_refuted` | a union of two classes accepts every object, of whatever class and however invalid: the first member marks it as met, the second takes it for checked |
| `C80_names_refuted` | the fields of an object in a list or dict are reported with names by the naming rules of the class that holds the list, not of its own class |
| `C80_not_an_object_refuted` | a value that is not an object, given to a field of objects, is stored by the constructor, and then `validate()` and `is_valid` raise an AttributeError instead of reporting it |
| `C81_loaded_refuted` | with the objects loaded, `set(groups=[{"_add": k}])` also assigns the empty list: the loaded objects are unlinked and all stored keys, the added one included, are lost |
| `C81_unwatched_refuted` | the first key linked by `_add` makes an unwatched key list: after the next save, keys linked or unlinked are not recorded as modifications |
| `C82_any_refuted` | a field of type `any` is written as it is: a valid object with a date in it has a `tojson` that is no JSON data |
| `C82_namesake_refuted` | whether a reference leads back is decided by the name of the foreign field alone: when the field through which an object was reached has that name by coincidence, `tojson` leaves the reference out although it leads elsewhere |
| `C84_atomic_refuted` | `set` is not all or nothing: when a later field's input raises, the fields before it stay changed |
| `C84_same_key_refuted` | `set` with the object's own key and nested input with the same class and key writes the nested values into the object itself |
| `C85_default_refuted`, `C85_union_refuted`, `C85_readonly_refuted` | `Cls(**obj.tojson())` differs from `obj`: None in a field with a default becomes the default, a date in a union with text becomes text, a readonly field is lost |
| `C86_factory_refuted` | `field(default_factory=...)`: the default value of the field is `dataclasses.MISSING`, which `instanceof_modifier.py:77` then assigns to the attribute |
| `C87_subclass_refuted` | defining a subclass makes the linked fields that the base class declares with a types object lose their other side, in both classes, unless they were used before: `types.fdef._cdef = self` (`cdef.py:76`) overwrites the owner in the shared definition |
| `C88_nested_refuted` | an object inside the input is made with `cls()` before the input is applied (`instanceof_modifier.py:113-121`), so a class with a required field before an eager mark (for example `types.int.required.add(1)`) cannot be created from nested input, although it can by itself; the error names the field without its holder |
| `C88_names_refuted` | an unknown nested key is reported under `skeypathr`, other input errors under the renamed keypath (`instanceof_modifier.py:69-74`, `ctx.py:278-281`) |
| `C88_dotted_refuted` | `set(**{"a.b": v})` reports the error under `b` (`jsonclassify.py:96-101`) |
| `C89_same_key_refuted` | two nested dicts with one primary key are one object (`instanceof_modifier.py:107-112`); the later entries win |
| `C89_default_owner_refuted` | a nested object is made with `cls()` and then gets its defaults again with `ctx.original`, which is None, as the owner (`instanceof_modifier.py:76-82`): default callables run twice, and `default(types.this...)` is computed from None |
| `C90_writeonce_refuted` | a write-once field with a default, in an object inside another, comes back from JSON with its default, because the nested object is made with `cls()` first (`instanceof_modifier.py`) |
| `C90_shared_refuted` | an object without a key that stands at two places of the written tree is two objects in the copy |
| `C90_same_key_refuted` | two objects with one primary key are one object in the copy, with the fields of the second |
| `C91_callable_refuted` | a validator that assigns to an object does so whenever somebody asks whether the object is valid, so the next answer may differ |
| `C92_date_refuted`, `C92_circular_refuted` | `JSONEncoder` writes no dates or enums outside objects; an object that holds itself in an untyped field is a ValueError |
| `C94_key_after_refuted` | when a class declares a reference before its primary key, `User(id=3, posts=[p])` links `p` while the user has no key, so `p.author_id` is None for good though `p.author.id` is 3 |
| `C95_again_refuted` | replacing is done once: the text put in place of a match may hold a match, so `replacer` need not be idempotent, and a second `set` of the value read back changes it |
| `C96_offset_refuted` | `types.datetime.fmtd(f)` formats the text of the field's JSON, not its value: noon at +08:00 is formatted as noon UTC, and a datetime read from JSON with a whole second raises ValueError when it is written |
| `C97_read_back_refuted` | a field with an uploader cannot read its own JSON: the address is no file, so setting it raises AttributeError |
| `C100_reference_refuted` | `a.posts.extend(b.posts)` moves only every second post: the loop that links them walks over the list they leave meanwhile; the others are in both lists |
| `C34_raised_refuted` | assigning a list of references that raises because of two objects with the same primary key is not undone: the list is stored, but the later items do not refer back |
| `C38_no_counterpart_refuted` | when a reference list without counterpart is replaced, only the first object taken away is remembered as unlinked |
| `C101_unwatched_refuted` | a list assigned to stored keys (`user.group_ids = [1]`) is a plain list: later changes to it do not mark the object as modified |
| `C101_none_refuted` | after `user.group_ids = None`, which returns normally, `user.groups.append(g)` raises TypeError with the group half linked |
| `C35_removed_key_refuted` | after the primary key of a linked object has been set to None, linking the object it is linked to with any other object raises UnlinkableJSONClassException, with the link made |
| `C102_line_end_refuted` | a validation error with one failure can have the same text as one with two, if a message has a line end |
| `C103_list_of_lists_refuted` | a new object in a list of lists of an unmodified object is not prepared when that object is saved; in a list it is |
| `C103_order_of_others_refuted` | saving an object that refers to another one with a field that is set on save moves the saved object to the end of the other's list |
| `C103_number_for_author_refuted` | if a later check of that field refuses the value, the reference of the saved object is left holding the value, and the object is gone from the other's list |
| `C89_default_keyed_refuted` | the lost defaults of `C89_default_owner_refuted` are lost as well for an object to which the input gives a primary key |
| `C104_exceptions_refuted` | `padstart`, `padend`, `insertat` and `replace` compute their parameters before they look at the value, so they call callables (and raise what these raise) for None too; `neq(None)` refuses None, `tobool` makes it False, a nonnull list makes it [] |
| `C12_class_setting_refuted` | with `validate_all_fields` set for a class, validate() goes through all fields but reports the first failing modifier of each only, where validate(all_fields=True) reports the last one (`chained_modifier.py:91` looks at the argument alone); save() passes False on, so the setting has no effect there (`jsonclassify.py:339,350`) |
| `C85_alike_names_refuted` | two fields of a class whose names are written alike, such as `zip_code` and `zipCode`: the output has one entry for both (the later field's), and both read it back; nothing refuses such a class |
| `C105_twice_refuted` | two dicts with the same primary key in one list of objects: they become one object, which the list then holds twice; taking one of them out makes the object forget its owner while the list still holds it |

## 5. Trusted base

* Coq's kernel (8.16.1), and `coqchk`.
* `Print Assumptions` says "Closed under the global context" for every theorem named in
  `MANIFEST.json`: no axioms, of this development or of the standard library.
* `coqchk` on the whole development reports the constants
  `Coq.ssr.ssrunder.Under_rel.Under_rel`, `Under_rel_from_rel`, `Under_relE`, `Over_rel`,
  `over_rel`, `over_rel_done`, `under_rel_done` : these are sealed fields
  of a module of Coq's own standard library (`ssrunder`), loaded by standard library files
  that the development imports.  No theorem depends on them.
* The reading of the Python source: the semantics of Python's lists, dicts, strings, ints,
  floats and dates as written down in `PyList.v`, `PyDict.v`, `PyStr.v`, `Values.v`,
  `CalModel.v`, of its `re` module in `RegexModel.v` (ASCII), and the correspondence between each definition and the lines it cites.  The
  code is not run.

## 6. What is modelled

| Code | Model |
|---|---|
| `keypath.py` | `KeypathModel.v` |
| `olist.py`, `odict.py`, `outils.py` | `OListModel.v`, `ODictModel.v`, `OUtilsModel.v` |
| `ograph.py`, `mgraph.py`, `cgraph.py`, `jsonenum.py` | `OGraphModel.v`, `MGraphModel.v`, `CGraphModel.v`, `JEnumModel.v` |
| `modifiers/chained_modifier.py`, `vmsgcollector.py` | `ChainModel.v` |
| the modifiers that look at one value (types, numbers, strings, lists, lengths, membership, prefixes) | `LeafModel.v` |
| the date modifiers | `CalModel.v` |
| `fdef.py`, `Types.__init__`, every `define`, the lookups of `cdef.py` and `jfield.py` | `TypesModel.v` |
| `CDef.__init__`, `_resolve_ref_names`, `rfield`, `JField`, the definition of classes and subclasses | `ClassModel.v` |
| `jsonclassify.py`: `__setattr__`, `__getattribute__`, collection callbacks, links, unlinked pool, `reset` | `ObjModel.v` |
| `ctx.py`, `instanceof_modifier.py`, `collection_type_modifier.py`, `listof_modifier.py`, `dictof_modifier.py`, `enum_modifier.py`, `union_modifier.py`, presence, callable, operator and on-save modifiers; `jsonclassify.py`: `__init__`, `set`, `update`, keypath set, `validate`, `is_valid`, `tojson`, `save`, `delete`, `opby`, guards and callbacks | `IoModel.v` |
| `jconf.py`, the configuration part of `cgraph.py` and `jsonclass.py` | `JConfModel.v` |
| `rtypes.py` | `RTypesModel.v` |
| `jsonclassify.py`: `include`, `complete`, `pick`, `omit`, `persisted_modified_fields` | `FetchModel.v` |
| random modifiers | `RandomModel.v` |
| `toint`, `tofloat`, `tostr`, `tobool`, `tolist`, `sqrt`, `salt`, `checkpw` modifiers | `ConvModel.v`, `PyInt.v` |
| `fval`, `fobj`, `isobj` modifiers, `objref.py` | `OwnModel.v` |
| `assign` modifier, `getter(types)`, `setter(types)`, `Ctx.rootctxp`, the calculated branches of `__setattr__` and `__getattribute__` | `CalcModel.v` |
| `dataclass(init=False)` in `jsonclass.py`: `==` on objects | `EqModel.v` |
| `match`, `securepw`, `hexcolor`, `email`, `url` modifiers | `RegexModel.v` |
| `uconf.py`, `uploaders.py` (names, cache, what is stored where) | `UconfModel.v`, `PyInt.v` |
| `encoder.py` | `EncModel.v` |
| `modifiers/replacer_modifier.py` | `SubModel.v` |
| `modifiers/fmtd_modifier.py` | `FmtModel.v` |
| `modifiers/uploader_modifier.py`, `modifiers/mongoid_modifier.py`, `modifiers/cross_fetch_modifier.py` (transform) | `BackModel.v` |
| `olist.py` extend and += with a list held by an object | `LiveModel.v` |
| `excs.py`: `ValidationException`, `UniqueConstraintException` | `ExcModel.v` |
| `jsonclassify.py`: `_previous_id` | `PrevIdModel.v` |

Simplifications are listed at the head of each model file.  The main ones: strings are
8-bit; floats are rationals, infinities and nan; a class has no subclasses with fields of
their own; a list or dict held by an object has no other references to it; callables
cannot change the marks of a running traversal.

## 7. Not modelled

* `orm.py`, the network and file system below `uploaders.py`: back ends.  The queries of `cross_fetch` are a parameter.
* `mypy.py`, `typing.py`, `pkgutils.py`, finding the config file, `jobject.py` (protocol).
* `inflection` (its functions are parameters of the key strategies).
* Sources of randomness, bcrypt, the printing and reading of floats, square roots (parameters).
* For `match` and `replacer`, the reading of a pattern's text (a parameter that yields a pattern tree) and of a replacement's text (a parameter that yields a function from the matched text; so back references to groups other than the whole match are left out).
* For `fmtd`, `strftime` itself (a parameter).
* what the ORM does for `complete` and the queries of `include` (arbitrary functions in `FetchModel.v`).
* Threads: objects and graphs are used by one thread.
