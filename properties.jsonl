{"id": "C01", "title": "Keypath concatenation and splitting are inverse", "statement": "Joining any list of keys that are non-empty and contain none of '.', '[' or ']' gives a keypath that splits back into exactly those keys; the first component of the joined keypath is the first key, and dropping the last component gives the keypath of all keys but the last. Splitting never returns an empty component or one containing a separator, whatever the string, and empty parts never leave a stray dot when joining.", "quantifier": "all strings and all finite lists of keys", "why_tests_cant": "strings and key lists are unbounded; separators can occur at any position and in any combination", "anchors": ["jsonclasses/keypath.py:concat_keypath", "jsonclasses/keypath.py:keypath_split", "jsonclasses/keypath.py:initial_keypath", "jsonclasses/keypath.py:keypath_drop_last"]}
{"id": "C02", "title": "Every keyword argument is routed to exactly one of plain set and keypath set", "statement": "For every keyword dictionary, each argument is handled either as a plain field argument or as a keypath argument, never both and never neither, in its original relative order; plain arguments are exactly those whose key has no '.', '[' or ']'.", "quantifier": "all keyword dictionaries", "why_tests_cant": "unbounded dictionaries with arbitrary strings as keys", "anchors": ["jsonclasses/keypath.py:single_key_args", "jsonclasses/keypath.py:compound_key_args", "jsonclasses/jsonclassify.py:jsonobject_set"]}
{"id": "C03", "title": "An owned list behaves like a Python list", "statement": "For every list and every sequence of list operations (append, extend, insert, remove, sort, clear, pop, reverse, +=, *=, item and slice assignment and deletion), a list held by an object field ends with the same content, returns the same results and raises the same errors as a plain Python list, provided the values put in are not themselves lists or dicts. The exception, which is proved to be real, is extend and += with a one-shot iterator such as a generator: a plain list accepts it, the owned list raises TypeError because it asks for its length.", "quantifier": "all initial contents, all operation histories, all indexes and slices", "why_tests_cant": "operation histories, indexes (negative, out of range) and slices are unbounded", "anchors": ["jsonclasses/olist.py:OwnedList"]}
{"id": "C04", "title": "Owned list notifications account for every change", "statement": "For every operation on an owned list, the owner is told of the coming change before the content changes, and the additions and removals it is told of are exactly the difference between the content before and after (as a multiset), so an owner that keeps a tally from the notifications alone always agrees with the list. A reordering is reported as such. The index reported for an addition is the position of the added value. Exceptions, each proved to be real: extending a list with itself and slice assignment from a one-shot iterator report the wrong additions; insert with a negative index and assignment to a slice with negative step report a wrong index.", "quantifier": "all contents, all operation histories", "why_tests_cant": "unbounded histories; the accounting must be exact for every slice, step and index", "anchors": ["jsonclasses/olist.py:OwnedList", "jsonclasses/jsonclassify.py:__olist_add__", "jsonclasses/jsonclassify.py:__olist_del__"]}
{"id": "C05", "title": "An owned dict behaves like a Python dict and reports every change", "statement": "For every sequence of dict operations (item assignment and deletion, pop, popitem, setdefault, update, |=, clear) an owned dict has the content, order, results and errors of a plain dict; its owner is told before any change, and the values it is told were added and removed are exactly the difference between the content before and after. Exceptions, each proved to be real: setdefault called with the key alone inserts None without a notification; update and |= with a one-shot iterator, or with an iterable that breaks half way, leave the owned dict unlike a plain dict.", "quantifier": "all contents, all operation histories", "why_tests_cant": "unbounded histories and key sets", "anchors": ["jsonclasses/odict.py:OwnedDict", "jsonclasses/jsonclassify.py:__odict_add__", "jsonclasses/jsonclassify.py:__odict_del__"]}
{"id": "C06", "title": "Taking ownership of a collection preserves its content and labels every nested collection", "statement": "Assigning a list or dict to a field stores a collection with the same content at every depth, in which every nested list and dict is observed on behalf of the object under the keypath at which it sits; the plain copy taken for reset has the same content and contains no observed collection; the two conversions are inverse on content.", "quantifier": "all nested lists and dicts of any depth and width", "why_tests_cant": "nesting depth and width are unbounded", "anchors": ["jsonclasses/outils.py:to_owned_dict", "jsonclasses/outils.py:to_owned_list", "jsonclasses/outils.py:unowned_copy_dict", "jsonclasses/outils.py:unowned_copy_list"]}
{"id": "C07", "title": "Object graphs hold one object per identity and merge without loss", "statement": "Whatever sequence of puts and merges is performed, an object graph holds at most one object per (class, primary key); looking up an object returns the last one put under its identity. Merging two graphs either fails with a conflict exactly when two different objects have the same identity, changing no object's graph, or yields a graph that contains exactly the objects of both and that every one of them then shares.", "quantifier": "all graphs and all operation histories", "why_tests_cant": "graphs, histories and key values are unbounded", "anchors": ["jsonclasses/ograph.py:OGraph", "jsonclasses/jsonclassify.py:__link_graph__"]}
{"id": "C08", "title": "The visited-marks used by validation and saving are sound", "statement": "After an object has been marked in a traversal it is always recognised as marked, also when it was marked without a primary key and gets one later; an object is recognised as marked only if it, or an object of the same class whose primary key prints the same, was marked. An object without a primary key is recognised only if that very object was marked. A lookup returns the object last marked under that class and key. The exception, which is proved to be real, is an object whose primary key is changed from one value to another after it was marked.", "quantifier": "all histories of marks", "why_tests_cant": "histories are unbounded; keys of different types can print alike", "anchors": ["jsonclasses/mgraph.py:MGraph", "jsonclasses/mgraph.py:MarkClassTable"]}
{"id": "C09", "title": "A class name is bound at most once per class graph", "statement": "For every history of class and enum registrations over any set of named graphs, a second registration of a name in the same graph is rejected and leaves the first one in place; a fetch returns exactly what was registered under that name in that graph; different graphs do not interfere. (The error for a second enum is an AttributeError rather than the redefinition error the code builds; this is proved.)  The decorator jsonenum, written as @jsonenum, @jsonenum(class_graph=g) or jsonenum(cls, class_graph=g), gives the class itself and registers it in the graph named (by default the graph called default), or raises if the name is taken; what is no class raises ValueError and registers nothing.", "quantifier": "all registration histories over any number of graphs", "why_tests_cant": "histories are unbounded", "anchors": ["jsonclasses/cgraph.py:CGraph", "jsonclasses/jsonclass.py:jsonclass", "jsonclasses/jsonenum.py:jsonenum"]}
{"id": "C10", "title": "Every modifier of a field is validated in exactly one phase", "statement": "For every modifier chain in which no eager mark follows a pre-serialize mark, the modifiers before the last eager mark are validated while the value is being set, those up to the first pre-serialize mark are validated by validate, and the rest while saving: each modifier belongs to exactly one of the three phases and the order within the chain is kept.", "quantifier": "all modifier chains", "why_tests_cant": "chains have unbounded length and marks may occur at any positions, repeatedly", "anchors": ["jsonclasses/modifiers/chained_modifier.py:ChainedModifier._tvs", "jsonclasses/modifiers/chained_modifier.py:ChainedModifier._nvs", "jsonclasses/modifiers/chained_modifier.py:ChainedModifier._pvs"]}
{"id": "C11", "title": "Eager validation stops a bad value before later modifiers see it", "statement": "When a value is set through a chain with eager marks, each modifier of the eager part sees the value produced by the previous ones, and the first one that rejects its value aborts the whole assignment: no later modifier runs and the field is not written. If none rejects, the result is the left-to-right composition of all transforms up to the first pre-serialize mark.", "quantifier": "all chains, all modifiers, all values", "why_tests_cant": "chains, modifiers and values are unbounded", "anchors": ["jsonclasses/modifiers/chained_modifier.py:ChainedModifier.transform", "jsonclasses/modifiers/chained_modifier.py:ChainedModifier._vt"]}
{"id": "C12", "title": "Validation reports the first failure or all of them, never invents or loses one", "statement": "validate succeeds exactly when every checked modifier of every checked field accepts its value. With all_fields off the report is that of the first failing modifier of the first failing field, and nothing after it is checked; with all_fields on every field is checked and the report is made of the reports of every failing field and of no other (the later message when two have the same keypath).  Exception, shown (C12_class_setting_refuted): a class that is set up to report all failures gets them from validate(), one per field, the first; save() ignores the setting and reports one failure unless it is asked for all.", "quantifier": "all objects, all field chains, both modes", "why_tests_cant": "number of fields and modifiers and combinations of failures are unbounded", "anchors": ["jsonclasses/modifiers/chained_modifier.py:ChainedModifier.validate", "jsonclasses/modifiers/instanceof_modifier.py:InstanceOfModifier.validate", "jsonclasses/vmsgcollector.py:VMsgCollector"]}
{"id": "C13", "title": "Number range modifiers accept exactly the stated range", "statement": "min, max, range, gt, gte, lt, lte, positive, negative, nonnegative, nonpositive, odd and even accept a number exactly when it satisfies the stated relation with the bound, for ints and floats alike, and never reject a value that is not a number.  Exceptions (found while proving): nan is accepted by all of them; even and odd only look at ints, so every float passes.", "quantifier": "all numbers and all bounds", "why_tests_cant": "numbers are unbounded; boundary and mixed int/float cases are infinite", "anchors": ["jsonclasses/modifiers/min_modifier.py", "jsonclasses/modifiers/max_modifier.py", "jsonclasses/modifiers/range_modifier.py", "jsonclasses/modifiers/gt_modifier.py", "jsonclasses/modifiers/odd_modifier.py"]}
{"id": "C14", "title": "Clamping modifiers put every number inside the bound and leave others alone", "statement": "lowerbond and upperbond return the number itself when it is inside the bound and the bound otherwise; applying one twice changes nothing; chaining lowerbond(a) and upperbond(b) with a <= b yields a number that validates against range(a, b).", "quantifier": "all numbers and bounds", "why_tests_cant": "infinite numeric domain", "anchors": ["jsonclasses/modifiers/lowerbond_modifier.py", "jsonclasses/modifiers/upperbond_modifier.py"]}
{"id": "C15", "title": "String and list shaping modifiers meet their length and content contract", "statement": "truncate(n) gives a prefix of at most n items that passes maxlength(n); padstart and padend reach at least the target length, keep the original at the far end and add only pad characters, and never alter a value already long enough; reverse undoes itself; append/prepend keep the original as prefix/suffix; insertat keeps every original item in order around the new one; split then join with the same separator is the identity; trim is idempotent and removes only surrounding whitespace.  Exceptions (found while proving): truncate raises TypeError on a dict and counts from the end for a negative n; prepend, unlike append, does not convert its argument to text and raises TypeError on a non-string item; an empty separator raises ValueError.", "quantifier": "all strings, lists and parameters", "why_tests_cant": "unbounded strings, lists and parameters", "anchors": ["jsonclasses/modifiers/truncate_modifier.py", "jsonclasses/modifiers/padstart_modifier.py", "jsonclasses/modifiers/padend_modifier.py", "jsonclasses/modifiers/reverse_modifier.py", "jsonclasses/modifiers/insertat_modifier.py", "jsonclasses/modifiers/split_modifier.py", "jsonclasses/modifiers/join_modifier.py"]}
{"id": "C16", "title": "Length and membership validators accept exactly the stated set", "statement": "length, minlength, maxlength, oneof, eq and neq accept a value exactly when the stated relation holds, for every value and parameter.  None is accepted by oneof and eq; values that are neither strings nor lists pass the length checks. Equality is Python's (1, 1.0 and True are equal).", "quantifier": "all values and parameters", "why_tests_cant": "unbounded values", "anchors": ["jsonclasses/modifiers/length_modifier.py", "jsonclasses/modifiers/minlength_modifier.py", "jsonclasses/modifiers/maxlength_modifier.py", "jsonclasses/modifiers/oneof_modifier.py"]}
{"id": "C17", "title": "Prefix and suffix validators decide prefix and suffix", "statement": "hasprefix/hassuffix accept a string or list exactly when it starts/ends with the given one; isprefixof/issuffixof accept it exactly when it is a prefix/suffix of the given one, including the empty and the full cases.  Exceptions (found while proving): on lists hasprefix accepts only a list equal to the whole prefix; hassuffix with an empty suffix rejects every non-empty list, and issuffixof rejects the empty list unless the other list is empty.  A list is refused when the given one is a text, and a text checked against a list raises TypeError (hasprefix, hassuffix) or AttributeError (isprefixof, issuffixof).", "quantifier": "all strings and lists", "why_tests_cant": "unbounded strings; empty and full-length cases are easy to miss", "anchors": ["jsonclasses/modifiers/hasprefix_modifier.py", "jsonclasses/modifiers/hassuffix_modifier.py", "jsonclasses/modifiers/isprefixof_modifier.py", "jsonclasses/modifiers/issuffixof_modifier.py"]}
{"id": "C18", "title": "Beginning-of-unit modifiers round a time down to its unit", "statement": "toboday, tobohour, tobomin, tobosec, tobomon and toboyear return the latest instant that starts such a unit and is not after the given one: the result is in the same unit, not later than the input, and applying the modifier again changes nothing.", "quantifier": "all dates and datetimes of the supported calendar", "why_tests_cant": "the calendar has millions of dates and unbounded combinations with times; month and leap-year ends are edge cases", "anchors": ["jsonclasses/modifiers/toboday_modifier.py", "jsonclasses/modifiers/tobomon_modifier.py", "jsonclasses/modifiers/toboyear_modifier.py"]}
{"id": "C19", "title": "Next-unit modifiers give the first start of a unit after the given time", "statement": "tonextday, tonexthour, tonextmin, tonextsec, tonextmon and tonextyear return an instant that starts such a unit, is strictly later than the input, and has no other such start between the input and itself, for every date including month ends, leap days and year ends.", "quantifier": "all dates and datetimes for which the next unit exists in the supported calendar", "why_tests_cant": "calendar edge cases: month lengths, leap years, year roll-over", "anchors": ["jsonclasses/modifiers/tonextday_modifier.py", "jsonclasses/modifiers/tonextmon_modifier.py", "jsonclasses/modifiers/tonextyear_modifier.py"]}
{"id": "C20", "title": "Dates survive a JSON round trip", "statement": "For every date, reading back the JSON form of a date field gives the same date. A datetime reads back as the same clock reading in UTC, cut to whole milliseconds, so a UTC datetime with a nonzero fraction in whole milliseconds survives unchanged. Exceptions: a datetime that has an offset (UTC included) and no fraction of a second is written as a malformed text which is refused on reading; a text with an offset is accepted but its offset is replaced by UTC instead of being converted; a date field ignores everything after the first ten characters.  A text without seconds, without minutes or without a clock is read as the start of what it names.  The JSON form of a date is YYYY-MM-DDT00:00:00.000Z, and that of a datetime with a fraction of a second YYYY-MM-DDTHH:MM:SS.mmmZ, with every number in the given number of digits.", "quantifier": "all dates and datetimes", "why_tests_cant": "the set of dates and datetimes is far too large to enumerate in a test, and formatting depends on zero/non-zero fractions", "anchors": ["jsonclasses/modifiers/date_modifier.py", "jsonclasses/modifiers/datetime_modifier.py"]}
{"id": "C21", "title": "Enum values survive a JSON round trip when input and output forms match", "statement": "For every enum and every member, if a field's accepted input forms include its output form, then reading back the JSON form of the member gives the member; a string that is no accepted form of any member is rejected, never silently turned into another member.  Two exceptions exist in the code: when a field accepts values, names are not tried (an input that is no value silently becomes None, never another member), and lower-case names are compared after upper-casing, so a member whose name has mixed case is rejected in its own lower-case form. Validation accepts exactly None and members of the field's own enum.  Which forms a field reads and writes follows from the marks of its chain: names are read if asked for or if no input mark precedes the enum, values and lower-case names only if asked for; the last output mark decides the form written, the name if there is none.", "quantifier": "all enums, members and input/output settings", "why_tests_cant": "enums are user-defined and unbounded", "anchors": ["jsonclasses/modifiers/enum_modifier.py:EnumModifier"]}
{"id": "C22", "title": "Type modifiers accept exactly their type", "statement": "str, int, float, bool, date, datetime and the collection modifiers accept None and values of their type and reject every other value; in particular a bool is not accepted as an int and the reverse, and an int given to a float field becomes a float.  Exception (found while proving): the date modifier also accepts a datetime, because datetime is a subclass of date; an int too large for a float raises OverflowError.", "quantifier": "all values", "why_tests_cant": "unbounded values; Python's bool/int/float and date/datetime subclass relations are easy to get wrong", "anchors": ["jsonclasses/modifiers/type_modifier.py", "jsonclasses/modifiers/int_modifier.py", "jsonclasses/modifiers/float_modifier.py", "jsonclasses/modifiers/bool_modifier.py"]}
{"id": "C23", "title": "A union field accepts exactly the union of its members", "statement": "A union-typed field validates exactly when some member type validates; its JSON form is that of the first member that validates.  The member types are tried in order, each seeing the state its predecessors left. On input, by contrast, the first member whose transformation does not raise is used whether or not it then accepts the value, so a value that a later member accepts can be lost.  Since each member sees the state its predecessors left, a union of classes accepts every object (finding, C79).", "quantifier": "all unions and values", "why_tests_cant": "unions are user-defined and nest", "anchors": ["jsonclasses/modifiers/union_modifier.py:UnionModifier"]}
{"id": "C24", "title": "Required and present rules decide presence", "statement": "A required field fails validation exactly when its value is None, except that a reference stored by key is satisfied by its stored key and a reference stored on the other side is never checked; presentwith / presentwithout require a value exactly when the other field is present / when all the other fields are absent.  Exceptions: the stored key of a reference held by an object that is itself an item of a list is looked up on the wrong object; a required list of keys that is None raises AttributeError instead of a validation failure; presentwith and presentwithout on a one-object reference that is None raise ValueError.", "quantifier": "all objects and field settings", "why_tests_cant": "unbounded objects and combinations of presence", "anchors": ["jsonclasses/modifiers/required_modifier.py", "jsonclasses/modifiers/present_modifier.py", "jsonclasses/modifiers/presentwith_modifier.py", "jsonclasses/modifiers/presentwithout_modifier.py"]}
{"id": "C25", "title": "Collection items are non-null unless marked nullable", "statement": "For every list or dict field, at any nesting depth, validation rejects a None item exactly when the item type is not marked nullable, and reports it under the item's keypath; a nonnull collection field given None becomes an empty collection.  Exception: an item type that has a save-time modifier (setonsave and the like) lets None through, because the added requirement only takes effect after that modifier's mark.", "quantifier": "all nested collections", "why_tests_cant": "nesting and size are unbounded", "anchors": ["jsonclasses/modifiers/collection_type_modifier.py", "jsonclasses/fdef.py:item_types"]}
{"id": "C26", "title": "set never changes a readonly field", "statement": "Over every history of set calls on any objects, each with any input and whether or not it raises, the value of a readonly non-reference field of every existing object stays the same, provided user callables do not change it themselves. Exceptions (each shown to happen): a compound key that leads into the field's list or dict changes it; an object of a wrong class given for a reference has its field of the other side's name overwritten; a default that mentions an existing object beside input for it, checked eagerly, resets the field; and the stored key of a readonly or writeonce reference is written when the input names it.", "quantifier": "all classes, object graphs and histories of inputs, including nested input and inputs that fail midway", "why_tests_cant": "inputs and object graphs are unbounded and nested input can reach the same object again", "anchors": ["jsonclasses/modifiers/instanceof_modifier.py:InstanceOfModifier.transform", "jsonclasses/jsonclassify.py:jsonobject_set"]}
{"id": "C27", "title": "set changes a writeonce field at most once and never writes null to a writenonnull field", "statement": "Over every history of set calls on any objects, a writeonce non-reference field whose value is not None keeps that value, and a writenonnull non-reference field that is not None never becomes None, with the exceptions listed for C26 and, for writenonnull, unless a modifier of the field's own chain turns the given value into None (shown to happen).", "quantifier": "all classes, object states and histories of inputs", "why_tests_cant": "histories and inputs are unbounded", "anchors": ["jsonclasses/modifiers/instanceof_modifier.py:InstanceOfModifier.transform"]}
{"id": "C28", "title": "Strict classes reject unknown keys without writing anything", "statement": "For a strict class, if the input has any key that is not a field name, its JSON name, or a stored-reference name, then set and construction raise a validation error naming that key and no field of the object is changed; otherwise no such error occurs. For a non-strict class unknown keys are ignored.  The names also include the JSON forms of the stored-reference names. Nested input is refused before any field of the nested object is written; the fields of the outer object that come earlier are already written. A strictness mark on the field overrides the setting of the class. Compound (dotted) keys are not subject to the check.", "quantifier": "all classes and inputs", "why_tests_cant": "inputs are unbounded", "anchors": ["jsonclasses/modifiers/instanceof_modifier.py:InstanceOfModifier._strictness_check", "jsonclasses/cdef.py:available_names"]}
{"id": "C29", "title": "update is all-or-nothing on names and ignores write rules", "statement": "update raises an error and changes nothing if any name is unknown; otherwise it assigns each value in order, up to the first exception, whatever the write rules say. Assigning data fields always succeeds and changes nothing else; assigning a value equal to the present one may keep the present one.", "quantifier": "all classes, objects and inputs", "why_tests_cant": "unbounded inputs", "anchors": ["jsonclasses/jsonclassify.py:update", "jsonclasses/cdef.py:update_names"]}
{"id": "C30", "title": "Construction gives every field its input or its default", "statement": "After constructing an object from any accepted input, each stored field not given in the input (or not writable) has its default, each writable field given has its transformed input, and the object is new and unmodified. Exceptions: nested input with the class and primary key of the object under construction is about that object and overwrites its fields; and an object made from nested input already has its defaults, so its write-once fields with a default keep it whatever the nested input says. Input under compound keys (a.b) is the subject of C50.", "quantifier": "all classes and inputs", "why_tests_cant": "unbounded classes and inputs", "anchors": ["jsonclasses/jsonclassify.py:__init__", "jsonclasses/modifiers/instanceof_modifier.py:InstanceOfModifier._fill_default_value"]}
{"id": "C31", "title": "Every change to a persisted object is tracked", "statement": "After any history of assignments and collection operations on an object that was marked persisted, every data field whose value differs from the one at that time is listed in modified_fields, at the field name or at a keypath below it, and is_modified is true if any is; a field never assigned nor mutated is not listed. This holds for histories in which no call raised, for plain data fields (listed and modified) and for references that store their keys in the object (listed). Exceptions: setdefault without a default and assigning a one-shot iterator to a slice change the data untracked; a call that raises can leave an untracked change; a to-one reference cleared from the other side is listed without is_modified; sorting or reversing a list of stored keys lists the key name instead of the field name.", "quantifier": "all histories of assignments and nested collection operations", "why_tests_cant": "histories and nesting are unbounded", "anchors": ["jsonclasses/jsonclassify.py:__setattr__", "jsonclasses/jsonclassify.py:__olist_add__", "jsonclasses/jsonclassify.py:__odict_add__", "jsonclasses/jsonclassify.py:modified_fields"]}
{"id": "C32", "title": "reset restores the values at the time of persisting", "statement": "For a class with reset enabled, after any history of assignments and nested collection operations on the plain data fields of a persisted object, reset gives every such field the value it had when it was persisted and clears the modification record. A history that ends in an exception is covered too. Exceptions: a field whose current value Python finds equal to the old one (1 and True) keeps the current value; in-place changes to a list or dict in a field of any or union type, and setdefault without a default, are not undone.", "quantifier": "all histories", "why_tests_cant": "histories and nesting are unbounded", "anchors": ["jsonclasses/jsonclassify.py:reset", "jsonclasses/jsonclassify.py:previous_values", "jsonclasses/jsonclassify.py:__odict_will_change__", "jsonclasses/jsonclassify.py:__olist_will_change__"]}
{"id": "C33", "title": "New objects never record modifications", "statement": "As long as an object has not been persisted, no history of assignments and collection operations makes it modified or adds to modified_fields. Exception: clearing, from the other side, a to-one reference that stores its key adds the name of that reference to modified_fields of the new object; nothing else is ever added.", "quantifier": "all histories on new objects", "why_tests_cant": "unbounded histories", "anchors": ["jsonclasses/jsonclassify.py:__setattr__", "jsonclasses/jsonclassify.py:_mark_new"]}
{"id": "C34", "title": "One-to-many links stay symmetric", "statement": "After any history of assignments and list operations on the two sides of a one-to-many relation, over any number of objects, an item is in an owner's list exactly when the item's back reference is that owner, no owner's list holds an item twice, and the stored key of the item is the owner's primary key or None when unlinked. This holds for calls that return normally, while different objects of the relation are not equal and each method puts only objects into a list that are not in it yet: objects that are equal without being the same, an item put into a list twice, and a generator assigned to a slice break it.  A call that raises is not undone and can leave an item in the list without its back reference (C34_raised_refuted).  Each call does what it is called for, and nothing else: the other owners keep exactly the items they had, except those that the owner of the call now links.", "quantifier": "all histories over any number of objects", "why_tests_cant": "histories and object counts are unbounded; relinking touches a third object", "anchors": ["jsonclasses/jsonclassify.py:__link_field__", "jsonclasses/jsonclassify.py:__unlink_field__", "jsonclasses/jsonclassify.py:__setattr__"]}
{"id": "C35", "title": "One-to-one links stay symmetric", "statement": "After any history of assignments on either side of a one-to-one relation over any number of objects, a refers to b exactly when b refers to a. This holds for calls that return normally, while different objects of the relation are not equal.  Finding: an assignment can raise because of a third object: once the primary key of an object linked to user has been set to None, profile.user = user raises UnlinkableJSONClassException and leaves the two linked (C35_removed_key_refuted).", "quantifier": "all histories over any number of objects", "why_tests_cant": "relinking touches up to four objects; histories are unbounded", "anchors": ["jsonclasses/jsonclassify.py:__link_field__", "jsonclasses/jsonclassify.py:__unlink_field__"]}
{"id": "C36", "title": "Many-to-many links stay symmetric", "statement": "After any history of assignments and list operations on the two sides of a many-to-many relation, a lists b exactly when b lists a. This holds for calls that return normally, while different objects of the relation are not equal and each method puts only objects into a list that are not in it yet: putting in an object that is already listed reorders the list or later removes both entries.", "quantifier": "all histories over any number of objects", "why_tests_cant": "histories and object counts are unbounded", "anchors": ["jsonclasses/jsonclassify.py:__link_field__", "jsonclasses/jsonclassify.py:__unlink_field__", "jsonclasses/jsonclassify.py:__olist_add__"]}
{"id": "C37", "title": "The stored key list of a reference list mirrors the list", "statement": "After any history of operations on a list reference that stores its keys locally, the stored key list is the list of primary keys of the listed objects in the same order. The methods sort and reverse, and assignment to an index or a slice, are exceptions: they leave the stored key list as it was.", "quantifier": "all histories of list operations", "why_tests_cant": "unbounded histories; depends on index bookkeeping", "anchors": ["jsonclasses/jsonclassify.py:__olist_add__", "jsonclasses/jsonclassify.py:__olist_del__", "jsonclasses/jsonclassify.py:__setattr__"]}
{"id": "C38", "title": "Replacing a link remembers the object that was unlinked", "statement": "When a link is replaced or removed, each side records the other among its unlinked objects unless they are linked again; an object that is currently linked through a field is not recorded as unlinked for that field. This holds for histories as in C34 to C36.  Finding: this needs the counterpart of the relation; for a list of references without one, only the first object taken away by an assignment is remembered (C38_no_counterpart_refuted).", "quantifier": "all histories", "why_tests_cant": "unbounded histories over unbounded object counts", "anchors": ["jsonclasses/jsonclassify.py:_add_unlinked_object", "jsonclasses/jsonclassify.py:_del_unlinked_object"]}
{"id": "C39", "title": "Validation of a persisted object checks exactly the modified data fields", "statement": "For a persisted object, a data field is validated exactly when it or something below it is listed as modified, and reference fields always; for a new object every field is validated.", "quantifier": "all objects and modification states", "why_tests_cant": "unbounded states", "anchors": ["jsonclasses/modifiers/instanceof_modifier.py:InstanceOfModifier.validate", "jsonclasses/keypath.py:initial_keypaths"]}
{"id": "C40", "title": "Validation terminates on every object graph and visits each object once", "statement": "For every finite object graph, however cyclic, validate and is_valid finish with a recursion depth bounded by the number of objects and the nesting of the field types, leave every object as it was, and visit each object at most once per call: a validator attached to a field is called at most once for each object of the class. This holds for programs whose callables change no object and whose type arguments of modifiers (such as types.validate(types...)) look at one value only. The save pipeline is C56.", "quantifier": "all finite object graphs, including cyclic ones", "why_tests_cant": "graphs are unbounded and cyclic", "anchors": ["jsonclasses/modifiers/instanceof_modifier.py:InstanceOfModifier.validate", "jsonclasses/modifiers/instanceof_modifier.py:InstanceOfModifier.serialize"]}
{"id": "C41", "title": "JSON output never contains a write-only or temporary field", "statement": "For every object graph, unless told to ignore the mark, tojson emits, at any depth, no entry for a write-only field's value and, in every case, none for a temporary field's value; unpicked fields of a partial object are not emitted.   One exception: the stored key of a write-only reference is emitted, under the key's own JSON name.", "quantifier": "all object graphs and classes", "why_tests_cant": "graphs are unbounded and nested", "anchors": ["jsonclasses/modifiers/instanceof_modifier.py:InstanceOfModifier.tojson", "jsonclasses/jsonclassify.py:tojson"]}
{"id": "C42", "title": "JSON output terminates on cyclic graphs", "statement": "tojson finishes on every finite object graph, however cyclic by references, because a class already on the path is not expanded again through a reference; objects that are held otherwise than by reference (embedded) must not be embedded in themselves: on such a graph tojson exceeds every recursion limit.", "quantifier": "all finite graphs whose embeddings are well founded, all objects and options", "why_tests_cant": "cyclic graphs of any size", "anchors": ["jsonclasses/modifiers/instanceof_modifier.py:InstanceOfModifier.tojson", "jsonclasses/ctx.py:Ctx.nextoc"]}
{"id": "C43", "title": "JSON output has exactly the visible keys", "statement": "The top-level keys of tojson's result are exactly the JSON names of the visible fields (all of them when nulls are output, the non-null ones otherwise) plus the JSON names of stored reference keys, and the value of a plain field is its own JSON form.   None is written only if nulls are asked for, by the call or else by the class; the entries are in the order of the fields.", "quantifier": "all objects, classes and settings", "why_tests_cant": "unbounded classes and objects", "anchors": ["jsonclasses/modifiers/instanceof_modifier.py:InstanceOfModifier.tojson"]}
{"id": "C44", "title": "A rejected operator prevents every effect", "statement": "If any guard of the action rejects the operator, or there are guards and no operator, then save, delete and tojson raise an unauthorized error and run no callback, no validation, no setter, no write and no output; if every guard accepts, the action is not stopped by guards.  One exception: a chain of modifiers given as a guard that fails in its eager part raises a validation error instead of the unauthorized one (nothing else runs then either).", "quantifier": "all guard lists, operators and objects", "why_tests_cant": "guards are arbitrary user code in lists of any length", "anchors": ["jsonclasses/jsonclassify.py:_can_cu_check_common", "jsonclasses/jsonclassify.py:save", "jsonclasses/jsonclassify.py:delete", "jsonclasses/jsonclassify.py:tojson"]}
{"id": "C45", "title": "save runs its phases in order and writes only valid objects", "statement": "save checks permission, then runs the create or update callbacks, then validates (unless skipped), then runs the on-save setters, then writes; if any phase raises, no later phase runs, so nothing invalid or unauthorized is written.  The on-save setters run after validation, and what they set is not checked against the modifiers that stand before them in the chain, so the object written can be one that validation would reject. delete checks permission, runs the delete callbacks, then deletes, in the same way.", "quantifier": "all guards, callbacks, validators and objects", "why_tests_cant": "arbitrary user code at every phase", "anchors": ["jsonclasses/jsonclassify.py:save", "jsonclasses/jsonclassify.py:_set_on_save"]}
{"id": "C46", "title": "On-save setters run exactly when the object is to be saved", "statement": "Preparing an object for saving runs the on-save setters and callbacks of every field that is neither calculated nor a stored key, if the object is new or modified or the field forces it; the value each of them gives is checked by that modifier before it is stored. A closed graph of saved, unmodified objects without forced fields, whose fields that hold objects carry no on-save modifier of their own, is left exactly as it is and nothing is called. Exceptions: the value is stored before the later modifiers of the same field check it, so that a failed save leaves a value that the field's type rejects; and the setter of an object inside another writes its value to the outer object's field too, which then counts as modified.", "quantifier": "all objects and classes", "why_tests_cant": "unbounded", "anchors": ["jsonclasses/modifiers/instanceof_modifier.py:InstanceOfModifier.serialize", "jsonclasses/modifiers/chained_modifier.py:ChainedModifier._sv"]}
{"id": "C47", "title": "Type strings parse to the type they denote", "statement": "Printing any type built from scalars, lists, dicts and unions in the accepted notation and parsing it gives that type back; splitting a union at top level splits exactly at the bars that are not inside brackets.  Accepted are expressions in which the value type of a dict has no comma in its text, a member of Union[...] has none unless it is a dict, and a bar is not a direct member of a bar. Other nestings of dict and Union[...] are torn at their commas; Union[int, None] as text reads None as a name, Optional of a quoted name is required, and an unquoted bar raises. Annotated with linkto, linkedby or linkedthru adds that link; parsing any text ends; names resolve to the class or enum of that name or raise.", "quantifier": "all type expressions", "why_tests_cant": "type expressions nest without bound", "anchors": ["jsonclasses/rtypes.py:union_split", "jsonclasses/rtypes.py:str_to_types"]}
{"id": "C48", "title": "Class configuration falls back setting by setting", "statement": "For every class configuration, each setting given for the class is used and each setting not given is the one of the class graph's default configuration, or the built-in default if that has none.", "quantifier": "all combinations of given settings", "why_tests_cant": "the number of combinations is exponential", "anchors": ["jsonclasses/jconf.py:JConf"]}
{"id": "C49", "title": "A field definition is decided by the last mark of each kind and extending a type never changes the original", "statement": "For every chain of marks, the write rule, read rule, storage, nullability and strictness of the field are those set by the last mark of that kind; building a longer type from a shorter one leaves the shorter one as it was.  A collection is non-null exactly when the nonnull mark appears: the link marks of a list never make it non-null.", "quantifier": "all chains of marks", "why_tests_cant": "chains are unbounded", "anchors": ["jsonclasses/types.py:Types", "jsonclasses/fdef.py:FDef"]}
{"id": "C50", "title": "Setting by keypath writes exactly the addressed item", "statement": "For every object, keypath and value, setting by keypath either raises or replaces exactly the item at that path, leaving every other field and item as it was.  Exceptions found: a path that enters a field declared with a type that has no items is silently ignored, and a list or dict as the value raises although the item has been replaced. The write rules (readonly and the like) of the fields holding the container do not apply; a path that ends with a field of another object is the same as set on that object.", "quantifier": "all objects, keypaths and values", "why_tests_cant": "paths and nesting are unbounded", "anchors": ["jsonclasses/jsonclassify.py:_keypath_set", "jsonclasses/jsonclassify.py:_set_to_container"]}
{"id": "C51", "title": "Rounding modifiers give the floor, the ceiling and a nearest int", "statement": "floor, ceil and round turn every finite float into the greatest int not above it, the least int not below it, and a nearest int with ties going to the even one; ints are unchanged.  abs gives the one of a number and its opposite that is not negative.  floor, ceil and round raise OverflowError for an infinity and ValueError for NaN, and leave values that are not numbers alone.", "quantifier": "all values", "why_tests_cant": "Ties, negatives and huge values are infinitely many.", "anchors": ["jsonclasses/modifiers/floor_modifier.py", "jsonclasses/modifiers/ceil_modifier.py", "jsonclasses/modifiers/round_modifier.py"]}
{"id": "C52", "title": "Arithmetic modifiers compute the operation they name on ints", "statement": "On ints, add(n), sub(n), mul(n) and mod(n) turn v into v+n, v-n, v*n and the remainder of v by n with the sign of n; mod(0) raises ZeroDivisionError. Exception (found while proving): pow(n) computes n to the power of v, not v to the power of n.  div(0) raises ZeroDivisionError on ints, and every other division is the float division of the value by the parameter; a negative value under pow gives the float power. Values that are not numbers are left alone.", "quantifier": "all ints and int parameters", "why_tests_cant": "The operand order and signs must hold for every pair of ints.", "anchors": ["jsonclasses/modifiers/add_modifier.py", "jsonclasses/modifiers/sub_modifier.py", "jsonclasses/modifiers/mul_modifier.py", "jsonclasses/modifiers/mod_modifier.py", "jsonclasses/modifiers/pow_modifier.py"]}
{"id": "C53", "title": "before and after compare moments", "statement": "before(p) accepts exactly the dates and datetimes that are strictly earlier than p, and after(p) exactly those strictly later, where a date is the midnight that begins it and values with offsets are compared as instants. Exceptions: when one of the two has an offset and the other has not, both raise TypeError rather than a validation failure; when p evaluates to None, before accepts everything and after raises TypeError.", "quantifier": "all dates and datetimes, naive or aware, and all points", "why_tests_cant": "the calendar order over all pairs of dates, month ends, leap days and offsets", "anchors": ["jsonclasses/modifiers/before_modifier.py", "jsonclasses/modifiers/after_modifier.py"]}
{"id": "C54", "title": "save saves only every second of the unlinked objects", "statement": "After writing, save takes the objects that were unlinked from a field since the last save out of its record and saves them, in order; but because it removes items from the list it is going through, only those at every second place are saved, and the others stay in the record.", "quantifier": "all objects, records of unlinked objects of any length, and programs", "why_tests_cant": "lists of any length; the loop changes the list it goes through", "anchors": ["jsonclasses/jsonclassify.py:save", "jsonclasses/jsonclassify.py:unlinked_objects"]}
{"id": "C55", "title": "Adding a list or dict in place to a list or dict held by an object", "statement": "For every object, every list or dict held (at any depth) by one of its data fields, and every list or dict value: appending, inserting or assigning that value as an item raises an exception (the library recurses until the interpreter's limit), so such a value can only be stored by assigning the whole field.", "quantifier": "all objects, places inside data fields, list or dict values and recursion limits", "why_tests_cant": "the claim is about every nesting, position and recursion limit", "anchors": ["jsonclasses/jsonclassify.py:__olist_add__", "jsonclasses/jsonclassify.py:__odict_add__", "jsonclasses/olist.py:OwnedList.__setitem__"]}
{"id": "C56", "title": "Saving terminates on every object graph and prepares each object once", "statement": "For every finite object graph, however cyclic, the pre-serialization that save runs finishes, in recursion whose depth is bounded by the number of objects and the nesting of the types, provided that user callables and assignments finish; and it prepares each object at most once: an on-save setter or callback is called at most once for each object and each place where it is attached to a field of the object's class, however often the objects refer to each other. This holds as long as primary keys are plain data fields that nothing changes on save. Exceptions: an object whose primary key is set on save can be prepared twice if the graph is cyclic; and a setter that stands between a preserialize marker and a later eager marker (setonsave followed by a transforming modifier) runs twice in every save.", "quantifier": "all finite object graphs, including cyclic ones", "why_tests_cant": "graphs are unbounded and cyclic", "anchors": ["jsonclasses/modifiers/instanceof_modifier.py:InstanceOfModifier.serialize", "jsonclasses/jsonclassify.py:_set_on_save"]}
{"id": "C57", "title": "match accepts exactly the strings in which its pattern occurs", "statement": "A field declared with match(pattern) accepts a string exactly when the pattern matches some part of it, at any position: the pattern is searched for, not matched against the whole string. Values that are not strings pass. A pattern that cannot be read raises when a string is checked.", "quantifier": "all patterns built from characters, classes, sequences, alternatives, repetitions and anchors, and all strings", "why_tests_cant": "patterns and strings are unbounded, and matching backtracks", "anchors": ["jsonclasses/modifiers/match_modifier.py:MatchModifier.validate"]}
{"id": "C58", "title": "securepw accepts exactly the strings with a capital, a small letter, a digit and a symbol", "statement": "securepw accepts a string exactly when it is one line of text that contains an ASCII capital letter, a small letter, a digit and one of the symbols the modifier lists. Exceptions a user would not expect: there is no minimum length beyond these four characters, and some common symbols, such as the percent sign and the caret, do not count.", "quantifier": "all strings", "why_tests_cant": "strings are unbounded", "anchors": ["jsonclasses/modifiers/securepw_modifier.py:SecurepwModifier.validate"]}
{"id": "C59", "title": "hexcolor stores six hexadecimal digits without the number sign", "statement": "On input hexcolor removes one leading number sign from a string and leaves every other value alone. Its check accepts a string exactly when it begins with six hexadecimal digits, so every colour is accepted with and without the sign. Exception: anything may follow the six digits.", "quantifier": "all strings", "why_tests_cant": "strings are unbounded", "anchors": ["jsonclasses/modifiers/hexcolor_modifier.py:HexColorModifier"]}
{"id": "C60", "title": "email accepts every well-formed address and only strings that begin with one", "statement": "email accepts a string exactly when it begins with an address: a local part, an at sign, a domain and a top-level part of at least two characters, all from the allowed characters, ending at a word edge. In particular every whole address is accepted and no string without an at sign is. Exception: arbitrary text may follow the address, for example after a space.", "quantifier": "all strings", "why_tests_cant": "strings are unbounded, and the pattern backtracks", "anchors": ["jsonclasses/modifiers/email_modifier.py:EmailModifier.validate"]}
{"id": "C61", "title": "url accepts exactly the web addresses", "statement": "url accepts a string exactly when it is a scheme (http, https, ftp or ftps in any case), a domain name, localhost or an IP address, an optional port, and an optional path or query without white space. Exceptions: the numbers of an IP address are not bounded by 255, and one newline may follow the address.", "quantifier": "all strings", "why_tests_cant": "strings are unbounded, and the pattern backtracks", "anchors": ["jsonclasses/modifiers/url_modifier.py:UrlModifier.validate"]}
{"id": "C62", "title": "Reading a configuration by keypath gives exactly the item the keypath leads to", "statement": "For every configuration and every keypath with at least one name, get gives the item that following the names leads to: keys in dicts, indexes (negative ones from the end) in lists; and it gives something other than None only in that case. Reading in two steps equals reading the dotted keypath, and below a value that is neither a list nor a dict there is None. A configuration without lists is read without an error whatever the keypath. Exceptions: a keypath without a name raises IndexError; inside a list a name that is not a number raises ValueError and an index too far below zero raises IndexError, although one that is too large gives None.", "quantifier": "all configurations and keypaths", "why_tests_cant": "configurations nest without bound and keypaths are arbitrary strings", "anchors": ["jsonclasses/uconf.py:UserConf.get", "jsonclasses/uconf.py:UserConf._get"]}
{"id": "C63", "title": "Loading config.json keeps its items, underscores keys and substitutes environment variables", "statement": "The loaded configuration has the items of the file in their places and order, with every key of every dict underscored at every depth, and every string of the form environ['NAME'] replaced by the value of that variable; other strings are unchanged. Loading fails exactly when some string names a variable that is not set, and then with KeyError. Without a file every reading gives None. Exceptions: when underscoring makes two keys of a dict equal, the value of the earlier one is lost silently; a file whose top level is not a dict raises AttributeError.", "quantifier": "all files, environments and underscoring functions", "why_tests_cant": "files nest without bound", "anchors": ["jsonclasses/uconf.py:UserConfRoot._load", "jsonclasses/uconf.py:UserConfRoot._normalize_keys_dict", "jsonclasses/uconf.py:UserConfRoot._replace_envs_dict", "jsonclasses/uconf.py:UserConfRoot._replace_envs_str"]}
{"id": "C64", "title": "An uploader name denotes one uploader, with the configured engine and settings", "statement": "After any history of requests, requesting an uploader succeeds exactly when the configuration holds a client engine (s3, alioss or localfs) and settings for that name, and gives an uploader with these. Once given, the same uploader is given for the same name for ever, and never for another name. A failed request changes nothing; a name that is not configured raises ValueError. Exception: a name that underscoring changes, such as avatarImages, cannot be requested as it is written in the file.", "quantifier": "all configurations and histories of requests", "why_tests_cant": "histories are unbounded", "anchors": ["jsonclasses/uploaders.py:request_uploader"]}
{"id": "C65", "title": "Uploaded files cannot choose where they are stored or overwrite each other", "statement": "Whatever file name a client sends, the file is stored under a name that is one path component (no slash, not . or ..), has no capitals, and consists of the random hexadecimal part followed by nothing or by an extension, the client's extension in small letters. Names made from different random parts differ. A successful upload stores the content exactly once, under that name, and gives an address ending in it; a failed one stores nothing. Exception: the alioss engine stores nothing and gives None.", "quantifier": "all client file names, random parts and contents", "why_tests_cant": "file names are unbounded strings chosen by an adversary", "anchors": ["jsonclasses/uploaders.py:LocalFSClient.upload", "jsonclasses/uploaders.py:S3Uploader.upload", "jsonclasses/uploaders.py:AliOSSUploader.upload"]}
{"id": "C66", "title": "A validator given by the user is asked once about each value and its answer decides", "statement": "A function given to validate is called once, with the value, and not at all for None; False or a message makes the value invalid, with the message given along with it if there is one, every other answer makes it valid, and an exception of the function comes out unchanged. Types given to validate make the value invalid exactly when the value, transformed by them, is not valid for them. oneisvalid accepts a value exactly when one of its types accepts it. A function given to compare is called exactly when a previous value of the field is recorded, with the previous and the new value; True or None makes the value valid, anything else invalid. Exception: functions given to oneisvalid are never called and accept nothing.  compare looks at the record of the object whose field it is on, for the validated object and for objects held by references to one object at any depth. Exceptions, shown: on a field of an object in a list or dict compare raises AttributeError, and on a reference to one object IndexError, so that validate raises these.", "quantifier": "all user functions, types, values and states", "why_tests_cant": "functions and types of users are arbitrary", "anchors": ["jsonclasses/modifiers/validate_modifier.py:ValidateModifier.validate", "jsonclasses/modifiers/oneisvalid_modifier.py:OneIsValidModifier.validate", "jsonclasses/modifiers/compare_modifier.py:CompareModifier.validate"]}
{"id": "C67", "title": "Functions given to default, transform, map, filter and fmt produce exactly the values they answer", "statement": "default gives the default exactly for None, transform and fmt the function's answer for everything except None. map calls its function once for each item, in order, and gives the list of answers; filter keeps exactly the items for which its function answers None or True, or that its types accept, unchanged and in order; both leave what is not a list alone. at gives the item at the index, from the end if negative, and raises IndexError outside the list. fmt changes only the output, neither what is stored nor what is saved. Exception: an answer that is true but not True, such as 1, drops the item in filter.", "quantifier": "all user functions, types, values and states", "why_tests_cant": "functions of users and lists are arbitrary", "anchors": ["jsonclasses/modifiers/default_modifier.py:DefaultModifier.transform", "jsonclasses/modifiers/transform_modifier.py:TransformModifier.transform", "jsonclasses/modifiers/map_modifier.py:MapModifier.transform", "jsonclasses/modifiers/filter_modifier.py:FilterModifier.transform", "jsonclasses/modifiers/at_modifier.py:AtModifier.transform", "jsonclasses/modifiers/fmt_modifier.py:FmtModifier.tojson"]}
{"id": "C68", "title": "A field with a permission is written and read only by operators that pass it", "statement": "A field with canc on a new object, or canu on one that is not new, is valid exactly when there is an operator and the types given accept it; a missing operator and a refused one are reported as such. A field with canr is output exactly when there is an operator that the types accept, and is None otherwise. The check types.getop.isthis accepts exactly the object itself, or an object of its class with an equal primary key; isobjof exactly the objects of the class. Exceptions: a function as permission makes every access by an operator raise AttributeError; two different objects of a class count as the same while both have no primary key.", "quantifier": "all operators, types, objects and states", "why_tests_cant": "who may do what must hold for every operator and state", "anchors": ["jsonclasses/modifiers/canc_modifier.py:CanCModifier", "jsonclasses/modifiers/canu_modifier.py:CanUModifier", "jsonclasses/modifiers/cancu_modifier.py:CanCUModifier.validate", "jsonclasses/modifiers/canr_modifier.py:CanRModifier.tojson", "jsonclasses/modifiers/isthis_modifier.py:IsThisModifier.validate", "jsonclasses/modifiers/isobjof_modifier.py:IsObjOfModifier.validate"]}
{"id": "C69", "title": "opby stores the operator in every field that asks for it, on new objects only", "statement": "opby on a new object stores, for every field with asop or asopd, the primary key of the operator or of the object that the field's function makes of it, in the field's stored key; no other field and no other object changes, and the operator is noted. On an object that is not new, or with None, only the operator is noted. Validation reports such a field exactly when the object is new or the field was modified and no key is stored. Exception: an operator that is not an object, such as its key, is noted and then raises AttributeError.", "quantifier": "all classes with distinct stored keys, new objects whose fields are not yet set, and operators", "why_tests_cant": "classes have any number of such fields", "anchors": ["jsonclasses/jsonclassify.py:opby", "jsonclasses/modifiers/asop_modifier.py:AsopModifier.validate", "jsonclasses/modifiers/asopd_modifier.py:AsopdModifier"]}
{"id": "C70", "title": "Callbacks on save run exactly when due and never change the value", "statement": "On save, onsave is called with the value; onwrite exactly when the object is new or the field was modified; onupdate exactly when a previous value is recorded, with the previous and the new value. None of them changes the value, whatever it answers; its exceptions come out unchanged.  This is about the object that is saved. Exceptions, shown: in objects saved along with it that it refers to, onwrite and onupdate look at the record of the saved object instead of their own, so a modified field of theirs goes unnoticed; in objects in lists or dicts they make save raise AttributeError.  Over a whole save, all that are due are called once each, in the order of the fields and of the modifiers in a field, and before the object is written; for an object neither new nor modified none is, unless its field is prepared always (fsetonsave). The whole save is proved for objects of data fields whose other modifiers do nothing on save, and callbacks that return.", "quantifier": "all callbacks, values, objects and states", "why_tests_cant": "callbacks are arbitrary and states depend on the whole history", "anchors": ["jsonclasses/modifiers/onsave_modifier.py:OnSaveModifier.serialize", "jsonclasses/modifiers/onwrite_modifier.py:OnWriteModifier.serialize", "jsonclasses/modifiers/onupdate_modifier.py:OnUpdateModifier.serialize"]}
{"id": "C71", "title": "Including a reference links the fetched objects and keeps the object's own modification record", "statement": "include(name) asks the data base for exactly the objects of that reference: by the stored key or keys if the object stores them, otherwise by the object's own key under the other side's key name (one object or several, a join table always several). When the answer is the right kind of objects, the field refers to exactly these afterwards, both sides of the relation agree for every object, is_modified and modified_fields of the object are as before the call, and no data field of any object has changed. A name that is no field raises ValueError, a field that is no reference is left alone, and an exception of the data base comes out unchanged. Exceptions (findings): the fetched objects themselves count as modified afterwards, and a reset of the unmodified object drops what was fetched and clears the fetched objects' stored keys.", "quantifier": "every set of classes, relation, heap, object, answer of the data base and fuel", "why_tests_cant": "the data base, the classes and the objects already linked are arbitrary; tests try a few", "anchors": ["jsonclasses/jsonclassify.py: include", "jsonclasses/jsonclassify.py: __setattr__"]}
{"id": "C72", "title": "persisted_modified_fields lists what is to be written", "statement": "persisted_modified_fields holds exactly the entries of the modification record that are not temporary fields; it exists if and only if every entry names a field, and otherwise reading it raises ValueError. After any history of assignments and list and dict operations on saved objects that raised nothing (with C31's exceptions), a data field that is not temporary and whose value has changed is in the list whenever the list exists. Exception (finding): after a change inside a nested list or dict, or after sorting a list of stored keys, it does not exist: reading it raises ValueError.", "quantifier": "every set of classes, heap, history of operations, object and field", "why_tests_cant": "ranges over all histories of changes", "anchors": ["jsonclasses/jsonclassify.py: persisted_modified_fields", "jsonclasses/jsonclassify.py: modified_fields"]}
{"id": "C73", "title": "Completing a partial object leaves its modification record alone", "statement": "complete() on an object that is not partial does nothing; on a partial one it leaves is_modified and modified_fields as they were, whatever the ORM did to the object, keeps the values the ORM stored, and passes on the ORM's exception. Exceptions (findings): after completing a partial saved object, assigning a different value to any of its fields raises AttributeError, leaves the field as it was and marks the object as modified; and pick and omit always raise AttributeError.", "quantifier": "every behaviour of the ORM, object, field and value", "why_tests_cant": "the ORM's behaviour is arbitrary", "anchors": ["jsonclasses/jsonclassify.py: complete, pick, omit, is_partial"]}
{"id": "C74", "title": "Random modifiers stay within their alphabet, length and bounds", "statement": "For every source of randomness: randomdigits, randomalnums and randomalnumpuncs give exactly the asked number of characters, all of the modifier's alphabet and no two the same, whatever value came in, and every such string is possible. randomint(min, max) gives an int from min up to but not including max and every such int is possible; randomfloat gives a number between the two bounds, given in either order (over the rationals). Exceptions (findings): no character ever occurs twice in a random string, so that a length above the size of the alphabet raises ValueError; and randomint never gives the upper bound and refuses equal bounds with a misleading message.", "quantifier": "every source of randomness, alphabet, length, pair of bounds and incoming value", "why_tests_cant": "the result depends on the random source; a test sees a few draws and cannot show which strings are impossible", "anchors": ["jsonclasses/modifiers/random_digits_modifier.py", "jsonclasses/modifiers/random_alnums_modifier.py", "jsonclasses/modifiers/random_alnumpuncs_modifier.py", "jsonclasses/modifiers/random_int_modifier.py", "jsonclasses/modifiers/random_float_modifier.py"]}
{"id": "C75", "title": "Conversions between text, numbers, booleans and lists", "statement": "toint of a text gives the number it denotes (white space, a sign, digits with single underscores between them) and of any other text raises ValueError; a bool becomes 0 or 1; other values stay. tostr writes an int so that toint gives it back and writes no two ints alike, and leaves what is no number or bool alone; tobool gives False exactly for None, False, zero and what is empty; tolist turns a string into the list of its characters; sqrt reports negative numbers and nan as invalid and gives the root of others; tofloat gives what float reads or raises ValueError. Exceptions (findings): text that is no number raises a plain ValueError, not a validation error; a bool written as text is not read back; tobool of the text 'false' is True.", "quantifier": "every value", "why_tests_cant": "ranges over all texts and numbers", "anchors": ["jsonclasses/modifiers/toint_modifier.py", "jsonclasses/modifiers/tofloat_modifier.py", "jsonclasses/modifiers/tostr_modifier.py", "jsonclasses/modifiers/tobool_modifier.py", "jsonclasses/modifiers/tolist_modifier.py", "jsonclasses/modifiers/sqrt_modifier.py"]}
{"id": "C76", "title": "A salted password is accepted, and nothing else", "statement": "If hashing behaves as bcrypt promises (a hash matches exactly the passwords that are the same to it), a password stored through salt is accepted by checkpw exactly for the same password, anything else is reported as invalid, and only strings are ever accepted. A password is never stored unhashed. Exception (finding): a value that goes through salt twice no longer matches the password.", "quantifier": "every hash function with the law, password, candidate and salt", "why_tests_cant": "ranges over all passwords and salts", "anchors": ["jsonclasses/modifiers/salt_modifier.py", "jsonclasses/modifiers/checkpw_modifier.py"]}
{"id": "C77", "title": "A permission that compares the operator with the owner lets the owner act and nobody else", "statement": "With types.getop.isobj(types.this.fval(name)) as permission, where name refers to one object, an operator may act exactly if the reference stands for an object of the operator's class with the operator's key. It makes no difference whether that object has been loaded or only its key is stored, nothing is fetched and nothing is changed. Everyone else gets UnauthorizedActionException, so does an action without operator or on an object that is nobody's; an operator that is no JSON object raises AttributeError. fobj gives the referred object, asking the data base only if the field is empty. Exception (finding): objects that have no key yet count as the same, so an unsaved operator may act on what belongs to another unsaved object.  isobj by itself, in any chain, refuses None before it computes the value to compare with, refuses a comparing value of None, and passes two values that stand for objects exactly if their class and key agree.", "quantifier": "every set of classes, heap, object, reference, operator and stored key", "why_tests_cant": "ranges over all objects, keys and loading states", "anchors": ["jsonclasses/modifiers/isobj_modifier.py", "jsonclasses/modifiers/fval_modifier.py", "jsonclasses/modifiers/fobj_modifier.py", "jsonclasses/jsonclassify.py: _can_cu_check_common", "jsonclasses/objref.py"]}
{"id": "C78", "title": "Equality of objects compares their content", "statement": "a == b gives True exactly if the two objects have the same content: the same class and, field by field in the order of the class, equal values, where lists are compared item by item, dicts key by key and objects again by content. It is an equivalence. Objects of different classes are never equal. If a class declares its primary key first, objects with different keys are found unequal without following any reference, so that for objects with distinct keys equality is identity, which is what the properties on links rely on. Exceptions (findings): comparing two unsaved objects whose references lead back to them never ends (RecursionError), and stored keys of references that have not been loaded are not compared.", "quantifier": "every set of classes, heap and pair of objects", "why_tests_cant": "ranges over all object graphs, including cyclic ones", "anchors": ["jsonclasses/jsonclass.py: jsonclass (dataclass)", "jsonclasses/jsonclassify.py: __getattribute__"]}
{"id": "C79", "title": "Validation leaves out no object within reach", "statement": "When obj.validate() returns without raising, every object that obj reaches over its fields, over any number of references and through lists and dicts nested to any depth, has been checked: each of its fields that is due (all fields of a new object, otherwise the references and the fields that were modified) has been given to its type chain with the value it has, and the chain and each modifier of it that takes part in validation accepted. In particular no required embedded field of any of them is None, values have the declared types, and the validators given by the user did not object. Cycles make no difference. Exceptions (findings): of two objects of one class with the same key only the first is checked; an object that was met before is accepted in a field of any class; a union of classes accepts every object whatsoever.", "quantifier": "every set of classes, object graph, mode and chain, cyclic or not", "why_tests_cant": "ranges over all object graphs and all type chains", "anchors": ["jsonclasses/modifiers/instanceof_modifier.py: validate", "jsonclasses/mgraph.py", "jsonclasses/modifiers/union_modifier.py", "jsonclasses/modifiers/chained_modifier.py"]}
{"id": "C80", "title": "What a validation error reports is so", "statement": "When obj.validate() raises a validation error, every entry of its report is true: its keypath names a place below obj that is reached over the fields that are due, list positions and dict keys, and the message is one with which a modifier declared for that very place rejected the value that is there. Nothing is reported about places that do not exist, about fields that were left out, or under the keypath of another value. Fields are named by their output names. This holds for objects nested to any depth, cyclic or not, and for reports with any number of entries (all_fields). Callables and getters of the user are assumed not to raise validation errors of their own. Exception (finding): the fields of an object that stands in a list or dict are named by the naming rules of the class that holds the list, not of its own class, so that the same error gets another name than when the item is validated itself.  A value that is not an object in a field of objects is not reported at all: validate raises an AttributeError (C80_not_an_object_refuted).", "quantifier": "every set of classes, object graph, mode and chain, cyclic or not, and every entry of every report", "why_tests_cant": "ranges over all object graphs, all type chains and all ways in which they fail", "anchors": ["jsonclasses/modifiers/instanceof_modifier.py: validate", "jsonclasses/modifiers/collection_type_modifier.py: validate", "jsonclasses/modifiers/chained_modifier.py: validate", "jsonclasses/ctx.py: nextvo, colval, raise_vexc"]}
{"id": "C81", "title": "Linking and unlinking by key in the input", "statement": "When the objects of a list of references are not loaded, set() with items {'_add': k} and {'_del': k} does to the keys exactly what the items say, in order. With the keys stored in the object: '_add' puts k last, '_del' takes out the first k, nothing else of any object changes, and the change of a saved object is recorded under the field's name. Where no keys are stored yet, '_del' does nothing and the first '_add' starts the list. '_del' of a key that is not stored raises ValueError after the items before it took effect. With a join table: the keys to link and to unlink are noted, in order, after those noted before, and no object changes. Exceptions (findings): if the objects are loaded, the list itself is also assigned and comes out empty, which unlinks the loaded objects and loses all stored keys, the added one included; and the list started by the first '_add' is not watched, so after the object is marked unmodified, further keys are not recorded as changes.", "quantifier": "every class with such a field, every list of stored int or string keys, every list of commands of any length and order", "why_tests_cant": "ranges over all histories of commands and all key lists, including repeated and unknown keys", "anchors": ["jsonclasses/modifiers/listof_modifier.py: should_special_handle, special_handle", "jsonclasses/modifiers/collection_type_modifier.py: transform", "jsonclasses/jsonclassify.py: _link_local_keys, _unlink_local_keys, _add_link_key, _add_unlink_key"]}
{"id": "C82", "title": "What tojson gives is JSON data, at any depth", "statement": "When tojson answers, every value in the answer, however deep, is in the form its declared type prescribes: a date or datetime as ISO text, an enum member by name, lowercase name or value as the type says, a list or dict item by item and in order, a union by the first of its types that accepts the value, a value the reader may not read as null, an object field by field under the JSON names, with references that lead back left out and the keys stored for references beside them; other values unchanged. So if the visible fields hold values of their types, stored keys are JSON data and formatters answer JSON data, the answer is JSON data (null, booleans, numbers, texts, lists and dicts) through and through. In particular objects that pass validation are written as JSON data when their fields are of text, number, truth value, date, enum and object types, and of lists, dicts and unions of these. Exception (finding): a field of type any is written as it is, so a valid object with a date in such a field has an answer that is no JSON data.  Finding: a reference counts as leading back when the name of its foreign field is that of the field through which its holder was reached, even if it leads to another object (C82_namesake_refuted).", "quantifier": "every class definition, every object graph (cyclic ones too), every value of every field at any depth, every choice of options and of operator", "why_tests_cant": "ranges over all types and nestings of lists, dicts, unions and objects; a test checks one nesting", "anchors": ["jsonclasses/modifiers/instanceof_modifier.py: tojson", "jsonclasses/modifiers/collection_type_modifier.py: tojson", "jsonclasses/modifiers/union_modifier.py: tojson", "jsonclasses/modifiers/date_modifier.py: tojson", "jsonclasses/modifiers/datetime_modifier.py: tojson", "jsonclasses/modifiers/enum_modifier.py: tojson", "jsonclasses/jsonclassify.py: tojson", "jsonclasses/encoder.py: JSONEncoder"]}
{"id": "C83", "title": "Calculated fields given by types read and write the field behind them", "statement": "Assigning v to a field with the setter types.this.assign(b, types.passin...) has exactly the effect of assigning to b what the steps after passin make of v; if they raise, the assignment raises and nothing changes. Through any number of such setters the one data field at the end is assigned: if its value equals the new one nothing happens, otherwise it holds the new one, no other attribute and no other object changes, and of a saved object that field alone (not the calculated ones) is added to the modified fields. Reading a field with the getter types.this.fval(b)... gives what the steps make of the present value of b, through any number of getters, so a getter that undoes its setter reads back what was assigned. A calculated field without a setter raises on assignment and changes nothing. Reading always ends if the calculated fields can be ranked so that each reads only lower ones; fields that read each other in a circle raise RecursionError whatever the recursion limit is.", "quantifier": "every class, object and value, every chain of setters and getters of any length, every sequence of steps between, every recursion limit", "why_tests_cant": "ranges over all pipelines, depths of nesting and object states; a test checks one pipeline", "anchors": ["jsonclasses/jsonclassify.py: __setattr__, __getattribute__", "jsonclasses/ctx.py: Ctx.rootctxp, Ctx.rootctx", "jsonclasses/modifiers/assign_modifier.py: AssignModifier.transform", "jsonclasses/modifiers/this_modifier.py: ThisModifier.transform", "jsonclasses/modifiers/passin_modifier.py: PassinModifier.transform", "jsonclasses/modifiers/fval_modifier.py: FValModifier.transform", "jsonclasses/types.py: getter, setter"]}
{"id": "C84", "title": "set writes exactly what the input gives", "statement": "After obj.set(**input) succeeds, each data field of obj that the input does not name holds what it held before. A field that the input names holds what its types make of the given value, unless its write rule refuses it (readonly and write-once fields with a value, write-nonnull fields given None): then it holds what it held. If set raises, each field holds either its old value or the one it would have been given, and a field not named holds its old value; set is not all or nothing, the fields before the failing one stay changed. The input has no dotted keys; if it gives the primary key, the class is not held by any field (nested input with the same class and key is otherwise about the same object, and the nested value wins).", "quantifier": "every class without user code that writes the field, every object and state, every input with plain keys, every recursion limit, success and failure", "why_tests_cant": "ranges over all class definitions, write rules, nested inputs, prior states and points of failure", "anchors": ["jsonclasses/jsonclassify.py:jsonobject_set, _set", "jsonclasses/modifiers/instanceof_modifier.py:InstanceOfModifier.transform", "jsonclasses/fdef.py:write_rule"]}
{"id": "C85", "title": "What tojson writes, the constructor and set read back", "statement": "Cls(**obj.tojson()), called anywhere and at any later time, gives an object with the same value in every visible data field that is not readonly, when the field holds text, an int, a float, a bool, a valid date, a UTC datetime in milliseconds off a whole second, a member of an enum whose input settings read its output form, None (if the field has no default), or a list or dict of such values to any depth. The same output given to set on another object of the class gives it the same values (or leaves equal ones). Reading a written value never gives any other value, and succeeds with enough recursion depth. Exceptions, all shown: None in a field with a default comes back as the default, a date in a union of text and date comes back as text, a readonly field comes back empty; for whole seconds, other time zones and finer times see C20.  Two fields whose names are written alike (zip_code and zipCode) share one entry, the later one's, and both read it back (C85_alike_names_refuted); the theorems are about fields with an entry of their own.", "quantifier": "every class, object, field type built from these types with any marks and checks, nested value of any depth, output options, and every state in which the new object is made", "why_tests_cant": "ranges over all field types, nested values and states of the receiving program", "anchors": ["jsonclasses/jsonclassify.py: tojson, __init__, jsonobject_set", "jsonclasses/modifiers/instanceof_modifier.py: InstanceOfModifier.tojson, InstanceOfModifier.transform", "jsonclasses/modifiers/collection_type_modifier.py: tojson, transform", "jsonclasses/modifiers/date_modifier.py", "jsonclasses/modifiers/datetime_modifier.py", "jsonclasses/modifiers/enum_modifier.py"]}
{"id": "C86", "title": "A class definition holds exactly what was declared", "statement": "When a class definition is accepted, its fields are those of its base class in order followed by its new ones; a field that the class declares anew takes the place of the inherited one. Each field has the types given with an equal sign, or else those of its annotation, the default value it was given, and the JSON and key names of the strategies of the class. The primary field is the last one marked primary; the calculated, setter, deny, nullify, cascade and unique fields, and those to which opby assigns the operator, are exactly those declared so, in order. Input accepts exactly the names and JSON names of fields and of the keys they store; update accepts the names of fields and of the keys they store; the name of a key leads to the last field that has it. A definition never changes afterwards and its name is refused for other classes. Exception, shown: a field with a default factory (dataclasses.field(default_factory=...)) gets the marker MISSING as its default value.", "quantifier": "every program that defines classes and uses their fields, in any order, with any base classes, declarations and naming strategies", "why_tests_cant": "ranges over all class declarations, inheritance chains and histories", "anchors": ["jsonclasses/cdef.py: CDef.__init__, field_named, _resolve_ref_names, rname_to_jfield", "jsonclasses/jfield.py: JField", "jsonclasses/jsonclass.py: jsonclass", "jsonclasses/cgraph.py: put"]}
{"id": "C87", "title": "The two sides of a relation find each other", "statement": "In whatever order classes are defined and fields are used, the other side that the library works with for a linked field is the first field, in the class it refers to, that is declared as such (it refers back and is linked by the key of the field, or is the field whose key is named); it is none if there is none. Two fields declared as the two sides (linkto and linkedby, or linkedthru and linkedthru), with no third field declared with either, find each other, and so meet what the theorems on linked objects (C34 to C38) ask of a relation. Exception, shown: this holds as long as no types object is in fields of two classes. A subclass shares the types objects of inherited fields, and defining it makes the fields of the base class look for fields that refer to the subclass; if the field was not used before, it has no other side from then on, and links made through it are one-sided. In general the other side is looked up for the last class that has the types object, and the first result is kept.", "quantifier": "every program that defines classes, with or without base classes, and looks up linked fields, in any order", "why_tests_cant": "the result depends on the order of definitions and first uses; tests see a few orders", "anchors": ["jsonclasses/jfield.py: JField.foreign_field, foreign_class, _do_resolve_foreign", "jsonclasses/cdef.py: CDef.__init__, rfield", "jsonclasses/fdef.py: FDef.cdef, inst_cls, item_types"]}
{"id": "C88", "title": "What a validation error of the constructor or set reports is so", "statement": "When the constructor or set, called with keys without dots, raises a validation error, every keypath and message in it is accounted for. Either the keypath is that of a place in the input (a field, an item of a list or an entry of a dict, at any depth, given or filled in because nothing was given), written with the outside names of fields, and the message is the one with which a modifier declared for that place refused the value that the modifiers before it had made of the input there: it raised, or it is followed by an eager mark and rejected what it made. Or the message is 'key is not allowed' and names a key of the input that is known neither as a field nor as a key to the class the input at that place is for, where that class or field refuses unknown keys. Trying the alternatives of a union never raises a validation error of its own. Exceptions, shown: an unknown key is reported with the Python names of the fields on the way, other errors with their outside names; the fields of a nested object have the outside names that the class of the object around it gives; an object inside the input is first made without input, so that input which its class accepts by itself can be refused where it is nested, with a keypath that leaves out where it is; with a dotted key the keypath is that inside the inner object.", "quantifier": "every program of tame classes that check late, with user code that raises no validation errors of its own and changes no object's class; every class, object, input of any depth, and state", "why_tests_cant": "ranges over all nestings of declared types, all inputs and all user callables", "anchors": ["jsonclasses/modifiers/instanceof_modifier.py: transform, _strictness_check, _fill_default_value", "jsonclasses/modifiers/collection_type_modifier.py: transform", "jsonclasses/modifiers/union_modifier.py: transform", "jsonclasses/modifiers/chained_modifier.py: transform", "jsonclasses/ctx.py: nextvo, colval, default, raise_vexc"]}
{"id": "C89", "title": "Nested input becomes the objects it describes", "statement": "After a successful constructor call or set, called with keys without dots, a data field of the object that the input names, and whose write rule takes it, holds what the input describes, to any depth. A dict that gives no primary key, where an object is declared, has become a new object of the declared class, made for this call; each of its data fields first had its default and then took its entry in the dict, by its write rule and through its own declared types; entries that are absent, or that the write rule refuses, leave the default, which the constructor computes once more and set does not. A list has become a list of as many items, and a dict a dict with the same keys in the same order, each item what the input at its place describes. All of this is so at the end of the call: nothing that the call does later, for other fields, items or objects, changes what any of these objects holds. Exceptions, shown: two dicts of the input for one class with the same primary key are one object, whose fields the later one overwrites; the defaults of an object that stands in the input are computed twice, and the second time without the object, so a default that is computed from the object is lost, whether or not the input gives the object a key (C89_default_keyed_refuted); a write-once field with a default keeps it (C30).", "quantifier": "every program of tame classes that check late, with user code that leaves the fields in question and the classes of objects alone; every class, object, input of any depth without keys for the nested objects, and state; every depth", "why_tests_cant": "ranges over all nestings of declared types, all inputs of any size and depth, all user callables and all object graphs reached before the call", "anchors": ["jsonclasses/modifiers/instanceof_modifier.py: transform, _fill_default_value", "jsonclasses/modifiers/collection_type_modifier.py: transform", "jsonclasses/modifiers/chained_modifier.py: transform", "jsonclasses/jsonclassify.py: __init__, set, _set", "jsonclasses/mgraph.py: put, getp", "jsonclasses/ctx.py: nextvo, colval, default"]}
{"id": "C90", "title": "A tree of objects survives the trip through JSON, to any depth", "statement": "If an object is written with tojson and the output is given to the constructor of its class, in whatever state of the program, then the new object holds in every data field that was shown and is not read-only a copy of what the first one holds. A value of the kinds of C85 is the same value. Where the types are for an object, and the object is of the declared class and has no primary key (or None as its key), the copy is a new object of that class, made for this call, and every data field of it that was shown, and that such an object takes input for, is in turn a copy: the same value or one that Python calls equal (the field's default may be equal to it), None if it was None and the field has no default, and, if the field has no default or an empty one, copies of objects, lists and dicts. A list is copied item by item in the same order, a dict entry by entry under the same keys. This holds to any depth of nesting. Given to set of another object of the class, the output assigns such copies. Exceptions, shown: a write-once field with a default, in a nested object, comes back with its default; an object without a key that stands at two places comes back as two objects; two objects with the same primary key come back as one.", "quantifier": "every program of calm, tame classes that check late, with user code that leaves the fields in question and the classes of objects alone; every object, options of tojson, states before writing and before reading; every depth", "why_tests_cant": "ranges over all nestings of declared types and all object trees of any size and depth, all options and states", "anchors": ["jsonclasses/jsonclassify.py: tojson, __init__, set", "jsonclasses/modifiers/instanceof_modifier.py: tojson, transform", "jsonclasses/modifiers/collection_type_modifier.py: tojson, transform", "jsonclasses/modifiers/chained_modifier.py: tojson, transform"]}
{"id": "C91", "title": "Looking at objects does not change them", "statement": "Calls of tojson, validate and is_valid, however many, of whichever objects and in whatever order, and whether they answer or raise, leave every object as it was: its fields, stored keys and links, its record of modifications and previous values, and the fields picked for it. Each of them answers what it would have answered as the first call. This holds for programs whose callables change no object; a validator that assigns to an object makes is_valid change the object and its own next answer (C91_callable_refuted).", "quantifier": "every program of calm, tame classes, with read guards that look at one value; every object graph and state; every finite history of such calls with every option", "why_tests_cant": "ranges over all object graphs, classes and histories of calls, including those that raise", "anchors": ["jsonclasses/jsonclassify.py: tojson, validate, is_valid, _can_read_check", "jsonclasses/modifiers/instanceof_modifier.py: validate, tojson"]}
{"id": "C92", "title": "dumps with JSONEncoder writes objects at any places of a value", "statement": "If json.dumps(v, cls=JSONEncoder) answers, it has written JSON data only. An object whose tojson output is JSON data is written as that output. A value built of lists, dicts, texts, numbers, truth values, None and objects, to any depth, is written the same with every object replaced by its tojson output; if the output of an object has objects in it (fields without a type), these are written in the same way. Writing changes no object. Exceptions: a date or an enum member that does not stand in an object's field is a TypeError (C92_date_refuted), and an object that is met again inside its own output is a ValueError, though tojson answers (C92_circular_refuted).", "quantifier": "every value of any nesting, every program (calm and tame for the last three claims) and state", "why_tests_cant": "ranges over all nestings of values, all classes and object graphs", "anchors": ["jsonclasses/encoder.py: JSONEncoder.default", "jsonclasses/jsonclassify.py: tojson"]}
{"id": "C93", "title": "set with objects is the same as assigning them, and keeps both sides in step", "statement": "obj.set(k1=v1, ...) with values that need no conversion, which may be objects and lists of objects, does exactly the assignments of these values to the fields, in the order in which the class declares the fields, then gives an empty list to each list of references that is declared never to be None, is None and was not given, and does nothing else: the outcome, the errors and the state of all objects are the same. So, whenever each given value is right for its field, after set the two sides of every relation refer to each other, stored keys are the keys of the objects referred to, the given objects are the ones referred to in the given order, and objects that are no longer referred to are recorded as unlinked on both sides.", "quantifier": "every program, object, state and input of finished values of any nesting; every relation between the classes", "why_tests_cant": "ranges over all classes, object graphs, relations and inputs", "anchors": ["jsonclasses/jsonclassify.py: set, _set, __setattr__", "jsonclasses/modifiers/instanceof_modifier.py: transform, _fill_default_value_for_field, _strictness_check"]}
{"id": "C94", "title": "An object made with objects is linked on both sides", "statement": "cls(k1=v1, ...) with values that need no conversion, which may be objects and lists of objects, makes an object whose attributes are all None (stored key lists: empty), changes no other object by that, and then does exactly the assignments of the values and defaults, in the order of the fields; if an assignment raises, the constructor raises the same. So when the given values are right for their fields, the two sides of every relation agree for all objects including the new one, stored keys are the keys of the objects referred to, the new object refers to the given objects in the given order, and objects taken away from others are recorded as unlinked. Exception: the primary key has to be declared before the reference fields; otherwise the objects given store None as the key of the new object (C94_key_after_refuted).", "quantifier": "every program, class, state and input of finished values; every relation whose fields are declared after the primary key", "why_tests_cant": "ranges over all classes, object graphs, relations and inputs", "anchors": ["jsonclasses/jsonclassify.py: __init__, _set, __setattr__, __link_field__", "jsonclasses/modifiers/instanceof_modifier.py: transform, _fill_default_value"]}
{"id": "C95", "title": "replacer replaces the matches and nothing else", "statement": "For a string s, the modifier replacer(pattern, replacement) gives the text that results when s is read from left to right and cut into copied characters and replaced parts: every replaced part is a match of the pattern where it stands in s, where a character is copied no match begins (except an empty one right behind an empty match), and there is never a second empty match at one place. So a string without a match stays as it is; for a pattern that is one character out of a class exactly these characters are replaced, one by one; for runs of such characters every run is replaced once, as a whole. Values that are not strings are returned as they are. A malformed pattern or replacement raises for every string, matched or not. The replacement is not searched again, so the modifier need not be idempotent (C95_again_refuted).", "quantifier": "every pattern tree, replacement function, string and state", "why_tests_cant": "ranges over all patterns and strings", "anchors": ["jsonclasses/modifiers/replacer_modifier.py: ReplacerModifier.transform"]}
{"id": "C96", "title": "fmtd formats the moment of a date or datetime", "statement": "types.date.fmtd(f) writes a date as f formats the midnight that begins it, in UTC. types.datetime.fmtd(f) writes a datetime as f formats the same clock reading called UTC and cut to milliseconds. fmtd alone formats a date or datetime as it is, reads a string as a datetime field does (raising ValueError when it cannot), and writes every other value, None among it, unchanged. Exceptions: an offset other than UTC is not converted, and behind the datetime type a datetime with an offset and no fraction of a second raises ValueError, so a field that has read a whole second from JSON cannot be written (C96_offset_refuted).", "quantifier": "every valid date and datetime, format, formatting function, value and state", "why_tests_cant": "ranges over all dates, times, offsets and formats", "anchors": ["jsonclasses/modifiers/fmtd_modifier.py: FormatDatetimeModifier.tojson", "jsonclasses/modifiers/date_modifier.py: tojson", "jsonclasses/modifiers/datetime_modifier.py: tojson", "jsonclasses/modifiers/chained_modifier.py: tojson"]}
{"id": "C97", "title": "uploader stores each file once and gives its address", "statement": "Over any history of fields with uploader(name) being given values: None stays None and stores nothing; every file is stored exactly once, with its content, under a name that no other file of the history has, and the field gets an address that ends in that name, different from all other addresses given; a call that raises stores nothing, and nothing stored before is changed. With uploader(function) the function is asked once about every value other than None and its answer is the value. Exceptions: the engine alioss gives None and stores nothing, and the address cannot be given to the field again: it raises AttributeError (C97_read_back_refuted).", "quantifier": "every configuration, history of calls with any names and values, and source of random texts that does not repeat", "why_tests_cant": "ranges over all histories and configurations", "anchors": ["jsonclasses/modifiers/uploader_modifier.py: UploaderModifier.transform", "jsonclasses/uploaders.py: request_uploader, S3Uploader.upload, LocalFSClient.upload"]}
{"id": "C98", "title": "mongoid keeps ids and makes new ones", "statement": "A field with mongoid keeps every value it is given; given None it gets a new id text, and no two ids made over a history of calls are the same.", "quantifier": "every history of values; every source of ids that does not repeat", "why_tests_cant": "ranges over all histories", "anchors": ["jsonclasses/modifiers/mongoid_modifier.py: MongoIdModifier.transform"]}
{"id": "C99", "title": "cross_fetch finds the object that agrees with this one", "statement": "cross_fetch(cls, this_key, that_key) asks the back end once for an object of the class whose that_key (this_key if none is given) has the value of this_key on the object being set, and gives the object found; if none is found it is a validation error 'cross fetch failed', and errors of the back end pass through. The value given to the field plays no part.", "quantifier": "every class, keys, object, value, state and back end", "why_tests_cant": "ranges over all back ends and states", "anchors": ["jsonclasses/modifiers/cross_fetch_modifier.py: CrossFetchModifier.__init__, transform"]}
{"id": "C100", "title": "Extending a list by the list of another object", "statement": "For a list of data held by a field, o.a.extend(p.b) with the list of another object, or another list of the same object, does exactly what extend with its items does, whatever the lengths. Exception, shown: for references with one owner, user1.posts.extend(user2.posts) returns normally but moves only every second post; the others end up in both lists and keep their author (C100_reference_refuted).", "quantifier": "every program, class, state, pair of attributes that hold lists, and number of items that are no lists or dicts", "why_tests_cant": "ranges over all states and list lengths; the effect depends on what the notifications do to the argument while it is walked over", "anchors": ["jsonclasses/olist.py: OwnedList.extend", "jsonclasses/jsonclassify.py: __olist_add__, __link_field__, __unlink_field__"]}
{"id": "C101", "title": "Assigning a stored key", "statement": "Assigning to the attribute that stores the key of a reference, or the keys of a list of references, does nothing if the value equals the stored one. Otherwise it stores the value, and the reference keeps exactly those of its objects that the value names: none for a single reference, and for a list those with a listed key, in the order of the keys. The two sides of the relation agree afterwards, objects that are let go are recorded as unlinked on both sides, and no other object gains or loses a link. Over histories that mix such assignments with assignments and list operations on the references, the two sides agree throughout. Exceptions, shown: the assigned list of keys is not watched, so later changes to it do not mark the object as modified (C101_unwatched_refuted); and after None has been assigned to a list of keys, appending to the reference raises TypeError (C101_none_refuted).", "quantifier": "every set of classes, relation, state whose two sides agree, assigned value, and history of such operations of any length", "why_tests_cant": "ranges over all object graphs and all histories; the assignment recurses through the reference to the other side and back", "anchors": ["jsonclasses/jsonclassify.py: __setattr__ (local keys), __unlink_field__, __olist_add__"]}
{"id": "C102", "title": "The text of a validation error tells what failed", "statement": "The text of a ValidationException is the heading followed by one line per entry of keypath_messages, in order, with its keypath and message. If keypaths have no quotes and messages no line ends, two errors with the same text have the same entries. Exception, shown: with line ends in messages, an error with one entry and one with two can have the same text (C102_line_end_refuted). A UniqueConstraintException has, for every field it is given and for no other, the given message, or the standard one if the message is missing or empty.", "quantifier": "every dict of keypaths and messages of any size; every field, list of fields and message", "why_tests_cant": "ranges over all texts and numbers of entries; that the text decides the entries is a statement about all pairs of errors", "anchors": ["jsonclasses/excs.py: ValidationException, UniqueConstraintException"]}
{"id": "C103", "title": "A save prepares every object in reach", "statement": "If preparing an object for saving does not raise, then every object that the saved one leads to, at any distance and through any cycles, has been prepared: a callable that sets fields on save, or is called back on save, is called at least once for each of these objects and each field where it is attached, if the object is new or modified or the field forces it. An object leads to others through its references, embedded objects and lists of them, and, if it is new or modified, through all its fields. With C56: if the saved object leads to all objects there are and the callable is due wherever it is attached, it is called exactly once for each. Exceptions, shown: a new object in a list of lists of an object that is not modified is not prepared (C103_list_of_lists_refuted); if the saved object refers to a single other one that has a field set on save, the value passes through the reference of the saved object, which moves it to the end of the other one's list (C103_order_of_others_refuted), and leaves the reference holding that value if it is then refused (C103_number_for_author_refuted). The theorem is about saved objects that refer to others by lists and embedded objects.", "quantifier": "every program of tidy classes with calm callables; every object graph of any size and shape in which no two objects of a class have the same key, every saved object, callable and state", "why_tests_cant": "ranges over all graphs of objects; whether an object in a far corner is reached depends on the marks made everywhere before", "anchors": ["jsonclasses/jsonclassify.py: _set_on_save", "jsonclasses/modifiers/instanceof_modifier.py: serialize", "jsonclasses/modifiers/chained_modifier.py: serialize, _sv", "jsonclasses/modifiers/collection_type_modifier.py: serialize", "jsonclasses/fdef.py: is_inst, is_ref", "jsonclasses/mgraph.py"]}
{"id": "C104", "title": "A missing value passes through what does not ask for one", "statement": "Every modifier that does not ask for a value lets None through, wherever it stands in a chain and whatever its parameters are. Checking None succeeds if no modifier of the chain is required, present, presentwith, presentwithout, invalid, oneisvalid, validate with a chain, compare, canwrite, isthis, isobjof, asop or neq. Taking None as input gives None if in addition none is default, transform with a chain, this, passin, getop, nonnull or tobool. Outputting None gives None unless the chain has fmt with a chain or a read rule; preparing it for saving gives None unless the chain has setonsave, onsave, onwrite, onupdate or preserialize. In none of these cases is a callable called or anything changed. inverse turns a bool over and leaves anything else; wrapintolist wraps anything but None. Exceptions, shown (C104_exceptions_refuted): neq(None) refuses None; tobool makes it False; a list marked nonnull makes it an empty list; padstart, padend, insertat and replace call callables they are given as parameters even if the value is None.", "quantifier": "every chain of any length and nesting of the modifiers not listed, all their parameters, all callables, every state", "why_tests_cant": "ranges over all chains of all modifiers with all parameters, user callables included", "anchors": ["jsonclasses/modifiers/*.py: validate, transform, tojson, serialize", "jsonclasses/modifiers/chained_modifier.py"]}
{"id": "C105", "title": "Objects described inside the input are linked on both sides", "statement": "If the constructor or set, called with keys without dots, is given input in which the objects of references are described by dicts (or given as they are), nested to any depth, and the call succeeds, then for every relation both sides agree afterwards, the new objects included: whoever refers to an object through one side is referred to by it through the other. This holds also if a nested dict itself describes something else for the way back. A constructor call with dicts for a reference makes one new object of the declared class for each, the reference holds exactly these, each once, and each refers back to the object made. Objects that existed before keep their class, and if none of them is in the input, exactly their links. The theorems are about relations that do not store a list of keys, input that names no stored keys and, inside, no primary keys. Exception, shown (C105_twice_refuted): two dicts with the same primary key in one list are one object, which the list holds twice; taken out once, it no longer refers back although the list still holds it.", "quantifier": "all programs whose fields are data, lists or dicts of data, one object or lists of objects; all relations between their classes that store no list of keys; all input of any size and depth; all heaps where the relation is sound; all amounts of fuel", "why_tests_cant": "ranges over all class graphs and input trees, where each new object is linked while its owner is still being filled", "anchors": ["jsonclasses/modifiers/instanceof_modifier.py: transform", "jsonclasses/modifiers/collection_type_modifier.py: transform", "jsonclasses/jsonclassify.py: __setattr__, __link_field__"]}
{"id": "C106", "title": "The key an object is stored under is known until it is saved again", "statement": "Once an object is marked as saved, the previous key that a back end reads to find the stored record stays the key the object had at that moment, whatever is done to it and to other objects afterwards: any number of changes of the key, changes back, links, list and dict operations, and operations that end in an exception. Reading it never fails. While the object is new, and again right after it is marked as saved, it is the current key. This is so for every class whose primary field is declared with types.primary, wherever that stands in the chain, also if the class does not record changes for reset.", "quantifier": "all well-formed classes, all heaps, all histories of any length of assignments and list and dict operations on any objects, all amounts of fuel", "why_tests_cant": "ranges over all histories on all objects, some of which change the object through its relations", "anchors": ["jsonclasses/jsonclassify.py: _previous_id, __setattr__, _mark_unmodified", "jsonclasses/types.py: primary"]}
{"id": "C107", "title": "Case, replacement, length and character checks do what their names say", "statement": "toupper and tolower change the case of every letter and nothing else; tocap makes the first character a capital and all others small; totitle does the same with every word, where a word starts at each character that does not directly follow a letter. replace puts the new text for every occurrence of the old one, leftmost first and never inside what it has put, and there is only one such result; an empty old text is found before each character and at the end; an old or new that is no text raises TypeError. len gives the number of characters or items. alpha, digit, numeric and alnum accept exactly the text that is not empty and consists of letters, digits, digits, or both. Values that are no text are left alone and pass. (Letters and digits are the ASCII ones.)", "quantifier": "all strings, lists, other values and parameters", "why_tests_cant": "unbounded strings and parameters", "anchors": ["jsonclasses/modifiers/replace_modifier.py", "jsonclasses/modifiers/toupper_modifier.py", "jsonclasses/modifiers/tolower_modifier.py", "jsonclasses/modifiers/tocap_modifier.py", "jsonclasses/modifiers/totitle_modifier.py", "jsonclasses/modifiers/len_modifier.py", "jsonclasses/modifiers/alnum_modifier.py", "jsonclasses/modifiers/alpha_modifier.py", "jsonclasses/modifiers/digit_modifier.py", "jsonclasses/modifiers/numeric_modifier.py"]}
