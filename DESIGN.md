# Formal model of dtfabric: design

Source: libyal/dtfabric, version 20251125, in /repo (read only, never executed).
Prover: Coq 8.16.1, standard library only.

## 1. Shape of the model

Shallow functional model, one Gallina function per Python function, branch by
branch. Exceptions are values (`Raise e` with the Python exception class),
diverging loops are `OutOfFuel`. Mutable Python objects (contexts, registries,
enumerations, structure definitions with their size cache) are threaded as state
and returned on every path, including the failing ones.

| File | Models |
| --- | --- |
| `Base.v` | result type, Python ints, slices, strings |
| `PyVal.v` | Python values, `==`, attribute access |
| `Ieee.v` | IEEE 754 single/double conversion used by `struct` |
| `PyStruct.v` | the `struct` module for the formats dtfabric generates; `byte_operations.py` |
| `DataTypes.v` | `data_types.py` |
| `Registry.v` | `registry.py` |
| `ClassFactory.v` | `runtime/runtime.py` |
| `Values.v` | `StructureMap.CreateStructureValues`, that is calling the class with arguments |
| `Lookups.v` | `EnumerationMap.GetName` and `FormatMap.layout` |
| `ClassText.v`, `Python.v` | `runtime/runtime.py`: the text of the generated class; `exec` of it and calls of the class, for the fragment of Python it is written in |
| `DataMaps.v` | `runtime/data_maps.py` |
| `Yaml.v`, `Reader.v` | `reader.py` over parsed YAML values |
| `Validator.v` | `scripts/validate_definitions.py` |
| `Fabric.v` | `runtime/fabric.py` and creating maps by name: reader, registry and maps together |
| `Codec.v` | Python's ASCII, Latin-1, UTF-8, UTF-16 and UTF-32 codecs with strict errors, for C58 and as witnesses |

Environment (`oracle` record, an argument of every theorem, not an axiom): host
byte order, evaluation of a Python expression in a namespace, whether an
expression parses, string encode/decode. Theorems quantify over all oracles and
state what they need of them as hypotheses; concrete oracles witness them.

Specifications live in `Spec*.v` and do not use the mapping functions. Proofs
live in `*Proofs.v`. Property theorems live in `Prop_*.v`, each closed by
`exact`, followed by `Print Assumptions` and an `Example` meeting the hypotheses.

## 2. Plan per property

| Id | Model and proof plan |
| --- | --- |
| C01 | struct decoding vs. positional sum over bytes; induction on bytes |
| C02, C03 | encode/decode inverse by induction on the number of bytes |
| C04 | bit-level IEEE conversion, arithmetic on exponents; rounding by comparing distances to all finite singles and doubles (`SpecRound.v`) |
| C05-C07 | case analysis of the value maps; permutation of 16 bytes |
| C08 | case analysis per fixed-size map |
| C09, C10 | induction over the nested map with loop lemmas parametric in the member mapper |
| C11 | induction over definitions, byte size against consumed size |
| C12 | induction over the member list, one unpack vs. many |
| C13-C18 | declarative layout grammar, soundness and completeness |
| C19-C21 | search lemmas over aligned positions, codec hypotheses |
| C14-C19, C21 | `SpecAttributes`: conditions, supported values, data sizes, numbers of elements and composite types are read off the attributes of the definitions, so that the helpers of the model (`has_data_size`, `has_number`, `member_cond`, `member_values`, `truthy_str`, `is_composite`, `sequence_is_linear`) have to agree with them |
| C22 | induction over the nested structure; `sizes_agree` says that size expressions give the same while folding |
| C23 | case analysis of the group mapper |
| C24 | modular arithmetic |
| C25 | depth guard, induction on nesting |
| C26 | fuel sufficiency from a bytes-left measure; divergence witness for all fuels |
| C27 | closure of the exception set under the combinators; witnesses for the exceptions that escape |
| C28 | context-free semantics equals mapping in any clean context |
| C29, C30 | suspension invariant relating the saved state to the one-shot run, for structures, stand-alone sequences and groups with a linear base; bounds on hints by induction over nested structures |
| C31-C33 | invariants over histories, refinement to finite maps |
| C34, C35 | invariants over histories, cache coherence |
| C36-C39, C45 | induction over document lists, inversion of every reader callback |
| C40 | character-level validation against a grammar |
| C41 | induction over file lists; for what is accepted the specification of C46 |
| C42, C43 | inversion of map creation; C42 for elements names the composite types itself (`SpecAttributes`) |
| C44 | frame condition on the values of the context |
| C46 | declarative reading of documents (`SpecDescribe.v`); an equivalence per reader method; registry invariant |
| C47 | values as rational numbers; equivalence by induction over tuples |
| C48 | reference reading (`SpecReads.v`) in terms of definitions only; equivalence with mapping by induction over definitions |
| C49 | lookup in the registry built by reading (C46), change of representation `typed` against the relation `same`; composition |
| C50 | C46, C49, C51 and C48 composed; well-formed definitions used with care are `regular` |
| C51 | inductive `mappable` (`SpecMake.v`), equivalence with success of creation by induction over definitions and overrides |
| C52 | lexical automaton over the class text; a text that is harmless leaves it inside the docstring; reading the lines gives the class; case analysis of the names in the constructor; for the documentation `SpecDoc` and induction over the description |
| C53 | from C09, C10 and C26: a value on the cut stream would be the value on the whole one, with a window beyond the cut; any other error would persist |
| C54 | values a definition can hold (`SpecFits.v`, no bytes); every value that fits is stored by some bytes, then C48 and C22; conversely what is read fits |
| C55 | digits and characters parsed back by induction over the decimal digits; induction over definitions for the size |
| C56 | slices of the longer stream; the loops of scans, sequences and structures keep the shift of their offset, by induction over maps |
| C57 | maps up to byte orders that do not matter (single bytes, elements of streams) are the same on both hosts, by induction over definitions; such maps behave the same, by induction over maps |
| C58 | decoding after encoding and encoding after decoding, by induction over texts and byte strings; an encoded text is a list of pieces of one size of which the null piece stands for the null character; then C20 and C21 |
| C59 | induction over definitions: each map has constants c and k, c + k at most twice the size of the definition, such that values have at most c + k * n parts; elements take up a byte each by a second induction, over which definitions occupy space |
| C60 | reordering leaves what is found under each key, and so everything a document describes (SpecDescribe), unchanged; by C46 that is what is read |
| C61 | what a document describes depends on the definitions before it only through what names stand for; more definitions change that only for aliases that are names as well, fewer not if those referred to remain |
| C62 | `CreateStructureValues` binds arguments as Python does for the generated constructor; what mapping gives and what fits (C54) has one value for each member, and so can be made |
| C63 | what a document of a plain file describes (C46, C49) is the definition its map has; adding values one by one keeps all numbers, in order |
| C64 | a value and the definition determine each reading (C48) byte by byte: induction on the reading, with the number of bytes of each part equal in both streams before the next part is compared; numbers of a size, UUIDs and texts are stored in one way only |
| C65 | readings (C48) of members in namespaces that differ only in attributes nobody looks at are the same: induction on the reading; the readings of `ms ++ more` are those of `ms` and then of `more`, so the shorter definition reads the first part; for the next member, a type without expressions reads the same in every namespace |
| C66 | `SpecShort.lacks` says independently of maps and loops where bytes are missing; that mapping fails with ByteStreamTooSmallError iff `lacks` holds is shown by induction on the definition with the same cases as C48 (the prefix that was read is a reading by C48, the missing part is the induction hypothesis); together with C26 (it ends), C27 (no other error) and C48 (a value iff a reading) the three outcomes exclude one another and cover everything |
| C67 | `SpecWrites.writes` says independently of maps, loops, struct formats and contexts which bytes a definition describes for a value; single numbers by the facts on packing of C02-C06, streams and strings by C19-C21, sequences and structures written at once through the tokens of their struct format, composite structures by induction over the member loop; the induction on the definition covers the copies with inherited byte order |
| C68 | the same induction with the outcome of every map: bytes, None with a construct that `writable` excludes, FoldingError, or MappingError with a size expression |
| C69 | folding is `SpecWrites.writes` (C67); a size expression that sees the changed member can only make folding fail, it does not change the bytes of a stream, so that the bytes of a member do not depend on the namespace; induction over the members before and after; the width by induction on `stores` and the sizes of C11; for the patch, C22 gives the bytes of the mapped value and `reads` that its floats and UUIDs are proper |
| C70 | mapping is `SpecReads.reads` (C48); a reading depends only on the bytes it takes (no structure groups), so the members before are read alike; the members after are read alike by `reads_alike` of C65 with namespaces that differ in the value of the attribute only |
| C71 | mapping is `SpecReads.reads` (C48); members without expressions are read alike in any structure (the name of a copy that is not a structure is not part of its value); the other members are read alike by `reads_alike` of C65 with namespaces that differ in the regrouped attributes only |
| C72 | mapping is `SpecReads.reads` (C48); `unnamed` erases the names of a definition, `anonymous` those of a value; by induction over the reading a definition with the same `unnamed` has a reading with the same `anonymous` value: byte orders, sizes and comparisons do not depend on names, and conditions are absent |
| C73 | mapping is `SpecReads.reads` (C48); consecutive elements and consecutive members are the same readings because the type they are read as is the same but for its name (`unrolled_type`), expressions are absent, and each element starts inside the stream since it takes up a byte (C59) |
| C74 | mapping is `SpecReads.reads` (C48); every reading of a sequence is one of consecutive elements, and these are a reading of whatever sequence asks for them (`SpecExtent.asks_for`); a stream is read as the bytes in its window, for which `asks_for_bytes` says when a definition asks for them |
| C75 | mapping is `SpecReads.reads` (C48); consecutive elements are read as any two runs of them; `asks_for` and `asks_for_bytes` of C74 say which elements or bytes each of the three definitions asks for, and C74's lemmas turn a run into a reading of whatever definition asks for it |
| C76 | `SpecHeed.looks_only_at` says that an expression depends on some names only; simulation of two runs of every map in contexts that agree on these names, where a structure stored under another name does not count |
| C77 | case analysis on the map (`SpecRequest`: read in one piece, searching, single, all others): the check of the size comes after the size is stored, and the size does not depend on the bytes |
| C78 | `SpecTurn`: `turned` exchanges the byte orders of a definition, `mirrored` says what becomes of the bytes; induction on the reference writing (C67) and on `fits` (C54), with the facts that sizes, names, depth, regularity and mappability (C51) do not depend on byte orders |
| C79 | Two structures that differ in one member (`in_place_of`: same name, same condition), a stream in the one and any type in the other. Proved from the reading relation: the members before are read alike, the bytes of the stream are a window of the byte stream, moving (C56) and windows (C10) carry the mapping of the type into the structure, C76 says that the scope of the structure does not matter to it, and C70 that the members after do not see the difference. Padding in the type refutes it. |
| C80 | `SpecInline`: `plain` removes what says how a definition was written down (names of types that are not structures, aliases, descriptions, in place or by reference). Induction on the reference reading (C48), on the reference writing (C67) and on `mappable` (C51): none of them depends on it. |
| C81 | `SpecFilter`: `relaxed` removes the supported values of members at every depth, `within` says that every member that a value has has a supported one. Two inductions on the reference reading (C48); removing supported values keeps definitions of regular form and mappable (C51); one on the reference writing (C67) for folding. Members that can be None although they are there (UUIDs of native order, structure groups) must not list supported values (`listed`). |
| C82 | `SpecVariant`: `those_there` are the members whose value is not None, without their conditions, `having` their attributes. Induction on the members of the reference reading (C48), for both structures at once; the namespaces of the two differ in attributes that are not there (`reduced_env`), at which the types of the members that are there must not look (`does_without`). The structures need not be of the same kind: without the conditional members a structure may be read in one go. |
| C83 | `SpecEnlarge`: `enlarged d d'` relates definitions that differ in further structures of groups without default, in a default that was added and in the order of structures, at any depth. Induction on the reference reading (C48) of the first; that there is a map for the second gives, by C51, that the values which its structures list for the identifier are different, and equality of values (transitive through an identifier that was read) then leaves one structure to select. |
| C84 | `SpecRecords`: `in_a_row` is the loop of the caller (map, advance by `byte_size`), a relation over lists of definitions, maps, external values, values and sizes. Induction on the list: writing by C54, reading by C22, cuts by C10 and C53, streams put together by C09 and C56. |
| C85 | `SpecViews`: the two halves of a number and the same type in the other byte order (`mirrored`). Both definitions are turned into the reading relation of C48, where what is read is an arithmetic function of the bytes; the rest is arithmetic of base 256 numbers, and that a window of a reversed stream is the reversed window. |
| C86 | `SpecViews`: `made_of` cuts bytes into numbers. Both definitions are turned into the reading relation of C48; induction on the elements read, and on their number for the way back; bytes are made of numbers in one way only. |

Properties that turn out false of the faithful model get a `..._refuted`
theorem with a witness next to the theorem about the restricted class, and an
entry in section 4.

## 3. Trusted base

### 3.1 Prover

Coq 8.16.1's kernel. `Print Assumptions` stands under every property theorem in
`Prop_*.v` and answers "Closed under the global context" for all of them: no
axiom is used, neither of this development nor of a library. (Seven axioms of
the standard library's `Coq.ssr.ssrunder` are loaded with the tactics and show
up in a listing of all loaded modules; no theorem depends on them.) There is no
extraction, no plugin, no native compilation.

### 3.2 Fidelity of the model

Nothing was executed; the model follows the Python text. Every model definition
cites the lines it follows. What has to be believed beyond the text of dtfabric:

* CPython's `struct` for the codes dtfabric emits, with a byte order prefix
  (`PyStruct.v`), including the conversion of singles (`Ieee.v`: exact widening,
  round half to even, quieting of signalling NaNs).
* Python slicing, `divmod`, `==`, truthiness, `dict` order, `hash`, iteration
  and the `s` format code, for the value types listed in `PyVal.v` and `Yaml.v`.
* The fragment of Python in `Python.v`: triple-quoted strings with their escape
  sequences, indentation, names, one class statement with a constructor, name
  mangling, scopes of names, `super`. Texts outside of the fragment have no
  meaning there, so nothing is proved about them. Warnings for unknown escape
  sequences are not errors.
* `uuid.UUID(bytes=...)`, `UUID(bytes_le=...)` and their inverses.
* Environment records passed as arguments, never axioms:
  `oracle` (host byte order, `eval`, `ast.parse`, `encode`, `decode`) and `yenv`
  (`str.lower`, `int()` of a string). Theorems hold for every such record;
  those that need more say so (`extensional`: the value of an expression depends
  on the namespace only through its bindings; `monotone_eval`: a result does not
  change when names are added; inverse `encode`/`decode` in C21; `python_codecs` in C58: for eight names of
  encodings they are the functions of `Codec.v`, which is trusted to be what Python does).

### 3.3 What is modelled

| Python | Model |
| --- | --- |
| `data_types.py`: all definition classes, `GetByteSize`, `AddMemberDefinition`, `AddValue`, size caches | `DataTypes.v` (and `Reader.v` for attributes as read) |
| `registry.py`: all methods | `Registry.v`, `Reader.v` |
| `reader.py`: all `_Read*` methods, `ReadFile`, `ReadFileObject`, error conversion | `Reader.v` |
| `runtime/byte_operations.py` | `PyStruct.v` |
| `runtime/data_maps.py`: constructors, `MapByteStream`, `FoldByteStream`, `GetSizeHint`, `GetByteSize`, `CreateDataTypeMapByType`, contexts with their state | `DataMaps.v` |
| `runtime/data_maps.py`: `GetStructFormatString`, `GetStructByteOrderString`; the format syntax of `struct` | `FormatText.v` |
| `runtime/fabric.py`: `DataTypeFabric`; `CreateDataTypeMap`, `GetDataTypeDefinition` | `Fabric.v` |
| `runtime/runtime.py`: validation, template and classes of `StructureValuesClassFactory` | `ClassFactory.v`, `ClassText.v`, `Python.v` |
| `runtime/data_maps.py`: `StructureMap.CreateStructureValues` | `Values.v` |
| `runtime/data_maps.py`: `EnumerationMap.GetName`, `FormatMap.layout` | `Lookups.v` |
| `scripts/validate_definitions.py`: `CheckFile`, `CheckDirectory`, exit code | `Validator.v` |

### 3.4 What is not modelled, and simplifications

* The YAML parser. A file is the list of values it yields and how it ends.
  Values are trees: documents with recursive anchors are not covered. A set has
  its items in a fixed order. A NaN is not identical to itself.
* Formats of `struct` are token lists in `PyStruct.v`. C55 proves that these are what
  `struct` reads from the text that the code composes. White space and format
  characters that the code never writes are left out of the syntax.
* Texts of error messages, except that formatting them can itself raise.
* The recursion limit of Python and memory exhaustion.
* Expressions: `eval` is a pure function of the namespace and does not give floats:
  all theorems assume this. "Other" results are those for which `< 0` raises
  TypeError, that is MappingError. `Expr.v` is one small evaluator, used only in
  examples. What the code does with floats, which `/` gives in any expression, is
  finding 48.
* Codecs: `encode`/`decode` are arbitrary functions except in C58, where they are
  those of `Codec.v`. Other encodings, among them UTF-16 with a byte order mark,
  and other spellings of the names of these are not modelled.
* Two representations of definitions: as read (`Reader.v`, any YAML value as an
  attribute) and as mapped (`DataTypes.v`, typed attributes). In Python they are
  one object. `typed` translates, the relation `same` of `SpecFabric.v` says what
  the translation has to be, attribute by attribute. Not covered, also in C49-C51, are text beyond ASCII other than descriptions (these are UTF-8 in the
  model of the maps), single surrogates, sizes
  written as `true` or `4.0`, and dates or collections as values: C49_covered proves that every definition of the other documents
  (`plain_document`, `SpecPlain.v`) is covered.
* The model of the maps does not execute the class text but works with
  `create_class` and `instance` of `ClassFactory.v`, which leave descriptions out.
  C52 proves that executing the text gives the same classes, for descriptions that
  are harmless in a docstring; other descriptions are findings 36 and 37. The
  instances have their attributes in the order of the members; the constructor sets
  them in alphabetical order.
* Aliasing between a structure under construction and the namespace is modelled
  by a marker in the context (`c_self`); other object identities are not.
* A state left behind by a map of another class is treated as absent.
* A class named `__builtins__` works, as it does since Python 3.10.
* `EnumerationMap`, `ConstantMap`, `FormatMap` only raise, as in the code.
* Command line parsing, output and globbing of the validator, `decorators.py`.
* `Demo.v`, `DemoYaml.v`, `Expr.v` only serve examples and witnesses.

### 3.5 Hypotheses that restrict theorems

| Predicate | Meaning | Why |
| --- | --- | --- |
| `everywhere sound d` | sizes are sizes the reader accepts, names are not empty | satisfied by what the reader produces; each theorem has a witness |
| `exact`, `aligned` | size expressions absent, elements fill the data size, padding only where offsets are multiples | C11, each exception refuted |
| `takes_space` | elements of sequences without count are not empty | C26, C66, exception refuted |
| `tame` | no construct with a raw exception | C27, C66, each exception refuted |
| `proper` | floats of the model have 64 bits and UUIDs 16 bytes, as all Python values have | C67, C68 |
| `blobs` | streams and padding inside the value to fold are byte strings | C68, exceptions refuted |
| `writable` | no composite sequence and no UUID in native byte order (these fold to None: C22_sequence_none, finding 6) | C68 |
| `as_wide_as` | the type is a number, a UUID, or a sequence or stream of literal size without terminator | second half of C69; other types may take more or fewer bytes |
| `unheeded` | no expression of a later member depends on the changed member | C70, exception refuted |
| `lone` | no structure groups: the name of the structure they choose is found by reading a member whose bytes they do not count | C70 |
| `movable` | a moved member is not a structure or group that takes its byte order from the structure: such a copy is named after the structure, and so is the class of its value | C71 |
| `untouched_by` | no expression of the other members depends on the moved members or the new one | C71, exception refuted |
| `wordless` (C71) | the moved members have no conditions and no size expressions; those would be evaluated in another namespace | C71 |
| `everywhere wordless` (C72) | the definition has no conditions and no size expressions: these look members up by name | C72, exception refuted |
| `occupies`, `same_order_inside` (C73) | elements take up at least one byte; the element type has its own byte order, or is a number, character or boolean, or the sequence has native byte order | C73, exception of the order refuted |
| `has_data_size e' = true -> everywhere exact el` (C74, C75) | elements counted by a data size have the size that is computed from their definition | C74, C75, exceptions of C11 |
| `clear_names` | a structure is not named `self`, `super`, like a member or with two leading underscores, and no member is named `super` | C12-C15, C27, C30, C48; other structures are never mapped (C40_hidden) |
| `harmless` | no three quotation marks in a row, null characters or backslashes before x, u, U, N in descriptions and names of types | C52, exceptions refuted |
| `folds_back` | no boolean without false/true value, no composite sequence, no NaN singles, ... | C22, exceptions refuted |
| `telling` | booleans have both values, UUIDs a byte order, strings not both size and terminator and an encoding with one form per text, groups choose from structures of different names | C64; the first three refuted, names are different in a registry (C31) |
| `overlooks` | no expression of the shorter definition looks at an appended member: it gives the same whether or not structures in its namespace have these attributes | C65; refuted without. A condition on the examples' evaluator is proved from the syntax of the expression (GrowWitness) |
| `wordless` | the type of the next member has no expressions | C65_next |
| `sizes_agree` | size expressions see the same while folding | C22, exceptions refuted |
| `resumable`, `leaf` | all members but the last map in one go | C29, exception refuted |
| `narrow` | terminators one element long | C09, exception refuted |
| `hinted_at`, `group_of`, `no_default` | padding is not nested and aligned relative to the structure, elements of sequences have a fixed size or open with at least one byte and are not bounded by a data size; groups are not members and have no default | C30, exceptions refuted |
| `frugal` | no conditions, terminators of a single byte, no data size for sequences of structures, elements of a fixed size | upper bound of C30, exceptions refuted |
| `unhidden_inside` | nested structures are not named like enclosing ones or external values | upper bound of C30; such names hide the structure, finding 23 |
| `whole`, `counted_or_ended` | members have maps and clear names; no terminator beside a number of elements | C30_known; exception for the latter refuted |
| `regular`, `levels d <= 11` | `sound`; clear names, also of copies; a structure read in one go has members of its own byte order; a fixed data size is a multiple of the element size; group members are structures; nesting counted conservatively | C48; the exceptions are findings of C12, C17 and C25 |
| `careful` | fixed sizes and numbers positive, terminators one element long, members of different types not named alike | C50, C51; what the reader does not check, findings 2, 8, 14 and 17 |
| `orderly` | the second half of `regular` | C50 |
| `shaped` | members have different names and a byte order | C51; proved of every definition read from a file |
| `keeps_alignment` | the distance is a multiple of the alignment of padding | C56, exception refuted |
| `portable` | byte orders are written down where numbers of several bytes are read | C57, exception refuted for structures without a byte order |
| `null_terminated` | the terminator is a null character of the encoding and elements have the size of its code units | C58, exception refuted |
| `elements_occupy` | elements of sequences take up at least one byte, as can be read off their definition | C59, exception refuted; implies `takes_space` |
| `never_longer` | decoding gives at most one character per byte; proved of the modelled codecs | C59 |
| `own_aliases` | no alias is, but for case, the name of another definition | C61, exception refuted |
| `simple_elements` | elements of sequences are numbers, characters or booleans and fill the data size | C55, exceptions refuted |
| `tidy_document` | values have the types of the format specification | C45 and the FormatError half of C39, exceptions refuted |

## 4. Findings

Behaviour of the code that contradicts its documentation or what a user would
expect, found while modelling. "(theorem)" names a `_refuted` theorem or lemma
with a witness; the others follow from the cited model definition.

Mapping

1. A structure on the linear fast path reads all members in the byte order of the
   structure. A native structure with big-endian members reads them in host
   order. `_CheckLinearMap` compares with the last order only, so native members
   let mixed orders through. (C12_fast_path_order states what is read,
   C57_structure_refuted that hosts differ.)
2. Member maps are cached by definition name: an inline member named like a data
   type replaces it for later members (C43_clash).
3. A nested native structure in a structure with a byte order is renamed
   `_parent_child`, so its own expressions fail with MappingError.
4. `fold(True)` of a boolean without true value raises FoldingError; the reader
   ignores `false_value` and `true_value`, so a boolean read from a file never
   folds True. Linear folding applies no FoldValue (C22_fast_booleans,
   C22_fast_characters).
5. One-byte characters of 0x80 and above cannot be mapped; in a linear sequence
   the ValueError is not converted (C27_character_refuted).
6. A UUID with native byte order maps and folds to None.
7. A composite sequence folds to None (C22_sequence_none), and so does every
   structure that holds one.
8. A number of elements or data size of 0 is treated as not given; negative ones
   are accepted by the reader (C36_negative_number_refuted).
9. Raw TypeError, ValueError, AttributeError, ZeroDivisionError escape
   MapByteStream (C27_*_refuted).
10. A sequence of elements without size and without count never ends
    (C26_endless_refuted).
11. A data size that is no multiple of the element size: the rest is dropped or
    the last element reads past it (C11_multiple_refuted, C18_small_refuted).
12. Padding is relative to the byte stream, sizes and hints assume the structure
    starts at 0 (C11_offset_refuted, C30_padding_refuted,
    C30_nested_padding_refuted). The same bytes at another offset give another value
    (C56_padding_refuted).
13. Evaluating an expression adds `__builtins__` to the caller's values (C44
    states this as the only change).
14. A stream terminator shorter than an element is found only if the data ends
    there: appending bytes changes the answer (C09_short_terminator_refuted).
15. A character or string member with supported values read from a file never
    matches: they are kept as bytes.
16. Strings with both a fixed size and a terminator do not survive fold and map.
17. A terminator takes precedence over a number of elements in sequences.
18. Group members do not see the caller's values; the identifier of a previous
    call stays in the state. The base may read beyond the size reported
    (C10_group_refuted).
40. GetSizeHint of a structure group asks the base about the state that the
    default left behind: a program that reads as much as hinted reads the same few
    bytes forever (C30_default_refuted). The same happens to a group that is a
    member, as long as its base does not fit: the byte size of the member before it
    is still in the context (C30_group_member_refuted).
41. If the bytes end between two elements of a sequence, the hint takes the next
    element to be as large as the last one (C30_sequence_refuted), and a data size
    is asked for in full although the rest is dropped (C30_data_size_refuted). A data
    size is also hinted at when as many bytes are there and the last string of the
    sequence has not ended: following the hint makes no progress (C30_bounded_refuted).
42. GetStructFormatString of a sequence puts the number of elements before the
    format of the element without grouping: three structures of a four and a two
    byte integer are '3IH', three streams of four bytes '34B'
    (C55_structures_refuted, C55_streams_refuted). A format is also given for
    structures with conditional members and with members of different byte orders
    (C55_condition_refuted, C55_order_refuted). Mapping is not affected: these maps
    read member by member.
43. A string with a null terminator accepts texts with null characters in them and
    folds them to bytes that read back as a shorter text (C58_null_refuted). With
    one-byte elements and terminator, a text in UTF-16 whose last byte is a null byte
    gets no terminator and cannot be read back (C58_unit_refuted); the reader does
    not compare the encoding with the element size.
44. The number of elements of a sequence is not checked against the bytes that are
    left. If the elements need not take up space, for example structures whose
    members are all conditional, five bytes map to a tuple of up to 2^32 - 1
    structures of which the map reports four bytes (C59_empty_refuted): a file
    can make the reader run out of memory.
45. The size hint of elements with both a number and a terminator, before anything is
    mapped, is a single element although the definition has a known size that is
    consumed in full (C30_known_refuted).
46. The members of a structure family or group may be given as a mapping: its keys
    are then taken as the names, in the order of the keys (C60_names_refuted).
    Elsewhere a mapping in the place of a list of mappings is refused.
47. A definition may have the name that, but for case, is the alias of another one;
    an alias may be the name of a definition read earlier.  What the alias stands for
    then depends on the order of the documents (C61_alias_refuted): members read
    before the later definition refer to another type than members read after it,
    although both give the same name.
48. An expression with `/` gives a float, which passes the check of sizes and numbers
    (data_maps.py:702-711, 741-750). A stream on its own then raises a raw TypeError for
    the slice, or ValueError for the format of the message if there are too few bytes;
    a sequence accepts a whole float as its number of elements; with any other float
    the elements read never are exactly that many. Not modelled, see 3.4.
49. The context of an attempt that failed can only be used to continue: mapping the
    longer stream from the start with it skips the members mapped before and reads the
    next one at the start, without an error (C29_restart_refuted). Where to continue is
    not reported.
    An attempt to continue that fails with MappingError leaves what it read in the context:
    the next attempt then returns elements twice or members that are not present
    (C29_failed_sequence_refuted, C29_failed_structure_refuted).
50. Data is lost without a trace where different bytes have the same value: all numbers
    but the false value of a boolean, which is the default of definition files, what
    follows the terminator of a string of fixed size, a UUID of native byte order (always
    None), signalling and quiet single NaNs (C64_boolean_refuted, C64_string_refuted,
    C64_uuid_refuted, C64_nan_refuted).
51. A condition may name a member that comes later in the structure: it is then None and
    the condition usually false, silently, while naming a member that does not exist is an
    error. Appending a member can turn the error into data that is skipped
    (C65_looking_refuted).
19. Resuming a composite sequence that ran out of bytes as a non-last member, and
    resuming after conditions, terminators: C29_sequence_refuted,
    C30_condition_refuted, C30_terminator_refuted. The byte size after resuming a
    structure counts only what was read since; after resuming a sequence it counts
    all elements, less the part of an interrupted element that was read before
    (C29_example_sequence). The two do not fit together, which is why a sequence
    inside a structure cannot be resumed.
    A structure group maps its base and its member with the same context and at the
    same offset. If the base stalled between two members, the member is mapped where
    the base went on (C29_group_refuted); a base that is read as a whole is safe
    (C29_group).
20. Zero-size elements and offsets behind the end: C10_zero_size_refuted,
    C10_beyond_refuted.
21. A signalling NaN of a single does not survive (C22_signalling_refuted).
22. Folding a structure evaluates size expressions without the caller's values and
    without the enclosing structures: what maps cannot be folded, MappingError is
    raised (C22_caller_refuted, C22_enclosing_refuted). With a left-over state
    members are skipped.
39. Folding a structure checks nothing about its members: one that is None is
    left out, unsupported values and members whose condition is false are written
    (C54_missing_refuted, C54_unsupported_refuted, C54_condition_refuted). The bytes
    then map to something else or not at all.
52. Folding a stream or padding does not look at the type of the value: a tuple of
    as many values as the stream has bytes is returned as it is instead of bytes
    (C68_tuple_refuted), a number raises TypeError (C68_stream_refuted,
    C68_padding_refuted) and not FoldingError.
53. A structure of native byte order is read in the byte order of a structure that has it
    as a member, but in that of the host as an element of a sequence with a byte order
    (C73_native_refuted): moving members into a sequence can change how they are read.
54. Numbers, UUIDs, structures read member by member, sequences read element by element
    and structure groups raise ByteStreamTooSmallError without storing the requested size
    in the context: a caller that reads on by as much as the context asks for finds None
    or the number of an earlier mapping (C77_number_refuted, C77_member_refuted). For
    structures and sequences the number is in the text of the error only.
23. An external value whose key is the class name hides the structure.

Classes

24. A member named `self` passes validation and breaks the generated class.
25. Inline padding or unions with a condition or value, and nameless unions, make
    class creation fail.

33. A constant or enumeration as a member of a structure read in one go makes
    creating its map fail with AttributeError, and so does one as a member of a
    structure with a byte order or as an element (C51). Errors of names and
    expressions surface as ValueError, TypeError and SyntaxError, not FormatError.
34. A structure named like one of its members, or `super`, or `self`, or with a
    member named `super`, passes validation and has a map, but its instances
    cannot be made: `super(node, self)` in the constructor refers to the
    parameter. Mapping or asking for a size hint raises a raw TypeError, on the
    fast path MappingError (C40_hidden, C27_names_refuted).
35. A structure whose name starts with two underscores and does not end with two
    cannot be mapped either: Python mangles the name inside of the class and the
    constructor raises NameError. Copies of definitions of native byte order get a
    leading underscore per level, so in a structure with a byte order a structure
    of native byte order inside of another one can never be mapped (C40_nested).
36. Descriptions are put unescaped in the docstring of the generated class, which
    is executed. Three quotation marks in a description end the docstring and what
    follows is run as code when the map is created (C52_code_refuted): reading
    definitions from a source that is not trusted is not safe.
37. A description such as `Stored in C:\Users` makes the class text invalid and
    creating the map raises SyntaxError (C52_escape_refuted).
38. An integer given for a four byte float is rounded to a double and then to a
    single, and need not end at the nearest one (C04_integer_single_refuted).

Registry and reader

26. Deregistering leaves aliases and format names behind; a later definition of
    the name takes over the alias. An alias equal to an existing name is accepted
    and unreachable. Aliases are case-sensitive, names are not.
27. Reading is not atomic (C38): definitions before the failing one stay.
    KeyError escapes ReadFile for duplicate names.
28. Documents that are no mappings, values of other types, non-string keys,
    terminators beyond ASCII and values beyond Latin-1 raise raw exceptions
    (C45_terminator_refuted), and so do YAML parser errors other than scanner and
    reader errors. In the validator they abort the directory (C41_abort_refuted).
29. Sizes `true` and `4.0` are accepted (C36_size_true_refuted). Units, encodings
    and the data types of a layout are not checked (C36_layout_refuted).
30. Keys beside `section` and in enumeration values are not checked
    (C37_section_refuted, C37_enumeration_refuted).
31. A structure of sections only is accepted (C36_section_only_refuted); the base
    of a group need be no structure (C36_group_base_refuted); a group member
    without `members` raises AttributeError (C45_group_refuted).
32. `aliases: abc` registers the aliases a, b and c. Inline members cannot have
    attributes.

## 5. Mutation testing

`seeded/LOG.jsonl` has one line per seeded bug: the definition, the edit, the
claim it breaks, the theorems and lemmas that no longer prove. The edit is made
in a copy outside of this directory; proofs that fail are admitted there and the
affected property theorems are found with `Print Assumptions`.
