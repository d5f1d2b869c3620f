{"id": "C01", "title": "Integers decode to their positional value", "statement": "Mapping an integer definition of size 1, 2, 4 or 8 bytes on a byte stream returns the two's complement (signed) or plain (unsigned) positional value of exactly the size bytes at byte_offset, most significant byte first for big-endian, last for little-endian, and in the order of the host for native.", "quantifier": "every supported size, signedness, byte order, host order, byte stream, and non-negative offset with enough bytes", "why_tests_cant": "There are 2^64 byte patterns per size and infinitely many streams and offsets; a test samples a handful.", "anchors": ["dtfabric/runtime/data_maps.py:IntegerMap", "dtfabric/runtime/data_maps.py:PrimitiveDataTypeMap.MapByteStream", "dtfabric/runtime/byte_operations.py:StructOperation"]}
{"id": "C02", "title": "Integer fold and map are inverse", "statement": "Folding an in-range integer and mapping the result, with arbitrary bytes before and after it, returns the same integer; mapping any bytes and folding the result returns exactly the bytes that were mapped.", "quantifier": "every supported integer definition, every value in range, every window of bytes, every prefix and suffix", "why_tests_cant": "Round-trip equality is a statement about all values and all byte strings.", "anchors": ["dtfabric/runtime/data_maps.py:IntegerMap", "dtfabric/runtime/data_maps.py:PrimitiveDataTypeMap.FoldByteStream", "dtfabric/runtime/data_maps.py:PrimitiveDataTypeMap.MapByteStream"]}
{"id": "C03", "title": "Folding never truncates an integer", "statement": "Folding an integer definition succeeds exactly when the value is an integer inside the range of the type, and raises FoldingError otherwise; it never wraps around or drops high bits.", "quantifier": "every supported integer definition and every Python value", "why_tests_cant": "The rejected values form an infinite set with boundaries per size and sign.", "anchors": ["dtfabric/runtime/data_maps.py:PrimitiveDataTypeMap.FoldByteStream", "dtfabric/runtime/byte_operations.py:StructOperation.WriteTo"]}
{"id": "C04", "title": "Floats survive fold and map bit for bit", "statement": "Mapping the fold of any double through an 8 byte float returns the same bit pattern; mapping any 4 byte float and folding the result returns the same 4 bytes unless they encode a signalling NaN; a finite value too large for 4 bytes is rejected with FoldingError, and any other is folded to the nearest 4 byte float, ties to even.", "quantifier": "all 2^64 double patterns, all 2^32 single patterns, all byte orders", "why_tests_cant": "Bit-exactness over every pattern, including subnormals, infinities and NaN payloads.", "anchors": ["dtfabric/runtime/data_maps.py:FloatingPointMap", "dtfabric/runtime/byte_operations.py:StructOperation"]}
{"id": "C05", "title": "Boolean mapping follows the false and true values", "statement": "A boolean definition maps the stored number to False if it equals false_value, else to True if it equals true_value, else to the value whose number is left undefined, else raises MappingError; folding a boolean emits exactly its defined number and raises FoldingError if that number is undefined; fold then map is the identity if the two numbers differ.", "quantifier": "every size, byte order, false_value and true_value setting, and stored number", "why_tests_cant": "The decision table ranges over all pairs of settings and all stored numbers.", "anchors": ["dtfabric/runtime/data_maps.py:BooleanMap.MapValue", "dtfabric/runtime/data_maps.py:BooleanMap.FoldValue", "dtfabric/data_types.py:BooleanDefinition"]}
{"id": "C06", "title": "Characters map to code points", "statement": "A character definition maps a stored signed number to the character with that code point and raises MappingError if the number is negative or above 0x10ffff; folding a character and mapping it back returns the same character whenever folding succeeds; a one byte character definition therefore cannot map any byte above 0x7f.", "quantifier": "every size, byte order and stored number; every character", "why_tests_cant": "All code points and all stored numbers.", "anchors": ["dtfabric/runtime/data_maps.py:CharacterMap"]}
{"id": "C07", "title": "UUID byte layout and round trip", "statement": "A big-endian UUID maps to the UUID whose bytes are the 16 bytes in order, a little-endian one to the UUID whose first three fields are byte swapped; fold then map and map then fold are the identity for both; for the native byte order both directions yield None.", "quantifier": "all 2^128 UUIDs, both byte orders, every stream and offset", "why_tests_cant": "A permutation of bytes must be right for all inputs.", "anchors": ["dtfabric/runtime/data_maps.py:UUIDMap", "dtfabric/data_types.py:UUIDDefinition"]}
{"id": "C08", "title": "Fixed-size types fail for lack of bytes exactly when bytes are lacking", "statement": "Mapping a primitive, UUID, fixed-size stream, linear sequence or linear structure raises ByteStreamTooSmallError if and only if fewer bytes than its byte size remain at the offset.", "quantifier": "every such definition, stream and offset", "why_tests_cant": "The boundary must be exact for every size, stream length and offset.", "anchors": ["dtfabric/runtime/data_maps.py:StorageDataTypeMap._CheckByteStreamSize", "dtfabric/runtime/data_maps.py:SequenceMap._LinearMapByteStream", "dtfabric/runtime/data_maps.py:StructureMap._LinearMapByteStream", "dtfabric/runtime/data_maps.py:StreamMap.MapByteStream"]}
{"id": "C09", "title": "Appending bytes never changes an answer already given", "statement": "If mapping succeeds, or raises MappingError, on a byte stream then mapping the same definition at the same offset on that stream followed by any further bytes gives the same value, the same byte size, or again MappingError; only ByteStreamTooSmallError can change into something else.", "quantifier": "every data type map whose stream terminators are one element long, every stream, every suffix, every offset", "why_tests_cant": "It compares two runs for every extension of every stream.", "anchors": ["dtfabric/runtime/data_maps.py:DataTypeMap.MapByteStream and all overrides"]}
{"id": "C10", "title": "A successful mapping reads only inside its reported window", "statement": "If mapping at byte_offset succeeds and reports byte_size n then 0 <= n, byte_offset + n does not exceed the length of the stream, and the value depends on no byte before byte_offset or at or after byte_offset + n.", "quantifier": "every data type map without structure groups whose stream terminators are one element long, every stream, every offset inside it, every depth", "why_tests_cant": "Non-interference compares all pairs of streams that agree on the window.", "anchors": ["dtfabric/runtime/data_maps.py:DataTypeMap.MapByteStream and all overrides"]}
{"id": "C11", "title": "The size computed from a definition is the size consumed", "statement": "If the definition reports a byte size and mapping succeeds then the reported context byte_size equals it, for definitions without padding, without a sequence whose data size is not a multiple of its known element size, and without a sequence that has both a fixed count and a terminator; with padding it also holds for a structure of fixed-size members mapped at an aligned offset, and fails at other offsets. The byte size that a map reports is that of its definition.", "quantifier": "every definition in the stated class, every stream and offset", "why_tests_cant": "Two independent computations over nested definitions must agree for all nestings.", "anchors": ["dtfabric/data_types.py:GetByteSize (all classes)", "dtfabric/runtime/data_maps.py:MapByteStream (all classes)"]}
{"id": "C12", "title": "The linear fast path equals member by member decoding", "statement": "A structure handled by the single-unpack fast path maps to the same value and byte size as mapping its members one after the other with their own definitions, provided every member resolves to the byte order of the structure; without that proviso the fast path reads a member with the byte order of the structure instead of its own.", "quantifier": "every structure eligible for the fast path, every stream and offset, both host byte orders", "why_tests_cant": "Equivalence of two algorithms over all member lists and all bytes.", "anchors": ["dtfabric/runtime/data_maps.py:StructureMap._CheckLinearMap", "dtfabric/runtime/data_maps.py:StructureMap._LinearMapByteStream", "dtfabric/runtime/data_maps.py:StructureMap._CompositeMapByteStream"]}
{"id": "C13", "title": "Structure members are decoded in order at consecutive offsets", "statement": "When mapping a structure succeeds, its members are those of the definition in order, each present member is the value obtained by mapping its data type right after the previous present member, absent members are None, and the byte size is the sum of the sizes of the present members; conversely whenever such a layout exists mapping succeeds with it.", "quantifier": "every structure map, every stream, offset, context and nesting", "why_tests_cant": "Soundness and completeness against a layout grammar for all definitions.", "anchors": ["dtfabric/runtime/data_maps.py:StructureMap._CompositeMapByteStream", "dtfabric/runtime/data_maps.py:StructureMap._LinearMapByteStream"]}
{"id": "C14", "title": "Conditions decide presence", "statement": "A conditional member is read if and only if its condition evaluates to True in a namespace holding exactly the structure with its earlier members set, later members None, and the external values; a condition that fails or is not a boolean makes mapping raise MappingError; an absent member consumes no bytes.", "quantifier": "every structure map, condition, evaluation function, stream and external values", "why_tests_cant": "All condition outcomes at all positions.", "anchors": ["dtfabric/runtime/data_maps.py:StructureMap._CompositeMapByteStream"]}
{"id": "C15", "title": "Supported values are enforced", "statement": "If mapping a structure succeeds then every present member that lists supported values has a value equal to one of them; if a member decodes to a value outside its list mapping raises MappingError.", "quantifier": "every structure map (fast path or not), every stream", "why_tests_cant": "All values and all positions of the offending member.", "anchors": ["dtfabric/runtime/data_maps.py:StructureMap._CompositeMapByteStream", "dtfabric/runtime/data_maps.py:StructureMap._LinearMapByteStream"]}
{"id": "C16", "title": "A counted sequence yields exactly the requested elements", "statement": "When mapping a sequence governed by a number of elements succeeds, the result has exactly that many elements, each mapped right after the previous one, and the byte size is the sum of their sizes; the count is the fixed number or the value of the expression.", "quantifier": "every such sequence map, element type, stream, offset and count", "why_tests_cant": "All counts and element encodings.", "anchors": ["dtfabric/runtime/data_maps.py:SequenceMap._CompositeMapByteStream", "dtfabric/runtime/data_maps.py:SequenceMap._LinearMapByteStream", "dtfabric/runtime/data_maps.py:ElementSequenceDataTypeMap._EvaluateNumberOfElements"]}
{"id": "C17", "title": "A terminated sequence stops at the first terminator", "statement": "When mapping a sequence governed by a terminator succeeds, the last element equals the terminator and no earlier element does; if the stream ends first ByteStreamTooSmallError is raised. A fixed number of elements on the same definition is ignored.", "quantifier": "every such sequence map, stream and offset", "why_tests_cant": "First-occurrence is a universally quantified statement over positions.", "anchors": ["dtfabric/runtime/data_maps.py:SequenceMap._CompositeMapByteStream"]}
{"id": "C18", "title": "A sequence bounded by a data size", "statement": "A sequence of fixed-size elements governed by an elements data size yields the floor of the data size over the element size many elements; a sequence of variable-size elements continues until the data size is reached or an element equals the element terminator; a fixed data size consumes the data size itself on the fast path and the truncated size otherwise.", "quantifier": "every data size, element type and stream", "why_tests_cant": "All sizes, including non-multiples.", "anchors": ["dtfabric/runtime/data_maps.py:SequenceMap._CompositeMapByteStream", "dtfabric/runtime/data_maps.py:SequenceMap.GetStructFormatString"]}
{"id": "C19", "title": "Streams return the exact bytes and stop at the first aligned terminator", "statement": "Mapping a stream returns the bytes from byte_offset with the governing data size, or for a terminated stream the shortest prefix made of whole elements that ends in the terminator; ByteStreamTooSmallError is raised if and only if no such prefix is in the stream.", "quantifier": "every stream definition, element size, terminator of one element, stream and offset", "why_tests_cant": "Minimality and completeness of a search over all streams.", "anchors": ["dtfabric/runtime/data_maps.py:StreamMap.MapByteStream"]}
{"id": "C20", "title": "Strings are decoded up to the first terminator", "statement": "Mapping a string returns the decoding of the stream bytes cut before the first terminator found at a multiple of the terminator size, or of all of them without a terminator, and raises MappingError if those bytes cannot be decoded.", "quantifier": "every string definition, encoding, stream and offset", "why_tests_cant": "All strings, all encodings, all positions of the terminator.", "anchors": ["dtfabric/runtime/data_maps.py:StringMap.MapByteStream"]}
{"id": "C21", "title": "Streams and strings survive fold and map", "statement": "For a stream or string, mapping the fold of a value returns the value when the value has the governed size, or for a terminated one when no aligned element of it is the terminator; folding a value of another size raises FoldingError; folding the mapped bytes of a stream returns those bytes.", "quantifier": "every stream and string definition, every value", "why_tests_cant": "Round trip over all byte strings and texts.", "anchors": ["dtfabric/runtime/data_maps.py:StreamMap.FoldByteStream", "dtfabric/runtime/data_maps.py:StringMap.FoldByteStream"]}
{"id": "C22", "title": "Structures survive map and fold", "statement": "For a structure built from integers, floats, UUIDs with explicit byte order, streams, strings, padding and such structures, folding the value mapped from a stream returns exactly the consumed bytes, provided that the size expressions in it give the same sizes while folding, where they see only the structure they are in and not the enclosing one or the values of the caller (of 4-byte floats up to the quiet bit of a NaN), through the fast path and otherwise. With a composite sequence inside folding returns None, and on the fast path characters raise FoldingError and booleans are written as 0 or 1 whatever their defined numbers.", "quantifier": "every structure in the class, every stream and offset", "why_tests_cant": "Round trip over nested definitions and all bytes.", "anchors": ["dtfabric/runtime/data_maps.py:StructureMap._LinearFoldByteStream", "dtfabric/runtime/data_maps.py:StructureMap._CompositeFoldByteStream", "dtfabric/runtime/data_maps.py:SequenceMap._CompositeFoldByteStream"]}
{"id": "C23", "title": "Structure groups dispatch on the identifier", "statement": "Mapping a structure group maps the base at the offset, takes the identifier member, and returns what the group member listing that identifier value (or else the default) maps to at the same offset, with its byte size; without a match or default, or without an identifier value, it raises MappingError; a group with two members listing the same value cannot be created.", "quantifier": "every group map, stream, offset and identifier value", "why_tests_cant": "All identifier values and member lists.", "anchors": ["dtfabric/runtime/data_maps.py:StructureGroupMap.MapByteStream", "dtfabric/runtime/data_maps.py:StructureGroupMap._GetMemberDataTypeMaps"]}
{"id": "C24", "title": "Padding aligns and is minimal", "statement": "Mapping padding at an offset returns and consumes the least number of bytes that brings the offset to a multiple of the alignment, always less than the alignment, and zero when already aligned.", "quantifier": "every alignment and offset", "why_tests_cant": "All offsets and alignments.", "anchors": ["dtfabric/runtime/data_maps.py:PaddingMap._CalculatePaddingSize", "dtfabric/runtime/data_maps.py:PaddingMap.MapByteStream"]}
{"id": "C25", "title": "Nesting depth is bounded", "statement": "Mapping a composite structure or sequence at a recursion depth above 10 raises MappingError whatever the bytes and context; consequently no composite map nested more than 10 composite levels deep can be mapped successfully once its nested member is reached.", "quantifier": "every composite map, stream, offset and context", "why_tests_cant": "All nestings.", "anchors": ["dtfabric/runtime/data_maps.py:DataTypeMap._MAXIMUM_RECURSION_DEPTH", "dtfabric/runtime/data_maps.py:StructureMap._CompositeMapByteStream", "dtfabric/runtime/data_maps.py:SequenceMap._CompositeMapByteStream"]}
{"id": "C26", "title": "Mapping terminates when elements take up space", "statement": "If every element of every terminated or size-bounded sequence consumes at least one byte whenever it is mapped, mapping terminates on every stream after at most as many loop iterations per sequence as bytes remain; with an element that consumes nothing mapping can run forever.", "quantifier": "every data type map, stream, offset inside the stream and fresh context", "why_tests_cant": "Termination over all inputs is not observable by tests.", "anchors": ["dtfabric/runtime/data_maps.py:SequenceMap._CompositeMapByteStream", "dtfabric/runtime/data_maps.py:StreamMap.MapByteStream"]}
{"id": "C27", "title": "Errors of composite structures are contained", "statement": "Mapping a composite structure whose names do not hide one another, whatever its members, stream and external values, raises nothing but MappingError or ByteStreamTooSmallError; the other map kinds do the same for definitions with a known size, a compatible terminator and mappable element values, and each of those conditions is necessary.", "quantifier": "every structure map, member map, stream, offset, depth and fresh context", "why_tests_cant": "All failure paths of all nested maps.", "anchors": ["dtfabric/runtime/data_maps.py:StructureMap._CompositeMapByteStream", "dtfabric/runtime/data_maps.py:SequenceMap._LinearMapByteStream", "dtfabric/runtime/data_maps.py:PrimitiveDataTypeMap.MapByteStream"]}
{"id": "C28", "title": "The context does not influence a fresh mapping", "statement": "Mapping without a context, with a fresh context, or with a context left by any previous successful mapping gives the same outcome; after success the context reports the byte size and holds no state.", "quantifier": "every data type map, stream, offset and previous successful mapping", "why_tests_cant": "All histories of context reuse.", "anchors": ["dtfabric/runtime/data_maps.py:DataTypeMapContext", "dtfabric/runtime/data_maps.py:MapByteStream (all classes)"]}
{"id": "C29", "title": "An interrupted mapping can be resumed", "statement": "If mapping a structure whose members are primitives, UUIDs, padding, streams, strings, linear structures, linear sequences or such structures raises ByteStreamTooSmallError with a context, then mapping again with that context on the extended stream from the first byte not yet mapped returns the same value as mapping the extended stream at once, after any number of interruptions. The same holds for a composite sequence of such elements that is mapped by itself, if it has no data size or elements that are read as a whole and take up their declared size; the byte size reported is then that of all elements. It holds for a structure group whose base is read as a whole, too. For a structure with a composite sequence followed by another member and for a group whose base is interrupted half way it is false. Mapping again from the start with that context gives a wrong value without an error. If an attempt to go on fails for another reason than too few bytes, going on with its context is not possible either: what it read stays in the context, elements twice.", "quantifier": "every such structure, sequence or group map, stream, sequence of cut points, and external values", "why_tests_cant": "All ways to cut all streams.", "anchors": ["dtfabric/runtime/data_maps.py:StructureMap._CompositeMapByteStream", "dtfabric/runtime/data_maps.py:SequenceMap._CompositeMapByteStream", "dtfabric/runtime/data_maps.py:DataTypeMapContext"]}
{"id": "C30", "title": "Size hints make progress and never ask for too much", "statement": "After a mapping on too few bytes, the size hint from the context is larger than the number of bytes that were available, for structures of numbers, UUIDs, padding aligned relative to the structure, streams, strings, sequences of elements of a fixed size or of elements of different sizes that open with a number, a UUID or something terminated, and nested structures of these without padding, for such sequences on their own, and for structure groups without a default whose base and members are such structures. So reading as many bytes as hinted, or all if there are fewer, and mapping again reaches success. If furthermore no member is conditional, terminators are of a single byte, elements of a sequence have one size, sequences of structures are not bounded by a data size, no nested structure is named like an enclosing one or an external value, and the evaluator does not change its results when names are added, the hint is not larger than the number of bytes any successful mapping of an extension consumes (for a group: than what its base or the chosen member consumes); so reading as many bytes as hinted and mapping again reaches success without reading more than that. The hint can exceed the consumed size with an absent conditional member, a terminated stream of wide elements cut inside of an element, padding in a nested structure, a sequence of elements of different sizes cut between two of them, and a data size that is not a multiple of the element size. It need not exceed what was available, so that following it makes no progress, with padding in a structure at an unaligned offset, a sequence of elements of different sizes that is bounded by a data size, the default of a structure group, and a structure group as a member. After a mapping that succeeded the hint from its context is the number of bytes it consumed, and before anything is mapped the hint of a definition of a known size is that size, except for elements with both a number and a terminator.", "quantifier": "every such map, every stream and cut", "why_tests_cant": "A loop invariant over all streams and read histories.", "anchors": ["dtfabric/runtime/data_maps.py:StructureMap.GetSizeHint", "dtfabric/runtime/data_maps.py:ElementSequenceDataTypeMap.GetSizeHint", "dtfabric/runtime/data_maps.py:PaddingMap.GetSizeHint", "dtfabric/runtime/data_maps.py:StructureGroupMap.GetSizeHint", "dtfabric/runtime/data_maps.py:DataTypeMap.GetSizeHint"]}
{"id": "C31", "title": "Registered names resolve case-insensitively", "statement": "After any history of registrations and deregistrations, looking up any letter-case variant of a name returns the definition whose registration under that lower-case name is in effect; definitions are listed in registration order without duplicates.", "quantifier": "every history of register and deregister calls, every name", "why_tests_cant": "All histories.", "anchors": ["dtfabric/registry.py:DataTypeDefinitionsRegistry"]}
{"id": "C32", "title": "Failed registry operations change nothing", "statement": "A registration or deregistration that raises KeyError leaves every later lookup, listing and registration outcome as if it had not been called; registration fails exactly if the lower-case name is taken, the name is a known alias, or one of its aliases is a known alias.", "quantifier": "every registry state reachable by any history, every definition", "why_tests_cant": "All states and all definitions.", "anchors": ["dtfabric/registry.py:RegisterDefinition", "dtfabric/registry.py:DeregisterDefinition"]}
{"id": "C33", "title": "What an alias resolves to", "statement": "Looking up an alias of a registered definition returns that definition unless a definition is registered whose name is the lower case of the alias, which then wins; after deregistration the alias stays taken, so the same definition cannot be registered again, and it resolves to whatever is next registered under the old name.", "quantifier": "every history and alias", "why_tests_cant": "All interleavings of registrations and deregistrations.", "anchors": ["dtfabric/registry.py:GetDefinitionByName", "dtfabric/registry.py:DeregisterDefinition"]}
{"id": "C34", "title": "Enumerations stay unambiguous", "statement": "After any history of AddValue calls no two values share a name, a number or an alias, lookup by number, name and alias finds exactly the value added with it, and a rejected call changes nothing.", "quantifier": "every history of AddValue calls", "why_tests_cant": "All histories.", "anchors": ["dtfabric/data_types.py:EnumerationDefinition.AddValue", "dtfabric/runtime/data_maps.py:EnumerationMap.GetName"]}
{"id": "C35", "title": "Members and cached byte sizes stay coherent", "statement": "After any history of AddMemberDefinition, AddSectionDefinition and GetByteSize calls on a structure or union, member names are unique and in insertion order, the sections partition the members added after the first section, a rejected call changes nothing, and GetByteSize returns the value computed afresh from the current members.", "quantifier": "every history of calls", "why_tests_cant": "Cache coherence over all histories.", "anchors": ["dtfabric/data_types.py:DataTypeDefinitionWithMembers", "dtfabric/data_types.py:StructureDefinition.GetByteSize", "dtfabric/data_types.py:UnionDefinition.GetByteSize"]}
{"id": "C36", "title": "Every definition the reader accepts is well formed", "statement": "After reading any file into an empty registry, whatever its documents contain and however reading ends, every registered definition has a known byte order, a supported size, format or alignment, at least one of and no conflicting element size, number and terminator, distinct members that are named and only conditional in structures, enumeration values with distinct names, numbers and aliases, and a group identifier among the members of every group member. Signs of sizes and numbers, emptiness of structures with sections, the class of group bases and the data types of a format layout are not checked.", "quantifier": "every list of YAML documents, including ill-typed ones", "why_tests_cant": "All inputs to a validator.", "anchors": ["dtfabric/reader.py:DataTypeDefinitionsFileReader", "dtfabric/reader.py:YAMLDataTypeDefinitionsFileReader"]}
{"id": "C37", "title": "Unsupported keys are rejected", "statement": "A document whose own keys, attribute keys, member keys (including members of inline unions) or layout keys are outside the supported set of its type is never registered and ends the reading with the registry unchanged. Keys beside section and keys of enumeration values are not checked.", "quantifier": "every YAML document and key", "why_tests_cant": "All keys in all positions.", "anchors": ["dtfabric/reader.py:_ReadDataTypeDefinition", "dtfabric/reader.py:_ReadMemberDataTypeDefinitionMember"]}
{"id": "C38", "title": "Reading is a prefix operation", "statement": "Reading a file registers the definitions of its documents in order up to the first failing document and leaves them registered when it fails; documents after it have no effect; reading the concatenation of two files is reading one after the other.", "quantifier": "every registry and every list of documents", "why_tests_cant": "All document lists and all failure positions.", "anchors": ["dtfabric/reader.py:YAMLDataTypeDefinitionsFileReader.ReadFileObject"]}
{"id": "C39", "title": "References resolve to earlier definitions", "statement": "Every data type name referenced by a registered sequence, member, family or group resolved at reading time to a definition registered before it; it has the referenced name up to letter case or as an alias; a reference nothing earlier answers to, such as a forward or self reference, makes reading fail with the registry unchanged, with FormatError for well-typed documents.", "quantifier": "every list of documents", "why_tests_cant": "All reference graphs.", "anchors": ["dtfabric/reader.py:_ReadElementSequenceDataTypeDefinition", "dtfabric/reader.py:_ReadMemberDataTypeDefinitionMember", "dtfabric/reader.py:_ReadStructureGroupDataTypeDefinition"]}
{"id": "C40", "title": "Structure classes have exactly the declared attributes", "statement": "A structure values class is created exactly for definitions whose name and member names are ASCII identifiers that are no keyword, with distinct member names without leading underscore; its constructor takes one optional argument per member in declaration order. The check lets through the member name self, for which creation fails, and names that hide the class or super in the constructor or that Python mangles, for which the class has no instances and no bytes can be mapped; the name given to the copy of a structure nested two deep in a structure with a byte order is one of them.", "quantifier": "every structure definition with ASCII names", "why_tests_cant": "All names.", "anchors": ["dtfabric/runtime/runtime.py:StructureValuesClassFactory"]}
{"id": "C41", "title": "The validator accepts exactly what the reader accepts", "statement": "Checking a file returns True if and only if reading it into an empty registry succeeds and False if it raises FormatError or KeyError; checking a directory returns True if and only if every file checks, and False failures do not keep later files from being checked; any other exception escapes and ends the check of the directory. Reading succeeds exactly if the file can be opened, parsed to its end and describes definitions. The console script exits with 0 exactly if every file of the directory does, and with 1 exactly if every file is checked and one is not valid.", "quantifier": "every list of files", "why_tests_cant": "All combinations of good and bad files.", "anchors": ["dtfabric/scripts/validate_definitions.py:DefinitionsValidator"]}
{"id": "C42", "title": "Byte order is inherited from the enclosing structure or sequence", "statement": "In the map created for a structure with an explicit byte order every member whose own byte order is native is decoded with the byte order of the structure, and one with an explicit byte order outside the fast path with its own; elements of a sequence inherit the byte order of the sequence only if they are not composite.", "quantifier": "every structure and sequence definition", "why_tests_cant": "All nestings of byte orders.", "anchors": ["dtfabric/runtime/data_maps.py:StructureMap._GetMemberDataTypeMaps", "dtfabric/runtime/data_maps.py:ElementSequenceDataTypeMap._GetElementDataTypeMap"]}
{"id": "C43", "title": "Each member is mapped with its own data type", "statement": "Creating the map of a structure gives each member the map of its own data type, provided no two members have different data types with the same name; with such a clash the later member silently gets the map of the earlier one.", "quantifier": "every structure definition", "why_tests_cant": "All member lists.", "anchors": ["dtfabric/runtime/data_maps.py:StructureMap._GetMemberDataTypeMaps"]}
{"id": "C44", "title": "Mapping does not alter the caller's values", "statement": "Mapping and size hinting leave the external values in the context unchanged except that evaluating a number of elements expression adds the key __builtins__ to them.", "quantifier": "every data type map, stream and context", "why_tests_cant": "All execution paths, including failing ones.", "anchors": ["dtfabric/runtime/data_maps.py:ElementSequenceDataTypeMap._EvaluateNumberOfElements", "dtfabric/runtime/data_maps.py:ElementSequenceDataTypeMap._EvaluateElementsDataSize"]}
{"id": "C45", "title": "Well-typed definition files raise no raw exceptions", "statement": "Reading a file whose documents have values of the documented types into an empty registry always ends, and if it raises then FormatError, KeyError or, only if a structure group lists a definition that has no members, AttributeError.", "quantifier": "every list of well-typed documents, supported or not", "why_tests_cant": "All combinations of missing, unsupported and conflicting entries.", "anchors": ["dtfabric/reader.py:YAMLDataTypeDefinitionsFileReader.ReadFileObject", "dtfabric/reader.py:DataTypeDefinitionsFileReader"]}
{"id": "C46", "title": "A definition file yields exactly the definitions it describes", "statement": "Reading a file into an empty registry succeeds with a list of definitions, in order, if and only if the documents describe those definitions by the format specification: every attribute of a definition has the value the document gives or the documented default, references stand for the definition of that name or alias among those before, and nothing described is refused, dropped, altered or invented.", "quantifier": "every list of parsed documents", "why_tests_cant": "All combinations of types, attributes, members, sections, references and defaults.", "anchors": ["dtfabric/reader.py:DataTypeDefinitionsFileReader", "dtfabric/reader.py:YAMLDataTypeDefinitionsFileReader.ReadFileObject", "dtfabric/registry.py:DataTypeDefinitionsRegistry"]}
{"id": "C47", "title": "Mapped values are compared by value", "statement": "The comparison used for supported values, group identifiers and terminators holds for two values if and only if they stand for the same number, whatever their types, or have the same type and content; a NaN equals nothing.", "quantifier": "every two values a map or definition can hold", "why_tests_cant": "All pairs of integers, doubles, strings, bytes and tuples.", "anchors": ["dtfabric/runtime/data_maps.py:StructureMap._CompositeMapByteStream", "dtfabric/runtime/data_maps.py:StructureGroupMap.MapByteStream", "dtfabric/runtime/data_maps.py:SequenceMap._CompositeMapByteStream"]}
{"id": "C48", "title": "Mapping computes exactly the value a definition describes", "statement": "For a regular definition, mapping at an offset yields a value and a consumed size if and only if the definition describes that value and size there, by a reference reading stated per kind of definition in terms of the definition and the bytes alone: integers, floats, booleans, characters, UUIDs, padding, sequences by number, data size or terminator, streams, strings, structures with conditions and supported values, and structure groups, nested in each other. A definition describes at most one value at an offset.", "quantifier": "every definition tree of the supported kinds, every byte stream, offset and namespace, every oracle", "why_tests_cant": "All definitions and all byte streams.", "anchors": ["dtfabric/runtime/data_maps.py:DataTypeMapFactory", "dtfabric/runtime/data_maps.py:StructureMap.MapByteStream", "dtfabric/runtime/data_maps.py:SequenceMap.MapByteStream", "dtfabric/runtime/data_maps.py:StreamMap.MapByteStream", "dtfabric/runtime/data_maps.py:StringMap.MapByteStream", "dtfabric/runtime/data_maps.py:StructureGroupMap.MapByteStream"]}
{"id": "C49", "title": "A name in a definition file yields the map of its definition", "statement": "For a file whose documents describe definitions, the fabric is created and, for a name or alias that stands for a definition (names case-insensitively), creating a map has exactly the outcome of creating the map of that definition; text that stands for no definition yields no map. The fabric is created if and only if the file parses to its end and its documents describe definitions.", "quantifier": "every list of documents that describe definitions, every name, every definition within the types the map model covers", "why_tests_cant": "All files and names.", "anchors": ["dtfabric/runtime/fabric.py:DataTypeFabric.__init__", "dtfabric/runtime/data_maps.py:DataTypeMapFactory.CreateDataTypeMap", "dtfabric/registry.py:DataTypeDefinitionsRegistry.GetDefinitionByName"]}
{"id": "C50", "title": "From a definition file to values", "statement": "The map that the fabric creates for a name of a definition file maps bytes to a value and size if and only if the definition that the documents describe under that name describes that value and size at the offset.", "quantifier": "every file, name, byte stream, offset and namespace, for mappable definitions used with care (positive fixed sizes, matching terminators, distinct member types) and without the known irregularities", "why_tests_cant": "The composition of reader, registry, factory and maps over all files and streams.", "anchors": ["dtfabric/runtime/fabric.py:DataTypeFabric.__init__", "dtfabric/reader.py:YAMLDataTypeDefinitionsFileReader.ReadFileObject", "dtfabric/runtime/data_maps.py:DataTypeMapFactory.CreateDataTypeMapByType", "dtfabric/runtime/data_maps.py:DataTypeMap.MapByteStream"]}
{"id": "C51", "title": "Which definitions have a map", "statement": "Creating a map succeeds exactly for the definitions that meet stated conditions: class and member names usable in Python, no composite elements in streams and strings, expressions that parse, group identifiers listed by every member and all different, and formats within the limits of the struct module. Otherwise FormatError, AttributeError, SyntaxError, ValueError or TypeError is raised; unions, families and members have no map.", "quantifier": "every sound definition tree, including every one from a definition file that is used with care", "why_tests_cant": "All definition trees, both that creation succeeds and that it fails.", "anchors": ["dtfabric/runtime/data_maps.py:DataTypeMapFactory.CreateDataTypeMapByType", "dtfabric/runtime/data_maps.py:StructureMap.__init__", "dtfabric/runtime/data_maps.py:SequenceMap.__init__", "dtfabric/runtime/data_maps.py:StructureGroupMap._GetMemberDataTypeMaps", "dtfabric/runtime/runtime.py:StructureValuesClassFactory"]}
{"id": "C52", "title": "Descriptions in a definition are documentation only", "statement": "Executing the text that is generated for a structure defines the class of that name whose constructor takes the members in order and sets the attributes of the instance to its arguments, whatever the descriptions and type names in the text are, provided that they contain no three quotation marks in a row, null characters or backslashes before x, u, U or N. Two structures with the same name and member names give the same class. The text documents the structure and each of its members, one line each in sorted order, by its description or else its name with one dot at the end and the Python type of its values or else the name of its data type.", "quantifier": "every structure for which a class is created, every description and type name of any length, every list of arguments", "why_tests_cant": "All texts in the place of descriptions.", "anchors": ["dtfabric/runtime/runtime.py:StructureValuesClassFactory._CreateClassTemplate", "dtfabric/runtime/runtime.py:StructureValuesClassFactory.CreateClass"]}
{"id": "C53", "title": "A truncated value is reported as too few bytes", "statement": "If mapping a definition at an offset succeeds and takes n bytes, then mapping it on the same stream cut anywhere before the end of those n bytes never returns a value and never raises anything but ByteStreamTooSmallError; and if elements take up space it does raise that error.", "quantifier": "every definition, byte stream, offset, namespace and cut, for sound definition trees and elements that take up space", "why_tests_cant": "All cuts of all values; a parser that waits for more data on this error relies on never seeing another one, or a shorter value.", "anchors": ["dtfabric/runtime/data_maps.py:StructureMap._CompositeMapByteStream", "dtfabric/runtime/data_maps.py:SequenceMap._CompositeMapByteStream", "dtfabric/runtime/data_maps.py:StreamMap.MapByteStream", "dtfabric/runtime/data_maps.py:PrimitiveDataTypeMap.MapByteStream"]}
{"id": "C54", "title": "A value that fits its definition is written so that it reads back", "statement": "Whatever value fits a definition - integers within range, floats, streams and sequences of the size the definition gives, members present exactly if their condition holds and with supported values, padding as long as the offset needs - is folded to exactly the bytes it takes, and mapping these bytes at the offset, whatever precedes and follows them, gives the value. The values that fit are exactly those mapping can give. Values that do not fit are not always rejected.", "quantifier": "every definition, offset, value that fits, surrounding bytes; definitions of regular form that fold back, size expressions that see the same while folding", "why_tests_cant": "All values of all definitions; round trip tests start from bytes and never meet a value made by hand.", "anchors": ["dtfabric/runtime/data_maps.py:StructureMap.FoldByteStream", "dtfabric/runtime/data_maps.py:StreamMap.FoldByteStream", "dtfabric/runtime/data_maps.py:SequenceMap.FoldByteStream", "dtfabric/runtime/data_maps.py:PrimitiveDataTypeMap.FoldByteStream"]}
{"id": "C55", "title": "Reported struct formats describe the bytes that are read", "statement": "The struct object that a primitive, sequence or structure map reads its bytes with is the one that Python's struct module compiles from the strings that GetStructByteOrderString and GetStructFormatString return. If a map has a format string and its definition a byte size, then struct.calcsize of the format is that byte size, provided that the elements of sequences are numbers, characters or booleans.", "quantifier": "every definition of any nesting, all counts and sizes up to sys.maxsize", "why_tests_cant": "The format is text put together recursively from decimal counts and characters; tests use a handful of formats.", "anchors": ["dtfabric/runtime/data_maps.py:SequenceMap.GetStructFormatString", "dtfabric/runtime/data_maps.py:StructureMap.GetStructFormatString", "dtfabric/runtime/data_maps.py:StorageDataTypeMap._GetByteStreamOperation", "dtfabric/runtime/data_maps.py:ElementSequenceDataTypeMap.GetStructByteOrderString"]}
{"id": "C56", "title": "Where a value lies in the stream does not matter", "statement": "Mapping at an offset gives the same value or exception and leaves the same context as mapping the same bytes elsewhere: bytes put in front of the stream, with the offset moved by their number, change nothing, and mapping at an offset is mapping the rest of the stream at offset 0. The distance has to be a multiple of the alignment of any padding in the definition, since padding is aligned relative to the start of the stream.", "quantifier": "every definition and map of any nesting, all streams, offsets within the stream and prefixes, every context without state", "why_tests_cant": "Offsets are passed on and added up in every loop of every map; tests map nearly everything at offset 0.", "anchors": ["dtfabric/runtime/data_maps.py:SequenceMap._CompositeMapByteStream", "dtfabric/runtime/data_maps.py:StreamMap.MapByteStream", "dtfabric/runtime/data_maps.py:StructureMap._CompositeMapByteStream", "dtfabric/runtime/data_maps.py:StructureGroupMap.MapByteStream", "dtfabric/runtime/data_maps.py:PaddingMap.MapByteStream"]}
{"id": "C57", "title": "Definitions with explicit byte orders give the same on every host", "statement": "If the byte order of everything that is read is written down - at each number of more than one byte, or at the structure or sequence it takes its byte order from, and at structures that are read in one go - then creating a map raises the same error or gives maps that map every stream to the same value or exception with the same context, fold every value to the same bytes and give the same size hints on little-endian and big-endian hosts. Whether a map can be created and its size hints never depend on the host.", "quantifier": "every definition of any nesting, every stream, offset, value and context, both hosts", "why_tests_cant": "Tests run on one host, nearly always a little-endian one.", "anchors": ["dtfabric/runtime/data_maps.py:StorageDataTypeMap.GetStructByteOrderString", "dtfabric/runtime/data_maps.py:StorageDataTypeMap._GetByteStreamOperation", "dtfabric/runtime/data_maps.py:StructureMap._GetMemberDataTypeMaps", "dtfabric/runtime/data_maps.py:ElementSequenceDataTypeMap._GetElementDataTypeMap", "dtfabric/runtime/data_maps.py:StructureMap._CheckLinearMap"]}
{"id": "C58", "title": "Text of the common encodings survives folding and mapping", "statement": "For ASCII, Latin-1, UTF-8, UTF-16 and UTF-32: a null-terminated string maps to a text exactly if the bytes at the offset are that text encoded, followed by a null character, and the text contains no null character. A text without null characters folds to its encoded form with a null character at the end, or raises FoldingError exactly if it contains a character the encoding does not have. So folding and mapping are inverse on such texts, in both directions. Texts with null characters are not rejected and do not come back.", "quantifier": "every text of any length, every stream, offset and surrounding bytes, eight encodings with strict error handling and elements of the size of their code units", "why_tests_cant": "All texts, including surrogate pairs and multi-byte characters whose bytes contain the terminator at odd positions.", "anchors": ["dtfabric/runtime/data_maps.py:StringMap.FoldByteStream", "dtfabric/runtime/data_maps.py:StringMap.MapByteStream", "dtfabric/runtime/data_maps.py:StreamMap.MapByteStream", "dtfabric/runtime/data_maps.py:StreamMap.FoldByteStream"]}
{"id": "C59", "title": "A mapped value is no larger than its bytes allow", "statement": "If the elements of all sequences of a definition take up at least one byte, then the number of objects, characters and bytes that a mapped value consists of is at most the number of bytes it takes up, or one, times twice the number of definitions that the definition consists of. A count or size in the data thus cannot make the mapping produce more than the stream pays for, and mapping ends. It can be read off a definition that its values take up space: numbers and UUIDs do, streams and strings whose size is not computed, sequences of such elements with a fixed number or a terminator, structures with such a member that has no condition, and groups of such structures. If elements need not take up space, five bytes can map to a value of billions of parts.", "quantifier": "every definition of any nesting with sensible sizes, every stream, offset and value, every evaluator, and codecs that decode to at most one character per byte", "why_tests_cant": "Counts and sizes come from untrusted data; tests use small ones.", "anchors": ["dtfabric/runtime/data_maps.py:SequenceMap._CompositeMapByteStream", "dtfabric/runtime/data_maps.py:SequenceMap._LinearMapByteStream", "dtfabric/runtime/data_maps.py:StreamMap.MapByteStream", "dtfabric/runtime/data_maps.py:StructureMap._CompositeMapByteStream", "dtfabric/runtime/data_maps.py:StructureGroupMap.MapByteStream"]}
{"id": "C60", "title": "The order of keys in a definition file does not matter", "statement": "Writing the keys of a document of a definition file in another order - and those of its attributes, of its members and of the unions within them, of its enumeration values and of its layout elements - changes nothing: the file is read without error exactly if it was before, into the very same registry, so that every name has the same map. Lists keep their order, and the names of the members of a family or group have to be a list for this: if they are given as the keys of a mapping, their order is that of the keys.", "quantifier": "every definition file, of any number of documents with any nesting of unions, and every reordering of distinct keys", "why_tests_cant": "There are n! orders of n keys, at every level; tests write the keys in one of them.", "anchors": ["dtfabric/reader.py:DataTypeDefinitionsReader._ReadDataTypeDefinition", "dtfabric/reader.py:DataTypeDefinitionsReader._ReadDataTypeDefinitionWithMembers", "dtfabric/reader.py:DataTypeDefinitionsReader._ReadMemberDataTypeDefinitionMember", "dtfabric/reader.py:YAMLDataTypeDefinitionsFileReader.ReadFileObject"]}
{"id": "C61", "title": "The order of documents in a definition file does not matter beyond definition before use", "statement": "If no alias is, but for case, the name of another definition: documents of a file that are read without error in another order define the same, so that every name has the same map; any order in which each definition comes after the ones it refers to is read without error, and no other is; and documents taken from a file that are read without error on their own define what they define in that file. Without that condition the order decides what an alias stands for.", "quantifier": "every definition file of any length and every reordering or selection of its documents", "why_tests_cant": "Definition files are split, merged and sorted by hand; tests read a few of them as they are.", "anchors": ["dtfabric/reader.py:YAMLDataTypeDefinitionsFileReader.ReadFileObject", "dtfabric/registry.py:DataTypeDefinitionsRegistry.GetDefinitionByName", "dtfabric/registry.py:DataTypeDefinitionsRegistry.RegisterDefinition"]}
{"id": "C62", "title": "Structure values made by hand are what mapping gives and folding takes", "statement": "CreateStructureValues takes a value for each member in the order of the definition, by position or by name; members left out are None; too many values, unknown names and members given twice raise TypeError. Every structure value that mapping gives can be made this way, and every value that fits its definition can be made this way, is folded to as many bytes as it takes and mapped back from them.", "quantifier": "every structure definition with clear names, every number of arguments and keywords, every stream and value", "why_tests_cant": "The class is generated per definition; tests create one with a few members by position.", "anchors": ["dtfabric/runtime/data_maps.py:StructureMap.CreateStructureValues", "dtfabric/runtime/runtime.py:StructureValuesClassFactory.CreateClass"]}
{"id": "C63", "title": "Enumerations and formats read from a file give the names and layouts written in it", "statement": "For a definition file of plain documents that is read without error: asking the map of an enumeration for the name of a number gives the name that is written beside that number, and None for every number that is not written. The map of a format has exactly the layout elements that are written, in their order, with their data types and offsets.", "quantifier": "every definition file of any length with plain values, every enumeration and format in it, every number", "why_tests_cant": "The names pass through reader, registry, map factory and two dictionaries; tests look up a few of them.", "anchors": ["dtfabric/runtime/data_maps.py:EnumerationMap.GetName", "dtfabric/runtime/data_maps.py:FormatMap.layout", "dtfabric/reader.py:DataTypeDefinitionsReader._ReadEnumerationDataTypeDefinition", "dtfabric/reader.py:DataTypeDefinitionsReader._ReadFormatDataTypeDefinition", "dtfabric/data_types.py:EnumerationDefinition.AddValue"]}
{"id": "C64", "title": "Different bytes never map to the same value", "statement": "If two streams map at an offset to the same value, then the value takes the same number of bytes in both and these bytes are the same - so that nothing is lost in mapping, and equal values mean equal data. The definition has to be one that tells its bytes apart: its booleans have both a false and a true value, its UUIDs a byte order, its strings a size or a terminator but not both and an encoding that has one form of each text, and groups choose from structures of different names. Values of single precision floats must not be NaN. Without the conditions on booleans, UUIDs, terminators and NaN it is false.", "quantifier": "every definition of regular form and any nesting, with conditions, expressions, groups and padding; every pair of streams, every offset and namespace", "why_tests_cant": "Pairs of all streams; tests compare a value with the expected one and never ask which other bytes give the same value.", "anchors": ["dtfabric/runtime/data_maps.py:StructureMap._CompositeMapByteStream", "dtfabric/runtime/data_maps.py:BooleanMap.MapValue", "dtfabric/runtime/data_maps.py:UUIDMap.MapByteStream", "dtfabric/runtime/data_maps.py:StringMap.MapByteStream", "dtfabric/runtime/data_maps.py:StructureGroupMap.MapByteStream", "dtfabric/runtime/data_maps.py:SequenceMap._CompositeMapByteStream"]}
{"id": "C65", "title": "Members appended to a structure do not change the members before them", "statement": "If members are appended to a structure definition and the expressions of the definition do not look at them: whatever the longer definition maps, the shorter one maps as well at the same place, to a value with the same members but for the appended ones and in no more bytes; and where both map they agree on the members they share. Mapping a structure with one more unconditional member whose type has no expressions is the same as mapping the structure without it and then the type of that member where the structure ended. If an expression does look at an appended member, that is false.", "quantifier": "every structure definition of regular form and any nesting, every list of appended members, every stream, offset and namespace", "why_tests_cant": "Formats grow over versions and a definition grows with them; tests fix one definition and cannot compare all definitions with all their extensions.", "anchors": ["dtfabric/runtime/data_maps.py:StructureMap._CompositeMapByteStream", "dtfabric/runtime/data_maps.py:StructureMap._LinearMapByteStream", "dtfabric/runtime/data_maps.py:StructureMap._CheckLinearMap"]}
{"id": "C66", "title": "Too few bytes are reported exactly where the next bytes are not there", "statement": "MapByteStream raises ByteStreamTooSmallError exactly if reading the definition comes to a point where everything so far is as defined and the bytes that are needed next are not in the stream: the bytes of a value, of a sequence or structure that is read in one go, of padding, of a stream of known size, a terminator, or the first missing member or element (or, for a sequence with a data size, if that size is used up by fewer elements than the size of one element promises). At every offset of every stream exactly one of three holds: the definition is read and mapping gives that value; bytes are lacking and mapping raises ByteStreamTooSmallError; or neither, and mapping raises MappingError.", "quantifier": "every definition of regular form and any nesting that is mapped to the end, every stream, offset and namespace", "why_tests_cant": "Callers decide from the kind of error whether to read more data; tests check a few streams that are too short and do not compare the kind of error with a definition of what is missing.", "anchors": ["dtfabric/runtime/data_maps.py:StructureMap._CompositeMapByteStream", "dtfabric/runtime/data_maps.py:StructureMap._LinearMapByteStream", "dtfabric/runtime/data_maps.py:SequenceMap._CompositeMapByteStream", "dtfabric/runtime/data_maps.py:StreamMap.MapByteStream", "dtfabric/runtime/data_maps.py:StringMap.MapByteStream", "dtfabric/runtime/data_maps.py:PaddingMap.MapByteStream", "dtfabric/runtime/data_maps.py:StructureGroupMap.MapByteStream"]}
{"id": "C67", "title": "Folding writes exactly the bytes the definition describes", "statement": "FoldByteStream returns bytes exactly if the definition describes bytes for the value, and then those bytes: integers in two's complement and booleans and characters as their numbers, in the size and byte order of the definition or the inherited one and only if they are in range; integers given for floats as the nearest double, singles rounded to nearest; UUIDs in their byte order; streams of the size that the definition gives, or with their terminator, which is added if it is not at the end; strings as the encoded bytes of such a stream; sequences of as many numbers as defined; and structures as their members in order, without those that are None, where expressions see the structure. There is at most one such byte string.", "quantifier": "every sound definition of any nesting, every Python value whatever its type, every clean context", "why_tests_cant": "All values of all types for all definitions; tests fold a few matching values and compare with literal bytes.", "anchors": ["dtfabric/runtime/data_maps.py:PrimitiveDataTypeMap.FoldByteStream", "dtfabric/runtime/data_maps.py:UUIDMap.FoldByteStream", "dtfabric/runtime/data_maps.py:SequenceMap._LinearFoldByteStream", "dtfabric/runtime/data_maps.py:StreamMap.FoldByteStream", "dtfabric/runtime/data_maps.py:StringMap.FoldByteStream", "dtfabric/runtime/data_maps.py:StructureMap._CompositeFoldByteStream", "dtfabric/runtime/data_maps.py:StructureMap._LinearFoldByteStream"]}
{"id": "C68", "title": "A value that cannot be folded raises FoldingError", "statement": "If the padding and streams inside a value are byte strings, folding it raises nothing but FoldingError, or MappingError if the definition has a size expression. If the definition furthermore has no size expressions, no sequences that are read element by element and no UUIDs in native byte order, then folding either returns the bytes that the definition describes for the value or, if there are none, raises FoldingError. With a stream or padding of another type it raises TypeError or returns the value instead of bytes.", "quantifier": "every sound definition of any nesting, every Python value with byte strings for streams and padding, every clean context", "why_tests_cant": "Callers catch FoldingError; tests provoke it with a few values per map and cannot exclude other exceptions for all values.", "anchors": ["dtfabric/runtime/data_maps.py:PrimitiveDataTypeMap.FoldByteStream", "dtfabric/runtime/data_maps.py:SequenceMap._LinearFoldByteStream", "dtfabric/runtime/data_maps.py:StreamMap.FoldByteStream", "dtfabric/runtime/data_maps.py:StringMap.FoldByteStream", "dtfabric/runtime/data_maps.py:PaddingMap.FoldByteStream", "dtfabric/runtime/data_maps.py:StructureMap._CompositeFoldByteStream", "dtfabric/runtime/data_maps.py:StructureMap._LinearFoldByteStream"]}
{"id": "C69", "title": "Editing one member of a value changes only its bytes", "statement": "If two values of a structure agree in every member but one and both are folded, the results are the same bytes before and the same bytes after the bytes of that member, which are those of its value: what its type writes, or nothing for None. If furthermore the first value was mapped from a stream, is one that folding writes back, and the member is a number, a UUID or numbers or bytes of a number that the definition gives, then the bytes of both values of the member are as many as its type has, so that what is written back is as long as what was mapped and differs from the stream only in place of the member.", "quantifier": "every structure definition of sound form and any nesting, every member of it, every pair of values that agree but for the member, every stream, offset and namespace", "why_tests_cant": "Patching a field of a binary file relies on all other bytes staying as they are for every value; tests fold whole values and compare with literal bytes.", "anchors": ["dtfabric/runtime/data_maps.py:StructureMap._CompositeFoldByteStream", "dtfabric/runtime/data_maps.py:StructureMap._LinearFoldByteStream", "dtfabric/runtime/data_maps.py:SequenceMap._LinearFoldByteStream", "dtfabric/runtime/data_maps.py:StreamMap.FoldByteStream", "dtfabric/runtime/data_maps.py:PrimitiveDataTypeMap.FoldByteStream"]}
{"id": "C70", "title": "Changed bytes of one member change only that member", "statement": "If a structure maps and one of its members has a type of fixed size without expressions to which no later expression looks, there is a place in the stream, inside the bytes of the structure, at which the type of the member maps to the value of the member; and if the bytes at that place are replaced by as many others, the structure maps exactly if the type of the member maps there to a value that the member supports, to the value that has this value for the member and is the same in all others, in as many bytes. If a later expression does look at the member, that is false.", "quantifier": "every structure definition of regular form and any nesting without structure groups, every member of fixed size, every stream, offset and namespace, every replacement of its bytes", "why_tests_cant": "Users tell fields of a binary format apart by changing bytes and looking which values change; tests map a few streams and never compare them with changed ones.", "anchors": ["dtfabric/runtime/data_maps.py:StructureMap._CompositeMapByteStream", "dtfabric/runtime/data_maps.py:StructureMap._LinearMapByteStream"]}
{"id": "C71", "title": "Members moved into a structure of their own are read as before", "statement": "If consecutive members of a structure without expressions are replaced by one member whose type is a structure of exactly these members, and the expressions of the other members look neither at the moved members nor at the new one, then the two definitions map the same streams in the same number of bytes: the values of the one are the values of the other with the moved attributes as a structure under the name of the new member, and the reverse. If an expression does look at a moved member, the new definition can fail where the old one maps.", "quantifier": "every structure definition of regular form and any nesting, every run of its members, every stream, offset and namespace", "why_tests_cant": "Definitions are refactored by naming repeated groups of members; tests compare values of single definitions with literals and cannot compare all definitions with all their regroupings.", "anchors": ["dtfabric/runtime/data_maps.py:StructureMap._CompositeMapByteStream", "dtfabric/runtime/data_maps.py:StructureMap._LinearMapByteStream", "dtfabric/runtime/data_maps.py:StructureMap._CheckLinearMap", "dtfabric/runtime/data_maps.py:StructureMap._GetMemberDataTypeMaps"]}
{"id": "C72", "title": "Names are only labels where no expression looks at them", "statement": "If two definitions differ in nothing but names, aliases and descriptions, at any depth, and have no conditions or size expressions, then both map the same streams, in the same number of bytes, to values that differ in nothing but the names of classes and attributes. If an expression looks at a renamed member, the definition with the other name can fail where the first maps.", "quantifier": "every two definitions of regular form and any nesting with the same structure but for names, every stream, offset and namespace", "why_tests_cant": "Renaming fields is the most common change to a definition file; names also take part in the names of copied types, of classes and in a lookup of types by name, and tests do not compare a definition with its renamings.", "anchors": ["dtfabric/runtime/data_maps.py:StructureMap._GetMemberDataTypeMaps", "dtfabric/runtime/data_maps.py:ElementSequenceDataTypeMap._GetElementDataTypeDefinition", "dtfabric/runtime/data_maps.py:StructureMap._CompositeMapByteStream", "dtfabric/runtime/data_maps.py:StructureMap._LinearMapByteStream"]}
{"id": "C73", "title": "A sequence is read like the structure that lists its elements", "statement": "A sequence of exactly k elements of a type without expressions that takes up at least one byte, and a structure of the same byte order with k unconditional members of that type, map the same streams in the same number of bytes: the one to a tuple of values exactly if the other to the structure with these values, in order. If the type is a structure of native byte order and the sequence has a byte order, the two can give different values, because elements keep the native byte order and members do not.", "quantifier": "every element type of regular form and any nesting, every number of elements, every names of the members, every stream, offset and namespace", "why_tests_cant": "Definitions are rewritten from repeated members to sequences and back; the two are read by different code, and in one go or element by element depending on the type; tests map a few literal streams with each of them and never compare them.", "anchors": ["dtfabric/runtime/data_maps.py:SequenceMap._LinearMapByteStream", "dtfabric/runtime/data_maps.py:SequenceMap._CompositeMapByteStream", "dtfabric/runtime/data_maps.py:StructureMap._LinearMapByteStream", "dtfabric/runtime/data_maps.py:StructureMap._CompositeMapByteStream", "dtfabric/runtime/data_maps.py:ElementSequenceDataTypeMap._GetElementDataTypeDefinition", "dtfabric/runtime/data_maps.py:StructureMap._GetMemberDataTypeMaps"]}
{"id": "C74", "title": "How the length of a sequence, stream or string is given does not change what is read", "statement": "If a sequence maps to a tuple, then every other sequence of the same element type and byte order that asks for exactly these elements, by a number of elements, by a terminator that the last and no other of them equals, or by a data size of as many elements of fixed size, each literally or by an expression in its own namespace, maps to the same tuple in the same number of bytes. So for streams, where only the bytes and not the elements matter, and for strings with the same terminator and encoding. A string of a data size without the terminator keeps the terminator as text.", "quantifier": "every element type of regular form and any nesting, every two ways of giving the length, every stream, offset and pair of namespaces", "why_tests_cant": "Definitions are changed from fixed lengths to expressions and terminators as formats become understood; the ways are read by different code, in one go or element by element, and tests only compare each of them with literals.", "anchors": ["dtfabric/runtime/data_maps.py:SequenceMap._LinearMapByteStream", "dtfabric/runtime/data_maps.py:SequenceMap._CompositeMapByteStream", "dtfabric/runtime/data_maps.py:ElementSequenceDataTypeMap._CalculateElementsDataSize", "dtfabric/runtime/data_maps.py:ElementSequenceDataTypeMap._EvaluateElementsDataSize", "dtfabric/runtime/data_maps.py:ElementSequenceDataTypeMap._EvaluateNumberOfElements", "dtfabric/runtime/data_maps.py:StreamMap.MapByteStream", "dtfabric/runtime/data_maps.py:StringMap.MapByteStream"]}
{"id": "C75", "title": "A sequence or stream can be read in parts", "statement": "A sequence maps to the elements of one list followed by those of another exactly if a sequence of the same elements that asks for the first list maps to it at the same offset and one that asks for the second maps to it directly after that; the number of bytes is the sum of theirs. Each of the three may give its length by a number, a terminator or a data size, literally or by an expression. So for streams.", "quantifier": "every element type of regular form and any nesting, every way of giving the three lengths, every stream, offset and namespace, every place of division", "why_tests_cant": "Long arrays are read in blocks, and a header is split from an array; that gives the same values only if no element depends on where reading began. Tests map whole sequences.", "anchors": ["dtfabric/runtime/data_maps.py:SequenceMap._LinearMapByteStream", "dtfabric/runtime/data_maps.py:SequenceMap._CompositeMapByteStream", "dtfabric/runtime/data_maps.py:ElementSequenceDataTypeMap._CalculateElementsDataSize", "dtfabric/runtime/data_maps.py:ElementSequenceDataTypeMap._EvaluateNumberOfElements", "dtfabric/runtime/data_maps.py:StreamMap.MapByteStream"]}
{"id": "C76", "title": "External values at which no expression looks do not matter", "statement": "If two sets of external values agree on the names at which the expressions of a definition look, at any depth, then mapping with the one gives the same value in the same number of bytes as with the other, or fails with the same error, and size hints and folding give the same result. The names of the structures to whose members expressions refer are among these names: an external value of such a name takes the place of the structure.", "quantifier": "every definition of any nesting, every set of names, every stream, offset and pair of namespaces", "why_tests_cant": "Callers pass whole dictionaries of unrelated values; that these never change a result holds for all of them or is luck, and tests pass exactly the values needed.", "anchors": ["dtfabric/runtime/data_maps.py:ElementSequenceDataTypeMap._EvaluateElementsDataSize", "dtfabric/runtime/data_maps.py:ElementSequenceDataTypeMap._EvaluateNumberOfElements", "dtfabric/runtime/data_maps.py:StructureMap._CompositeMapByteStream", "dtfabric/runtime/data_maps.py:StructureGroupMap.MapByteStream", "dtfabric/runtime/data_maps.py:DataTypeMapContext"]}
{"id": "C77", "title": "What the requested size of a context says", "statement": "If padding, a sequence or structure read in one go, or a stream or string of known size fails because the stream is too small, the requested size of the context is a number of bytes, more than there are after the offset, such that with as many bytes or more the same map never fails for this reason, and a value takes exactly that many. After success it is the number of bytes of the value, for numbers and UUIDs too. It is None after a stream or string that looks for a terminator. Numbers and UUIDs that do not fit leave the context as it was, and sequences read element by element, structures read member by member and structure groups never change it, so after such a failure it does not say how much is needed.", "quantifier": "every map of any nesting, every stream and offset, every context without saved state, every longer stream", "why_tests_cant": "Callers read on and try again with the size that the context asks for; too small a number loops, too large a one reads past the end of the file. Tests compare a few numbers.", "anchors": ["dtfabric/runtime/data_maps.py:DataTypeMapContext", "dtfabric/runtime/data_maps.py:PrimitiveDataTypeMap.MapByteStream", "dtfabric/runtime/data_maps.py:SequenceMap._LinearMapByteStream", "dtfabric/runtime/data_maps.py:StreamMap.MapByteStream", "dtfabric/runtime/data_maps.py:PaddingMap.MapByteStream", "dtfabric/runtime/data_maps.py:StructureMap._LinearMapByteStream", "dtfabric/runtime/data_maps.py:StructureMap._CompositeMapByteStream"]}
{"id": "C78", "title": "A value can be carried from one byte order to the other", "statement": "Let a definition be given, and the one that is big-endian wherever it is little-endian and the other way around. There is a map for the one exactly if there is one for the other. If a value folds to bytes with the one, it folds with the other, to the same bytes with each number of big-endian or little-endian order the other way around, the first three fields of each UUID as well, and everything else, streams, strings, padding and numbers of native order, in place. A value that was mapped with the one, and that folds back, is folded with the other to as many bytes, and these are mapped to the same value.", "quantifier": "every definition of regular form of any nesting, every value, stream, offset and namespace", "why_tests_cant": "File formats exist in both byte orders (TIFF, ELF, pcap), and the definitions of both are used with the same code; the byte order of a member comes from its type, its structure or the host, and tests compare a few numbers per type.", "anchors": ["dtfabric/runtime/data_maps.py:PrimitiveDataTypeMap.FoldByteStream", "dtfabric/runtime/data_maps.py:UUIDMap.FoldByteStream", "dtfabric/runtime/data_maps.py:SequenceMap._LinearFoldByteStream", "dtfabric/runtime/data_maps.py:StructureMap._LinearFoldByteStream", "dtfabric/runtime/data_maps.py:StructureMap._CompositeFoldByteStream", "dtfabric/runtime/data_maps.py:StructureMap._GetMemberDataTypeMaps", "dtfabric/runtime/data_maps.py:ElementSequenceDataTypeMap._GetElementDataTypeDefinition"]}
{"id": "C79", "title": "A member can be kept as bytes and given its type later", "statement": "Let two structure definitions be the same but for one member, which in the one is a stream of bytes and in the other has a type, under the same name and condition. If the first reads the bytes b for this member and the type of the other maps all of b to a value that the member allows, then the second structure reads this value for the member, the same values for all other members, and takes as many bytes. The other way around, if the type takes a fixed number of bytes and the stream has this size, then the first structure reads, wherever the second reads a value, the bytes from which the type maps this value. This holds as long as no expression after the member looks at it, the expressions of the type do not look at the structure around it, and the type has no padding and no structure group in it. With padding it does not hold: the size of padding depends on where the member lies.", "quantifier": "All pairs of such definitions, all types of the member, all byte streams, offsets, contexts and values.", "why_tests_cant": "Tests map a nested structure either in place or on its own; that the two ways of decoding agree for all types and streams relates two definitions and three mappings.", "anchors": ["dtfabric/runtime/data_maps.py:StreamMap.MapByteStream", "dtfabric/runtime/data_maps.py:StructureMap._CompositeMapByteStream", "dtfabric/runtime/data_maps.py:StructureMap._LinearMapByteStream", "dtfabric/runtime/data_maps.py:StructureMap._GetMemberDataTypeMaps"]}
{"id": "C80", "title": "A type described in place and a type referred to are the same", "statement": "A member of a structure can describe its type in place or name a definition. Let two definitions differ in nothing but this, in the names of the types in them that are not structures, and in aliases and descriptions, at any depth. Then a value is mapped from a byte stream with the one exactly if it is mapped with the other, in the same number of bytes; a value folds to the same bytes with both; and there is a map for the one exactly if there is one for the other, as long as members say of what type they are.", "quantifier": "every two definitions of regular form and any nesting with the same plain form, every stream, offset, namespace and value", "why_tests_cant": "Definition files are refactored all the time: a type that several structures share is moved to a definition of its own. Tests read a few members of each kind; that the code treats the two kinds of definition objects alike everywhere is a statement about all pairs of definitions.", "anchors": ["dtfabric/reader.py:_ReadMemberDataTypeDefinitionMember", "dtfabric/data_types.py:MemberDataTypeDefinition", "dtfabric/runtime/data_maps.py:StructureMap._GetMemberDataTypeMaps", "dtfabric/runtime/data_maps.py:StructureMap._CheckLinearMap", "dtfabric/runtime/data_maps.py:StructureMap._CompositeMapByteStream", "dtfabric/runtime/data_maps.py:StructureMap._CompositeFoldByteStream"]}
{"id": "C81", "title": "Supported values decide whether a value is mapped, not to what", "statement": "Let a definition be given, and the one without the supported values of its members, at any depth, those inside structure groups excepted. A byte stream is mapped to a value with the first exactly if it is mapped to the same value with the second, in the same number of bytes, and every member that the value has, at any depth, has one of the supported values of its definition. Two definitions that differ only in supported values never map the same bytes to different values, and fold the same values to the same bytes, supported or not. If there is a map for the first there is one for the second.", "quantifier": "every definition of regular form and any nesting in which members with supported values are not UUIDs or structure groups, every stream, offset, namespace and value", "why_tests_cant": "Supported values are used as signatures, and are extended when a new version of a format is found; that this never changes how known files are read is a statement about all pairs of definitions and all streams.", "anchors": ["dtfabric/runtime/data_maps.py:StructureMap._CompositeMapByteStream", "dtfabric/runtime/data_maps.py:StructureMap._LinearMapByteStream", "dtfabric/runtime/data_maps.py:StructureMap._CheckLinearMap", "dtfabric/runtime/data_maps.py:StructureMap._GetMemberDataTypeMaps", "dtfabric/runtime/data_maps.py:SequenceMap._CompositeMapByteStream"]}
{"id": "C82", "title": "A definition with conditions reads like the definition of the members that are there", "statement": "If a structure with conditional members is mapped to a value, then the structure that lists only the members for which the value is not None, without conditions, is mapped from the same bytes to the same values, in the same number of bytes. The other way around, if a structure without conditions is mapped to a value, then so is one with further members and with conditions, as long as these conditions evaluate, with the members read so far, to true for the members of the first and to false for the further ones, which are None. This holds as long as the types of the members that are there have no expressions that look at the others; conditions can look at anything.", "quantifier": "every structure definition of regular form of any nesting none of whose members can be None although it is there, every stream, offset, namespace and value", "why_tests_cant": "One definition is written for all versions of a format, with conditions on the version, and has to read each version like a definition of this version alone. Tests read a few streams with one definition.", "anchors": ["dtfabric/runtime/data_maps.py:StructureMap._CompositeMapByteStream", "dtfabric/runtime/data_maps.py:StructureMap._GetMemberDataTypeMaps", "dtfabric/runtime/data_maps.py:StructureMap._LinearMapByteStream", "dtfabric/runtime/data_maps.py:StructureMap._CheckLinearMap", "dtfabric/runtime/runtime.py:StructureValuesClassFactory.CreateClass"]}
{"id": "C83", "title": "A structure group can get more structures without changing what was read before", "statement": "Let a definition be given, and another one that differs from it only in that structure groups without a default, at any depth, list further structures or have got a default, and that structure groups list their structures in another order. If the first maps a byte stream to a value then the second maps it to the same value, in the same number of bytes, as long as there is a map for it (which demands that no two structures of a group support the same identifier). So the order in which a group lists its structures does not matter. (A group that has a default can get no further structures: what it read with the default may be read with these instead.)", "quantifier": "every pair of such definitions of regular form and any nesting, every stream, offset, namespace and value", "why_tests_cant": "a test compares two versions of a group on the kinds of entries its author thought of; that a map over all identifiers, built from the listed values, is independent of order and of additions, wherever the group is nested, is a statement about all groups", "anchors": ["dtfabric/runtime/data_maps.py:StructureGroupMap._GetMemberDataTypeMaps", "dtfabric/runtime/data_maps.py:StructureGroupMap.MapByteStream"]}
{"id": "C84", "title": "Values written one after another are read back one after another", "statement": "A caller that maps a value at an offset, adds the byte size that the context gives, maps the next value there, and so on, each with its own definition and external values (such as a header and then records), reads from bytes that were written as the folded values one after another exactly these values, whatever precedes and follows them in the stream. Folding the values that were read one after another gives the bytes from the first offset to the last. The values and sizes depend on the stream and the maps only. If the stream ends early, the values that lie before its end are read as before, and the first that does not raises ByteStreamTooSmallError. Two streams put together give the values of the first and then those of the second, if the length of the first is a multiple of the alignments of the padding in the second.", "quantifier": "every list of definitions, maps, external values and values of any length, every stream and offset; for writing values that fit, for streams that end early definitions without structure groups and without elements that take up no space", "why_tests_cant": "a test reads one file; that reading can go on at the offset plus byte size after any value of any definition, for any number of values, and that a cut anywhere gives the values before it, is a statement about all of them", "anchors": ["dtfabric/runtime/data_maps.py:DataTypeMapContext", "dtfabric/runtime/data_maps.py:DataTypeMap.MapByteStream", "dtfabric/runtime/data_maps.py:DataTypeMap.FoldByteStream", "dtfabric/runtime/data_maps.py:StructureMap.MapByteStream"]}
{"id": "C85", "title": "Numbers of different types in the same bytes agree with each other", "statement": "The unsigned integer in some bytes is the signed one modulo 2 to the number of bits. An integer of twice the size is made of the two of half the size at its place, the more significant of them signed like the whole: first in big-endian, second in little-endian. A character is the one whose code is the signed integer at its place, a boolean is the one for which the unsigned integer stands, and the bits of a double are the unsigned integer of eight bytes. In each case one of them is mapped exactly if the other is. The number, boolean or character that is mapped from bytes in one byte order is mapped from the bytes written backwards in the other.", "quantifier": "every size, byte order and host, every stream, offset, namespace and value", "why_tests_cant": "a test compares a few numbers of a few types; that two types never disagree on any bytes, whatever their sizes, signs and byte orders, is a statement about all 2 to the 64 contents and all combinations", "anchors": ["dtfabric/runtime/data_maps.py:PrimitiveDataTypeMap.MapByteStream", "dtfabric/runtime/data_maps.py:IntegerMap.GetStructFormatString", "dtfabric/runtime/data_maps.py:CharacterMap.MapValue", "dtfabric/runtime/data_maps.py:BooleanMap.MapValue", "dtfabric/runtime/data_maps.py:FloatingPointMap.GetStructFormatString", "dtfabric/runtime/byte_operations.py:StructOperation.ReadFrom"]}
{"id": "C86", "title": "A sequence of integers and a stream of them take the same bytes", "statement": "A sequence of integers is mapped exactly if the stream with the same attributes is, and consumes the same bytes. The numbers are those that the bytes of the stream contain one after another, in the byte order that the integers inherit. The attributes have no terminator, and a data size is a multiple of the size of the integers. With a data size that is not, the stream takes the bytes left over while the sequence leaves them.", "quantifier": "every integer type, number of elements or data size, literal or expression, every stream, offset, namespace, host and value", "why_tests_cant": "a test compares the two for one length; that the fast path of sequences, their element loop and the slice of streams agree on every length, including none and too few bytes, is a statement about three different pieces of code and all inputs", "anchors": ["dtfabric/runtime/data_maps.py:SequenceMap._LinearMapByteStream", "dtfabric/runtime/data_maps.py:SequenceMap._CompositeMapByteStream", "dtfabric/runtime/data_maps.py:StreamMap.MapByteStream", "dtfabric/runtime/data_maps.py:ElementSequenceDataTypeMap._CalculateElementsDataSize"]}
