{"id": "C01", "title": "Name hashing is the published MurmurHash3 of the text before the terminating zero", "statement": "HashNameString(text, seed) returns, for every zero-terminated text, the 32-bit MurmurHash3_x86_32 of exactly the bytes before the first zero, and HashData(data,len,seed) returns that hash of the first len bytes; the result is always below 2^32 and does not depend on anything after the terminator.", "quantifier": "every byte string of any length below 2^31, every seed, every content following the terminator", "why_tests_cant": "The space of strings is infinite; offline tools and the runtime must agree on every one of them or type lookups silently miss.", "anchors": ["src/clReflectCpp/clcpp.cpp:MurmurHash3", "src/clReflectCpp/clcpp.cpp:HashNameString", "src/clReflectCpp/clcpp.cpp:HashData"]}
{"id": "C02", "title": "Short names and mixed hashes never collide", "statement": "Two different names of the same length of at most four bytes always have different hashes; MixHashes(a,b) is one-to-one in b for a fixed a and one-to-one in a for a fixed b.", "quantifier": "all pairs of byte strings of equal length 0..4, all seeds, all pairs of 32-bit hashes", "why_tests_cant": "2^32 x 2^32 pairs cannot be enumerated; the claim rests on every mixing step being invertible modulo 2^32.", "anchors": ["src/clReflectCpp/clcpp.cpp:MurmurHash3", "src/clReflectCpp/clcpp.cpp:fmix", "src/clReflectCpp/clcpp.cpp:MixHashes"]}
{"id": "C03", "title": "Lookup by hash finds a primitive exactly when there is one", "statement": "On an array sorted by name hash (what the exporter writes), FindPrimitive / Database::GetName / GetType / GetNamespace / GetTemplate / GetFunction return an entry with the requested hash if the array has one and null (or the empty name) otherwise; the search always terminates and never reads outside the array.", "quantifier": "every sorted array of fewer than 2^30 entries, with or without duplicate hashes, and every requested hash", "why_tests_cant": "Boundary errors in a binary search only show for particular sizes and positions; all sizes and all hash patterns are involved.", "anchors": ["src/clReflectCpp/clcpp.cpp:BinarySearch", "src/clReflectCpp/clcpp.cpp:FindPrimitive", "src/clReflectCpp/clcpp.cpp:GetName", "src/clReflectCpp/clcpp.cpp:GetType"]}
{"id": "C04", "title": "Overload lookup returns exactly the overload set", "statement": "FindOverloadedPrimitive and Database::GetOverloadedFunction return the half-open index range holding all and only the entries with the requested hash, and the empty range 0..0 when there is none.", "quantifier": "every sorted array, every multiplicity of the hash, every requested hash", "why_tests_cant": "Any overload count at any position, including both ends of the array, must be covered.", "anchors": ["src/clReflectCpp/clcpp.cpp:SearchNeighbours", "src/clReflectCpp/clcpp.cpp:FindOverloadedPrimitive", "src/clReflectCpp/clcpp.cpp:GetOverloadedFunction"]}
{"id": "C05", "title": "A database exported at one address loads at any other address", "statement": "Making an exported memory image (under 4 GB) relative and loading the written file at any address yields the original image in which each listed pointer that is non-null and points past the image's first byte has moved by exactly the difference of the two base addresses, each null pointer is still null and every byte not listed as a pointer is unchanged; no range assertion fires. A listed pointer to the image's very first byte comes back null, because it is stored as offset zero.", "quantifier": "every image, every set of pointer schemas and relocations listing disjoint in-range pointers, every pair of base addresses", "why_tests_cant": "Load addresses are chosen by the allocator at run time; layouts are unbounded.", "anchors": ["src/clReflectExport/PtrRelocator.cpp:MakeRelative", "src/clReflectExport/CppExport.cpp:SaveCppExport", "src/clReflectCpp/clcpp.cpp:LoadMemoryMappedDatabase"]}
{"id": "C06", "title": "Foreign, outdated or truncated database files are rejected", "statement": "Database::Load returns false for every file whose signature or version differs from the current one (before allocating anything) and for every strict prefix of a valid exported file, whatever the point at which it was cut.", "quantifier": "every byte sequence with a different header, every valid file and every truncation point", "why_tests_cant": "A crash while copying the file can cut it at any byte.", "anchors": ["src/clReflectCpp/clcpp.cpp:LoadMemoryMappedDatabase", "src/clReflectCpp/clcpp.cpp:ReadArray", "src/clReflectCpp/clcpp.cpp:Load"]}
{"id": "C07", "title": "What a failed load leaves allocated", "statement": "When Database::Load returns false, the blocks still held from the caller's allocator are exactly these: none if the header is missing or rejected, and otherwise the image (even if its own read failed) and each array read in full before the failing read; an array whose read failed is the only block given back. So every failure after the header leaks.", "quantifier": "every file content and length", "why_tests_cant": "There is one failure point per read; each leaves a different set of live blocks.", "anchors": ["src/clReflectCpp/clcpp.cpp:LoadMemoryMappedDatabase", "src/clReflectCpp/clcpp.cpp:ReadArray"]}
{"id": "C08", "title": "A successful load keeps exactly one block, freed by the destructor", "statement": "When Database::Load returns true the only live block it allocated is the database image, every temporary block was freed exactly once, and destroying the Database frees that block.", "quantifier": "every file that loads successfully", "why_tests_cant": "Depends on the number and size of schemas, offsets and relocations in the file.", "anchors": ["src/clReflectCpp/clcpp.cpp:LoadMemoryMappedDatabase", "src/clReflectCpp/clcpp.cpp:~Database"]}
{"id": "C09", "title": "Function addresses are rebased exactly once and only when present", "statement": "After Load every function with a recorded address a has address a - recorded base + actual base (modulo the pointer width), functions without an address stay null, and with OPT_DONT_REBASE_FUNCTIONS all addresses are unchanged; every primitive in the primitive tables reports the loading database as its owner.", "quantifier": "every function table, every recorded and actual base address, both option settings", "why_tests_cant": "Address-space randomisation picks the base at run time.", "anchors": ["src/clReflectCpp/clcpp.cpp:RebaseFunctions", "src/clReflectCpp/clcpp.cpp:ParentPrimitivesToDatabase", "src/clReflectCpp/clcpp.cpp:Load"]}
{"id": "C10", "title": "DerivesFrom answers transitive inheritance exactly", "statement": "Type::DerivesFrom(hash) is true if and only if some direct or indirect base (one or more inheritance steps up) has that name hash; it never reports a type as derived from itself unless an ancestor really has its hash, and it terminates on every acyclic hierarchy.", "quantifier": "every finite acyclic inheritance graph including multiple and diamond inheritance, every hash", "why_tests_cant": "Hierarchies have unbounded depth and width.", "anchors": ["src/clReflectCpp/clcpp.cpp:DerivesFrom"]}
{"id": "C11", "title": "Enum value names", "statement": "Enum::GetValueName(v) returns the name of the first constant, in stored order, whose value is v, and null exactly when no constant has that value.", "quantifier": "every constant list, every value including negative ones and duplicates", "why_tests_cant": "Universally quantified over enums.", "anchors": ["src/clReflectCpp/clcpp.cpp:GetValueName"]}
{"id": "C12", "title": "Reflected C-array iterators visit every element once, in order", "statement": "A ReadIterator (and WriteIterator) over a reflected fixed-size array of count elements of a type yields exactly count positions, the i-th being base + i * element size (pointer size when the array holds pointers), and stops; asking for one more traps instead of touching memory.", "quantifier": "every element size, every count, pointer and value arrays", "why_tests_cant": "Sizes and counts are unbounded.", "anchors": ["src/clReflectCpp/Containers.cpp:ArrayReadIterator", "src/clReflectCpp/Containers.cpp:ArrayWriteIterator"]}
{"id": "C13", "title": "A WriteBuffer holds exactly the concatenation of what was written", "statement": "After any history of Write, WriteChar, WriteStr, Alloc and Reset calls the first GetBytesWritten() bytes of the buffer are the concatenation of the written chunks since the last Reset; growing the buffer never changes bytes already written, and capacity is never exceeded.", "quantifier": "every history of calls, every chunk size, every initial capacity of at least two bytes, totals below 2^32", "why_tests_cant": "Growth can be triggered at any write in any history.", "anchors": ["src/clReflectUtil/Serialise.cpp:WriteBuffer::Alloc", "src/clReflectUtil/Serialise.cpp:WriteBuffer::Write"]}
{"id": "C14", "title": "When appending to a WriteBuffer terminates", "statement": "Every Write to a WriteBuffer whose capacity is at least 2 and whose total size stays within 2863311531 bytes returns, with a capacity that covers the write and never shrank. With capacity 0 or 1 the growth loop never ends, and neither does it one byte above that bound.", "quantifier": "every capacity and every write length", "why_tests_cant": "Non-termination needs the particular capacities for which 1.5x growth makes no progress.", "anchors": ["src/clReflectUtil/Serialise.cpp:WriteBuffer::Alloc"]}
{"id": "C15", "title": "A ReadBuffer reads back what was written and traps past its end", "statement": "Reading the chunks of a WriteBuffer through a ReadBuffer in the order they were written returns them unchanged and leaves nothing; any Read, ReadAt or SeekRel traps exactly when it would go past the end of the data, and a Read from a non-negative position is never out of bounds. A seek before the start is not checked, and the read after it is out of bounds.", "quantifier": "every sequence of writes and the matching reads; every position, length and seek distance", "why_tests_cant": "All histories and all offsets are involved, including negative seeks.", "anchors": ["src/clReflectUtil/Serialise.cpp:ReadBuffer::Read", "src/clReflectUtil/Serialise.cpp:ReadBuffer::ReadAt", "src/clReflectUtil/Serialise.cpp:ReadBuffer::SeekRel"]}
{"id": "C16", "title": "The JSON lexer terminates and stays inside its input", "statement": "For every input below 2 GB and every point of it, asking for the next token ends with the read position inside the input and not further back; a token takes at least one character; getting none means that an error is recorded or that only white space was left, in which case the position is the end. Asking until there is none ends after at most as many tokens as there are bytes, at an error or at the end. A byte outside the input is looked at in exactly one case, which is a finding: the input ends right after the exponent letter of a number with a point (1.5e).", "quantifier": "every byte sequence below 2 GB, valid JSON or not, and every read position in it", "why_tests_cant": "Malformed input is unbounded; truncation can happen inside any token.", "anchors": ["src/clReflectUtil/JSONLexer.cpp:LexerNextToken", "src/clReflectUtil/JSONLexer.cpp:LexerNumber", "src/clReflectUtil/JSONLexer.cpp:VerifyDecimal", "src/clReflectUtil/JSONLexer.cpp:LexerString", "src/clReflectUtil/JSONLexer.cpp:LexerKeyword"]}
{"id": "C17", "title": "JSON tokens are recognised exactly", "statement": "Lexing the text of any sequence of structural characters, keywords, strings with escapes, decimal and 0x integers, decimal numbers and 0d numbers, with any white space around them and each number followed by something that cannot continue it, returns exactly that sequence without an error: string tokens give the place and number of the characters between the quotes, integers their value modulo 2^64 and decimals the bits of their text. Conversely a token obtained without an error is spelled by exactly the characters taken. Findings: a number at the very end of the input is an error, a wrong \\u escape gives a token as well as an error, and an integer followed by a stray exponent letter is taken for a decimal.", "quantifier": "every token sequence, every white space layout and every input below 2 GB", "why_tests_cant": "Unbounded sequences.", "anchors": ["src/clReflectUtil/JSONLexer.cpp:LexerNextToken", "src/clReflectUtil/JSONLexer.cpp:LexerString", "src/clReflectUtil/JSONLexer.cpp:LexerKeyword", "src/clReflectUtil/JSONLexer.cpp:LexerNumber", "src/clReflectUtil/JSONLexer.cpp:LexerHexInteger"]}
{"id": "C18", "title": "Signed integers survive a JSON save and load", "statement": "Every signed integer above -10^18 written by SaveJSON is written as its decimal text without touching memory outside the formatting buffer, and lexing that text, followed by anything that cannot continue it, gives the same value back. Every 64-bit value of -10^18 or below writes outside the formatting buffer (a finding: 19 digits and a sign do not fit).", "quantifier": "every 64-bit signed value; every text around it", "why_tests_cant": "2^64 values; failures occur only at the widest negative values.", "anchors": ["src/clReflectUtil/SerialiseJSON.cpp:SaveInteger", "src/clReflectUtil/JSONLexer.cpp:LexerInteger", "src/clReflectUtil/SerialiseJSON.cpp:LoadInteger"]}
{"id": "C19", "title": "Unsigned and hexadecimal integers survive a JSON save and load", "statement": "Every unsigned 64-bit value written in decimal or in the 0x form is written inside the formatting buffer and lexes back to the same value.", "quantifier": "every 64-bit unsigned value", "why_tests_cant": "2^64 values.", "anchors": ["src/clReflectUtil/SerialiseJSON.cpp:SaveUnsignedInteger", "src/clReflectUtil/SerialiseJSON.cpp:SaveHexInteger", "src/clReflectUtil/JSONLexer.cpp:LexerHexInteger"]}
{"id": "C20", "title": "Integers and bools keep their bytes, and narrower fields keep the low bits", "statement": "Loading a JSON integer into a field of a builtin integer type of 1, 2, 4 or 8 bytes writes exactly that many bytes holding the value modulo 2^(8*size); a bool gets 0 or 1; no other byte of the object changes. Saving a field of any builtin bool or integer type and loading the text into a field of the same type gives back the same bytes. The dispatch table finds the right functions for each builtin type; for any other type whose name's hash agrees modulo 47 with a builtin's it finds the builtin's (a finding: an integer given for an enum named Level writes 8 bytes).", "quantifier": "every integer, every builtin type and offset, every object, every text around the value", "why_tests_cant": "All values and offsets.", "anchors": ["src/clReflectUtil/SerialiseJSON.cpp:LoadInteger", "src/clReflectUtil/SerialiseJSON.cpp:SaveType", "src/clReflectUtil/SerialiseJSON.cpp:SetupTypeDispatchLUT", "src/clReflectUtil/SerialiseJSON.cpp:GetTypeDispatchIndex"]}
{"id": "C21", "title": "Objects survive a JSON save and load", "statement": "For every reflected class built from booleans, integers, enums, nested classes, base classes and C-arrays (and floats when written in hexadecimal), what SaveJSON writes for an object is a JSON document, and LoadJSON of it into any other object of the class reports no error and makes every saved value equal to the original one, changing nothing else. Assumed of the class: names are plain and told apart from those of the bases, fields lie inside the object, no pointer field is mappable, no saved field is of a transient class, enum values have names.", "quantifier": "every class description of that shape (any depth and width), every object, every combination of output flags", "why_tests_cant": "Classes are nested to unbounded depth.", "anchors": ["src/clReflectUtil/SerialiseJSON.cpp:SaveObject", "src/clReflectUtil/SerialiseJSON.cpp:LoadJSON"]}
{"id": "C22", "title": "JSON fields are matched by name; others are ignored", "statement": "LoadJSON of a well-formed document stores its members in order in the fields of the same name (own or inherited, not transient) and reports no error; members with any other name, whatever their value, make no difference; bytes that belong to no named field keep their value.", "quantifier": "every class, every well-formed JSON object with any white space, every field order", "why_tests_cant": "Unbounded documents.", "anchors": ["src/clReflectUtil/SerialiseJSON.cpp:ParserPair", "src/clReflectUtil/SerialiseJSON.cpp:ParserValue"]}
{"id": "C23", "title": "A cut JSON document is reported, or was cut right behind a member", "statement": "When LoadJSON reports no error for a text, the text begins with an opening brace and whole members separated by commas, and exactly these are stored. For a document cut at any byte this means: an error, or the first k members are stored in full and the cut is right behind the k-th (at least one, unless the document has none). It is not true that every cut is reported: the closing brace is never required (refuted with a witness).", "quantifier": "every document and every cut point; every text", "why_tests_cant": "A crash can cut the file at any byte.", "anchors": ["src/clReflectUtil/SerialiseJSON.cpp:LoadJSON", "src/clReflectUtil/SerialiseJSON.cpp:ParserObject"]}
{"id": "C24", "title": "Flag enums are written losslessly", "statement": "Saving an enum value that is a constant, or for flag enums a union of constants none of which sticks out of it, writes the names of constants that OR together to the value; loading a string stores the union of the values of the constants it names, separated by bars, and nothing when it names none. A value that only partly overlaps a constant of several bits is written as another value (refuted with a witness).", "quantifier": "every constant set, every value, every string", "why_tests_cant": "Depends on overlaps between constants.", "anchors": ["src/clReflectUtil/SerialiseJSON.cpp:SaveEnum", "src/clReflectUtil/SerialiseJSON.cpp:ParserString"]}
{"id": "C25", "title": "Versioned binary: save then load restores every saved number and enum", "statement": "SaveVersionedBinary of an object succeeds, and LoadVersionedBinary where its bytes stand in any data, into any object of the same class, restores every byte of the saved numbers and enums (in bases, nested classes and C arrays), changes no other byte, consumes exactly the bytes written and never leaves the data. It holds for classes whose enums are int-sized and hold one of their constants, whose type and field names each have one meaning, and that contain only types declared before them. A class with a plain pointer to its own type is not among them: saving it recurses for ever (finding, shown by a refuted theorem).", "quantifier": "every class description (nested classes, bases, enums, C-arrays, arrays of pointers), every object, every surrounding data", "why_tests_cant": "Unbounded nesting; every content of the object and of the data around it.", "anchors": ["src/clReflectUtil/SerialiseVersionedBinary.cpp:SaveObject", "src/clReflectUtil/SerialiseVersionedBinary.cpp:LoadObject"]}
{"id": "C26", "title": "Versioned binary: removed, added, reordered and retyped fields are tolerated", "statement": "Loading data saved by a different version of the types consumes exactly the bytes saved, gives the object every number whose chain of field names, array positions and type names exists in both versions with the same size, gives it every enum by the name of its constant, and leaves every other byte (new fields, transient fields, fields of a changed type, enum constants that are gone, array elements only the new version has) as it was; an object of a type of another name is left untouched. The versions must agree on which names are numbers, enums or classes, on which fields are arrays, and on the element types of arrays (see C27).", "quantifier": "every pair of versions of all types and every object of the old version, in any surrounding data", "why_tests_cant": "The pairs of versions are unbounded.", "anchors": ["src/clReflectUtil/SerialiseVersionedBinary.cpp:LoadClassField", "src/clReflectUtil/SerialiseVersionedBinary.cpp:LoadClass", "src/clReflectUtil/SerialiseVersionedBinary.cpp:LoadEnum"]}
{"id": "C27", "title": "Versioned binary: where reading goes on behind an array of a changed element type", "statement": "When the data has an array field with another element type, nothing is stored, but reading goes on exactly 20 bytes (the size of the container header) behind the end of the field, or stops with an assertion when there are fewer bytes left. So the intended behaviour, that the next field is read at its own place, fails (finding, shown by a refuted theorem: the field behind is lost, and an object that ends with such an array cannot be loaded).", "quantifier": "every type with an array field, every element type and content in the data, every following data", "why_tests_cant": "Depends on the payload size and what follows.", "anchors": ["src/clReflectUtil/SerialiseVersionedBinary.cpp:LoadContainer"]}
{"id": "C28", "title": "An ObjectGroup behaves as a finite map from unique id to object", "statement": "After any history of creating and destroying objects with distinct non-zero ids, FindObject(id) returns the live object with that id, and null when there is none.", "quantifier": "every history of additions, removals and lookups, every id pattern including colliding ones, across every table resize", "why_tests_cant": "Tombstones, wrap-around probing and resizes interact only in particular histories.", "anchors": ["src/clReflectUtil/Objects.cpp:AddHashEntry", "src/clReflectUtil/Objects.cpp:RemoveHashEntry", "src/clReflectUtil/Objects.cpp:FindObject", "src/clReflectUtil/Objects.cpp:Resize"]}
{"id": "C29", "title": "ObjectGroup lookups always terminate", "statement": "After any history the table has at least one never-used slot, so looking up or inserting any id terminates.", "quantifier": "every history, every id", "why_tests_cant": "An unbounded probe loop needs a table with no empty slot, reachable only by particular add/remove histories.", "anchors": ["src/clReflectUtil/Objects.cpp:AddHashEntry", "src/clReflectUtil/Objects.cpp:FindObject"]}
{"id": "C30", "title": "ObjectIterator yields each live object exactly once", "statement": "Iterating a group yields every live object it holds exactly once and then becomes invalid; with the recursive flag it also yields the objects of all nested groups exactly once.", "quantifier": "every reachable table, every nesting of groups", "why_tests_cant": "Depends on slot layout and nesting depth.", "anchors": ["src/clReflectUtil/Objects.cpp:ObjectIterator"]}
{"id": "C31", "title": "Scoped lookup prefers the innermost group", "statement": "FindObjectSearchParents returns the object of the nearest enclosing group that has the id, and null when none has.", "quantifier": "every chain of groups of any length", "why_tests_cant": "Chains are unbounded.", "anchors": ["src/clReflectUtil/Objects.cpp:FindObjectSearchParents"]}
{"id": "C32", "title": "Relative lookup follows the path of ids", "statement": "FindObjectRelative(ids, n) with n = 1 or n = 2 returns the object reached by descending through the nested group named by the first of two ids and looking up the last one, and null when some step is missing. For n >= 3 the descent does not happen (finding): every intermediate id is looked up in the receiver, so a three-id path that exists can return null.", "quantifier": "every tree of groups, every path of one or two ids; every longer path for the finding's exact description", "why_tests_cant": "Paths and trees are unbounded.", "anchors": ["src/clReflectUtil/Objects.cpp:FindObjectRelative"]}
{"id": "C33", "title": "Merging a database twice changes nothing", "statement": "Merging the same database a second time leaves the destination unchanged.", "quantifier": "every pair of databases (without NaN attribute values)", "why_tests_cant": "Depends on duplicates and overload sets of any size.", "anchors": ["src/clReflectMerge/DatabaseMerge.cpp:MergeDatabases", "src/clReflectMerge/DatabaseMerge.cpp:MergeOverloads"]}
{"id": "C34", "title": "Merging loses nothing and invents nothing", "statement": "After merging src into dest every primitive of dest is still there, every primitive of src is there (for unique primitives: one with its name is), and every primitive present came from dest or src.", "quantifier": "every pair of databases", "why_tests_cant": "All databases.", "anchors": ["src/clReflectMerge/DatabaseMerge.cpp:MergeDatabases", "src/clReflectMerge/DatabaseMerge.cpp:MergeUniques"]}
{"id": "C35", "title": "A class definition wins over forward declarations in any merge order", "statement": "After merging any sequence of databases a class is a forward declaration only if it was one in every database that mentions it, and a definition, once present, is never replaced.", "quantifier": "every sequence of databases, every order", "why_tests_cant": "Translation units are merged in arbitrary order.", "anchors": ["src/clReflectMerge/DatabaseMerge.cpp:MergeClasses"]}
{"id": "C36", "title": "Overloads are merged as a set", "statement": "After merging any sequence of databases the overload set of a name is the duplicate-free union of the overload sets, whatever the order (up to the order of the set).", "quantifier": "every sequence of databases and every permutation of it", "why_tests_cant": "All orders of all databases.", "anchors": ["src/clReflectMerge/DatabaseMerge.cpp:MergeOverloads"]}
{"id": "C37", "title": "Text databases round-trip", "statement": "Writing a database as text and reading the file back gives the same names and the same entries in every table, in the same order, when names and text values are non-empty, free of tabs, newlines and NULs and fit a line of 4095 bytes, every referenced name is in the name table, sizes and ids are 32 bit, integers and offsets are between 0 and 999999999, enums have size 4, template parameters leave no gap, functions have no address and the C library reads each float it printed as the same float. Outside that range the result is still determined: an integer comes back as its unsigned 32 bit value, divided by ten if that has ten digits (so negative integers are lost), enums get size 4 and function addresses become zero. An empty text value makes the reader dereference a null pointer. Reading ends for every file.", "quantifier": "every database; every file content for termination", "why_tests_cant": "Unbounded tables and strings; the failing cases need particular values.", "anchors": ["src/clReflectCore/DatabaseTextSerialiser.cpp:WriteTextDatabase", "src/clReflectCore/DatabaseTextSerialiser.cpp:ReadTextDatabase", "src/clReflectCore/FileUtils.cpp"]}
{"id": "C38", "title": "What is recognised as a text database", "statement": "IsTextDatabase answers false for a missing file. Otherwise the first of the first seven lines that starts with \"Format Version: \" decides: the answer is true exactly when the number on it is 1, and ReadTextDatabase refuses any other version. A file without such a line is accepted, whatever it contains: the database header is not required.", "quantifier": "every file content", "why_tests_cant": "All files.", "anchors": ["src/clReflectCore/DatabaseTextSerialiser.cpp:IsTextDatabase", "src/clReflectCore/DatabaseTextSerialiser.cpp:ReadTextDatabase"]}
{"id": "C39", "title": "Binary databases round-trip", "statement": "Writing a database in binary form and reading the file back gives the same names and the same entries in every table, in the same order, with function addresses zero (they are not stored); bytes after the end of the file do not matter. This holds when names and text values are C strings of at most 1023 bytes, every referenced name is in the name table, numbers fit their fields, each table has under 2^25 entries and no two text attributes have the same value (or values with the same hash). With a repeated text value, or a longer name, the file is written but cannot be read back. A missing file and a file that does not start with the right eight bytes are refused.", "quantifier": "every database", "why_tests_cant": "Unbounded tables; the failing ones need repeated text values or very long names.", "anchors": ["src/clReflectCore/DatabaseBinarySerialiser.cpp:WriteBinaryDatabase", "src/clReflectCore/DatabaseBinarySerialiser.cpp:ReadBinaryDatabase", "src/clReflectCore/DatabaseMetadata.cpp"]}
{"id": "C40", "title": "Attribute text is parsed as written or rejected", "statement": "For the source text of any list of attributes (flags, decimal integers that fit in an int, 0x hexadecimal integers, floats, symbols and quoted strings, with any spaces and tabs between tokens) ParseAttributes returns exactly those attributes in order and adds only their names to the database. Any text splits into tokens in at most one way; a text that does not split, or is blank, yields no attributes and changes nothing; any other text yields the attributes of the definitions it starts with. Nothing is read outside the text or its tokens except in one case: when a comma is the last token a definition is looked for past the end. Findings: that trailing comma, and 0X (capital) numbers being read as zero.", "quantifier": "every attribute list, every zero-terminated text and every state of the name table without hash clashes", "why_tests_cant": "Attribute lists, spacings and malformed texts are unbounded; reading past the tokens is undefined behaviour a test may not notice.", "anchors": ["src/clReflectScan/AttributeParser.cpp:ParseAttributes", "src/clReflectScan/AttributeParser.cpp:Lexer", "src/clReflectScan/AttributeParser.cpp:Parser"]}
{"id": "C41", "title": "Hash text round-trips", "statement": "hextoi(itohex(v)) = v for every 32-bit v, itohex always yields exactly eight lower-case hexadecimal digits, and hextoi/hextoi64 of any hexadecimal text in either case is its value modulo 2^32 / 2^64.", "quantifier": "all 32-bit values; all hexadecimal texts of any length; any previous content of the static buffer", "why_tests_cant": "The offline databases store every hash this way; 2^32 values and unbounded texts.", "anchors": ["src/clReflectCore/FileUtils.cpp:itohex", "src/clReflectCore/FileUtils.cpp:hextoi", "src/clReflectCore/FileUtils.cpp:hextoi64"]}
{"id": "C42", "title": "Exported parent arrays hold exactly the children", "statement": "Export of a well-formed database succeeds. Every primitive whose parent name resolves points at that parent and appears exactly once in that parent's array; no array holds anything else or an unfilled slot, except that return parameters and members of unreflected type are taken out. The global namespace lists exactly the primitives that name no parent. Constructors and destructors of template types point at the template type. (Finding: a primitive whose parent name does not resolve is listed nowhere.)", "quantifier": "every well-formed database whose fields have owners, whose addresses do not collide with name hashes in their low 32 bits and whose inheritance is acyclic; every memory layout and every way of ordering equal sort keys; every number of children per parent", "why_tests_cant": "The count-in-last-slot scheme must work for every number of children.", "anchors": ["src/clReflectExport/CppExport.cpp:Parent", "src/clReflectExport/CppExport.cpp:BuildCppExport", "src/clReflectExport/CppExport.cpp:GatherGlobalPrimitives"]}
{"id": "C43", "title": "Exported lookup arrays are sorted, so run-time lookup works", "statement": "The name table, the type table, every primitive table, the global namespace's arrays and every child array are sorted by name hash; therefore run-time lookup by hash finds an element of an array exactly when it has one, and finds every type in the type table. (Finding: base class arrays are filled after sorting and are not sorted.)", "quantifier": "every well-formed database whose fields have owners, whose addresses do not collide with name hashes in their low 32 bits and whose inheritance is acyclic; every memory layout and every way of ordering equal sort keys", "why_tests_cant": "All databases.", "anchors": ["src/clReflectExport/CppExport.cpp:BuildCArray", "src/clReflectExport/CppExport.cpp:SortPrimitives", "src/clReflectExport/CppExport.cpp:GatherTypePrimitives"]}
{"id": "C44", "title": "Inheritable flags reach every derived class", "statement": "After export the flags of a primitive are exactly the bits of its attributes, and for a class also the replicate bit of every class it directly or indirectly derives from and the custom flags of those that have custom_flag_inherit, whatever the order in which classes are processed.", "quantifier": "every well-formed database whose fields have owners, whose addresses do not collide with name hashes in their low 32 bits and whose inheritance is acyclic; every memory layout and every way of ordering equal sort keys", "why_tests_cant": "Depends on processing order over unbounded graphs.", "anchors": ["src/clReflectExport/CppExport.cpp:InheritFlagAttributes", "src/clReflectExport/CppExport.cpp:GetInheritedFlagAttributes", "src/clReflectExport/CppExport.cpp:GetFlagAttributeBits"]}
{"id": "C45", "title": "Classes and namespaces list no function or field of unknown type", "statement": "Every field a class lists has a type; every method and function a class or a namespace lists has only parameters with a type, and a return value with a type or none. (Finding: the global namespace is not cleaned and can list a function with a parameter of no type.)", "quantifier": "every well-formed database whose fields have owners, whose addresses do not collide with name hashes in their low 32 bits and whose inheritance is acyclic; every memory layout and every way of ordering equal sort keys, including databases referencing unreflected types", "why_tests_cant": "Depends on which references are missing.", "anchors": ["src/clReflectExport/CppExport.cpp:IsolateInvalidPrimitives", "src/clReflectExport/CppExport.cpp:RemoveInvalidFunctions", "src/clReflectExport/CppExport.cpp:VerifyPtr"]}
{"id": "C46", "title": "The return value is separated from the parameters", "statement": "After export a function with a parameter named return has it (the first) as its return parameter and its parameter list is the remaining parameters, each once; other functions have no return parameter and keep all parameters.", "quantifier": "every well-formed database whose fields have owners, whose addresses do not collide with name hashes in their low 32 bits and whose inheritance is acyclic; every memory layout and every way of ordering equal sort keys; every parameter list", "why_tests_cant": "All lists.", "anchors": ["src/clReflectExport/CppExport.cpp:AssignReturnParameters"]}
{"id": "C47", "title": "Parameter objects stay in place and are constructed and destroyed once", "statement": "In any sequence of Init calls of a parameter object cache, each followed by allocating any of the parameters of its function (up to fifteen), and the cache's destruction: nothing fails; all objects of a function are put one after the other in one block with room for all its parameters; every pointer AllocParameter returns stays valid, and GetParameter gives each parameter's type, qualifier and that pointer; AllocParameter constructs the object (unless it is a pointer or its type has no constructor) and touches no other memory; every constructed object is destroyed exactly once, by the next Init or the destruction, before its block is freed; the last block is freed. With sixteen parameters allocated, though there is room for sixteen, none can be read and the next Init or the destruction stops on an assertion; a seventeenth allocation stops too.", "quantifier": "every set of types with constructors and destructors, every sequence of functions and of allocated parameters, every caller's use of memory", "why_tests_cant": "Depends on sizes and counts of parameters and on the whole history of the cache.", "anchors": ["src/clReflectUtil/SerialiseFunction.cpp:ParameterObjectCache", "src/clReflectUtil/SerialiseFunction.cpp:ParameterData"]}
{"id": "C48", "title": "Field visiting reaches every field exactly once", "statement": "VisitFields, on an object of bounded depth, calls Visit exactly once for every pointer and (with VFT_All) every value of a basic type or enum that is reached from it through fields, C-array elements, container values and base types, without following pointers and without entering fields that have one of the stop flags; each call gets the right address, innermost field (none in a base reached without one), type and qualifier; the order is that of fields, then bases, depth first; nothing else is visited. With VFT_Pointers exactly the pointers of VFT_All are visited, in the same order. References are treated as values.", "quantifier": "every set of types, object address, container contents and stop-flag mask, unbounded nesting", "why_tests_cant": "Unbounded nesting, arrays and containers.", "anchors": ["src/clReflectUtil/FieldVisitor.cpp:VisitFields", "src/clReflectUtil/FieldVisitor.cpp:VisitField", "src/clReflectUtil/FieldVisitor.cpp:VisitClassFields", "src/clReflectCpp/Containers.cpp:ArrayReadIterator"]}
{"id": "C49", "title": "Overloads that differ in one parameter have different unique ids", "statement": "Two parameter lists of the same length that differ (in the hash of the spelled parameter type) at exactly one position get different function ids; the id depends only on the spelled parameter types in order.", "quantifier": "all parameter lists of any length", "why_tests_cant": "Hash chaining over unbounded lists.", "anchors": ["src/clReflectCore/Database.cpp:CalculateFunctionUniqueID"]}
{"id": "C50", "title": "Names are interned consistently", "statement": "For a text whose hash is not zero, Database::GetName(text) returns a name with that text and its hash, asking again returns the same name, names never disappear or change, the table is exactly the set of texts asked for, and a call traps exactly when another text with the same hash was asked for before. A text whose hash is zero gets the empty name instead (finding: such identifiers exist).", "quantifier": "every history of GetName calls", "why_tests_cant": "All histories.", "anchors": ["src/clReflectCore/Database.cpp:GetName"]}
{"id": "C51", "title": "Generated registration code indexes types consistently", "statement": "The C++ file generated for a merged database numbers its types (classes, then enums, then native types, leaving out those nested in classes); the initialisation function fills slot i with the type whose name has the hash of type i, the GetType specialisation of type i reads slot i and the GetTypeNameHash specialisation returns that hash; there is one pair of specialisations per type, those of unscoped enums for the Microsoft compiler only, and the slot array is exactly long enough. The header gives every such type one clcppTypeHash specialisation with the same hash. Names of global types are written from the global scope. This holds for names up to 400 characters; lines of more than 511 characters are cut.", "quantifier": "every merged database with names up to 400 characters, any number and nesting of namespaces, classes, enums and types", "why_tests_cant": "All databases.", "anchors": ["src/clReflectMerge/CodeGen.cpp:GenMergedCppImpl", "src/clReflectMerge/CodeGen.cpp:GenGetTypes", "src/clReflectMerge/CodeGen.cpp:GenGetTypesConstexpr", "src/clReflectMerge/CodeGen.cpp:BuildNamespaceContents", "src/clReflectMerge/CodeGen.cpp:CodeGen::Line"]}
{"id": "C52", "title": "Exported names are all retrievable", "statement": "Every name of the source database is in the exported name table with its text stored zero-terminated, the texts lie one after the other without gap or overlap, and run-time GetName(text) returns it.", "quantifier": "every well-formed database whose fields have owners, whose addresses do not collide with name hashes in their low 32 bits and whose inheritance is acyclic; every memory layout and every way of ordering equal sort keys; every name table of up to 2^30 names", "why_tests_cant": "All tables.", "anchors": ["src/clReflectExport/CppExport.cpp:BuildNames", "src/clReflectCpp/clcpp.cpp:GetName"]}
{"id": "C53", "title": "When container iterators may be destroyed", "statement": "A WriteIterator can be destroyed safely after any sequence of Initialise calls, including none and calls on types or fields that are not containers; a ReadIterator can be destroyed safely exactly when at least one Initialise call in its history found a container (otherwise its destructor runs on uninitialised storage).", "quantifier": "every sequence of Initialise calls on types and fields with or without container interfaces", "why_tests_cant": "The unsafe paths are those where initialisation silently did nothing; every history must be considered.", "anchors": ["src/clReflectCpp/Containers.cpp:ReadIterator::~ReadIterator", "src/clReflectCpp/Containers.cpp:WriteIterator::~WriteIterator", "inc/clcpp/Containers.h:Iterator"]}
{"id": "C54", "title": "CreateObject and DestroyObject are inverse on a group", "statement": "CreateObject on a class that has a constructor and a destructor (or on ObjectGroup) with a fresh non-zero id makes FindObject(id) return the new object, and DestroyObject on it afterwards makes every lookup answer as before; for any other type CreateObject returns null and leaves the group alone; id 0 in a group traps.", "quantifier": "every type, every reachable group, every id", "why_tests_cant": "Depends on table layout and history.", "anchors": ["src/clReflectUtil/Objects.cpp:CreateObject", "src/clReflectUtil/Objects.cpp:DestroyObject"]}
{"id": "C55", "title": "Decimal text denotes the value up to nine digits", "statement": "itoa(v) is the decimal text of v for every v below 10^9; for every 32-bit v of ten digits it drops the last digit (finding), so the text denotes v/10.", "quantifier": "all 32-bit values", "why_tests_cant": "2^32 values; the failing ones start at 10^9.", "anchors": ["src/clReflectCore/FileUtils.cpp:itoa"]}
{"id": "C56", "title": "Text replacement", "statement": "StringReplace(s, find, replace) with a non-empty find terminates and replaces exactly the leftmost, non-overlapping occurrences, never rescanning what it inserted; with an empty find it never terminates (finding).", "quantifier": "all strings", "why_tests_cant": "Unbounded strings, replacement may contain the pattern.", "anchors": ["src/clReflectCore/FileUtils.cpp:StringReplace"]}
{"id": "C57", "title": "Tokens are copied whole and in bounds", "statement": "ConsumeToken stores exactly the characters before the delimiter, terminated, and returns the rest, when the token is shorter than the buffer; a token as long as the buffer or longer writes one byte past it (finding).", "quantifier": "all texts, delimiters and buffer sizes", "why_tests_cant": "The overrun needs exactly long tokens.", "anchors": ["src/clReflectCore/FileUtils.cpp:ConsumeToken"]}
{"id": "C58", "title": "Files are read line by line", "statement": "The sequence of lines ReadLine returns is the sequence of newline-terminated lines of the file, each cut to 4095 bytes; bytes after the last newline are not returned (finding). startswith(text, cmp) is true exactly when cmp is a prefix; SkipWhitespace drops exactly the leading blanks and tabs.", "quantifier": "all file contents and texts", "why_tests_cant": "All files.", "anchors": ["src/clReflectCore/FileUtils.cpp:ReadLine", "src/clReflectCore/FileUtils.cpp:startswith", "src/clReflectCore/FileUtils.cpp:SkipWhitespace"]}
{"id": "C59", "title": "Hexadecimal floats survive a JSON save and load bit for bit", "statement": "A double saved with EMIT_HEX_FLOATS and loaded gives the same 64 bits, whatever they are, NaNs included; a float gives the same 32 bits whenever the float-double-float conversion of its value does. No other byte of the object changes.", "quantifier": "every double and float bit pattern, every object and offset, every text around the value", "why_tests_cant": "2^64 bit patterns.", "anchors": ["src/clReflectUtil/SerialiseJSON.cpp:SaveDecimal", "src/clReflectUtil/SerialiseJSON.cpp:SaveHexInteger", "src/clReflectUtil/JSONLexer.cpp:LexerHexInteger", "src/clReflectUtil/SerialiseJSON.cpp:LoadDecimal"]}
{"id": "C60", "title": "Versioned binary: save_vbin and load_vbin functions", "statement": "A field's save_vbin function is called with the object and the field's place, and exactly the bytes it writes are handed to the load_vbin function of the field of that name, in any version of the types and for an object at any place; whatever position the load function leaves in the data, reading of the following field starts at the end of this field's data, and memory is what the function made it.", "quantifier": "every class, every pair of functions, every field content, every position in the data the function stops at", "why_tests_cant": "The functions are user code.", "anchors": ["src/clReflectUtil/SerialiseVersionedBinary.cpp:LoadClassField", "src/clReflectUtil/SerialiseVersionedBinary.cpp:SaveClassField"]}
{"id": "C61", "title": "Versioned binary: loading arbitrary data", "statement": "Whatever bytes it is given, if LoadVersionedBinary returns it has changed nothing but the object. On data in which no byte has its top bit set (so that no size is negative) it always returns or stops with an assertion, at a position within the data. On arbitrary data neither holds: a field of size -12 is read for ever, and a negative size makes it read before the data (findings, shown by refuted theorems).", "quantifier": "every data, position, type description and object", "why_tests_cant": "Every byte sequence.", "anchors": ["src/clReflectUtil/SerialiseVersionedBinary.cpp:LoadObject", "src/clReflectUtil/SerialiseVersionedBinary.cpp:LoadClassField", "src/clReflectUtil/Serialise.cpp:ReadBuffer::SeekRel"]}
{"id": "C62", "title": "Exported primitives keep their data", "statement": "The exported tables hold every primitive of the source database in order, with its name hash, name text, values and unique id, and every type reference and template argument points at the type of that name, or is null if there is none.", "quantifier": "every well-formed database whose fields have owners, whose addresses do not collide with name hashes in their low 32 bits and whose inheritance is acyclic; every memory layout and every way of ordering equal sort keys", "why_tests_cant": "All databases and all values.", "anchors": ["src/clReflectExport/CppExport.cpp:CopyPrimitive", "src/clReflectExport/CppExport.cpp:BuildCArray", "src/clReflectExport/CppExport.cpp:Link"]}
{"id": "C63", "title": "Constructors and destructors are linked", "statement": "After export the constructor and destructor of a class are methods of that class with its name followed by ::ConstructObject and ::DestructObject, null exactly when it has none; those of a template type are the first functions with that name anywhere.", "quantifier": "every well-formed database whose fields have owners, whose addresses do not collide with name hashes in their low 32 bits and whose inheritance is acyclic; every memory layout and every way of ordering equal sort keys", "why_tests_cant": "Depends on which functions are reflected.", "anchors": ["src/clReflectExport/CppExport.cpp:FindClassConstructors", "src/clReflectExport/CppExport.cpp:FindTemplateTypeConstructors"]}
{"id": "C64", "title": "Container descriptions are linked", "statement": "Every container description is exported with its name, flags, count and read and write iterator types; each type, template instance or field points at the last description that names it, and at none if none does.", "quantifier": "every well-formed database whose fields have owners, whose addresses do not collide with name hashes in their low 32 bits and whose inheritance is acyclic; every memory layout and every way of ordering equal sort keys; every list of container descriptions", "why_tests_cant": "All databases.", "anchors": ["src/clReflectExport/CppExport.cpp:LinkContainerInfos", "src/clReflectExport/CppExport.cpp:LinkContainerIterator"]}
{"id": "C65", "title": "Base class arrays follow the inheritance records", "statement": "The base array of an exported type holds exactly the base of each inheritance record naming it as derived type, for which both types are reflected; walking base arrays finds exactly the classes it derives from.", "quantifier": "every well-formed database whose fields have owners, whose addresses do not collide with name hashes in their low 32 bits and whose inheritance is acyclic; every memory layout and every way of ordering equal sort keys; every inheritance graph", "why_tests_cant": "All graphs.", "anchors": ["src/clReflectExport/CppExport.cpp:BuildBaseClassArrays"]}
{"id": "C66", "title": "Attributes keep their text and references", "statement": "Every text attribute's value is stored zero-terminated and found at its offset; every primitive attribute refers to the last function its value names, otherwise to the type, otherwise to nothing.", "quantifier": "every well-formed database whose fields have owners, whose addresses do not collide with name hashes in their low 32 bits and whose inheritance is acyclic; every memory layout and every way of ordering equal sort keys", "why_tests_cant": "All databases.", "anchors": ["src/clReflectExport/CppExport.cpp:AssignAttributeText", "src/clReflectExport/CppExport.cpp:BuildCppExport"]}
{"id": "C67", "title": "JSON arguments of a function", "statement": "BuildParameterObjectCache_JSON, for any text that is a JSON array with at least as many values as the function has parameters (at most fifteen, each with its place in the call as offset): returns true, having for each parameter in the order of the call constructed it after the ones before it and stored the value in it just as LoadJSON stores a value in a field; further values are ignored. With fewer values it never returns true; a document that is not an array is refused and nothing is constructed or stored. What separates the values is not checked.", "quantifier": "every text, set of types, function, transient flags, history of the cache", "why_tests_cant": "Depends on every value of every document and on the order in which a function's parameters are stored.", "anchors": ["src/clReflectUtil/SerialiseFunction.cpp:BuildParameterObjectCache_JSON", "src/clReflectUtil/SerialiseJSON.cpp:LoadJSON"]}
{"id": "C68", "title": "Generated forward declarations declare each type once, where it belongs", "statement": "Both generated files declare every class, struct and enum whose enclosing namespaces lead up to the global one exactly once, with the right keyword and its unscoped name, inside exactly its namespaces, unscoped enums for the Microsoft compiler only; they open every namespace that has such a type anywhere in it exactly once and no other namespace; all blocks are closed. A type in a namespace that does not lead up to the global one gets specialisations but no declaration.", "quantifier": "every merged database, any nesting and number of empty namespaces, in any order", "why_tests_cant": "Unbounded trees of namespaces, from which empty ones are removed while iterating.", "anchors": ["src/clReflectMerge/CodeGen.cpp:BuildNamespaces", "src/clReflectMerge/CodeGen.cpp:RemoveEmptyNamespaces", "src/clReflectMerge/CodeGen.cpp:GenNamespaceForwardDeclare", "src/clReflectMerge/CodeGen.cpp:UnscopeName"]}
{"id": "C69", "title": "Generated files are rewritten only when their hash changes", "statement": "A generated file begins with the hash of the rest of it. Generation creates the file when there is none, replaces it by the new text when it begins with another hash or not with a comment, and leaves it as it is when it begins with the hash of the new text (whatever follows); so generating again from an unchanged database changes nothing. The .cpp and .h files are treated independently and only when asked for.", "quantifier": "every merged database and every previous content of either file", "why_tests_cant": "All file contents and databases.", "anchors": ["src/clReflectMerge/CodeGen.cpp:WriteFile", "src/clReflectMerge/CodeGen.cpp:CodeGen::GenerateHash", "src/clReflectMerge/CodeGen.cpp:CodeGen::PrefixLine", "src/clReflectMerge/CodeGen.cpp:GenMergedCppImpl"]}
{"id": "C70", "title": "Every pointer of an exported database is relocated when it is loaded", "statement": "For a database image laid out as clcpp.h and clcpp_internal.h declare (arrays inside the image and apart from each other, pointers null or into the image past its first byte, the allocator/database pointers and the global namespace's name and parent null, type_primitives naming each type, enum, class and template type once), writing it to a file succeeds, and loading that file at any address gives the same database: every array of every object is reached with the same element type and count, every pointer member of every object - not only those the exporter thought of - leads to the corresponding place or is still null, and every byte outside those pointers is unchanged.", "quantifier": "every image satisfying the stated layout, every export address, every load address, every number of objects of each kind", "why_tests_cant": "a pointer left out of the hand-written list of pointer members dangles only in databases that use that member, and only when the file is loaded at a different address than it was exported from", "anchors": ["src/clReflectExport/CppExport.cpp: SaveCppExport", "src/clReflectExport/PtrRelocator.cpp: AddSchema, AddPointers, MakeRelative", "inc/clcpp/clcpp.h", "inc/clcpp/clcpp_internal.h: DatabaseMem", "src/clReflectCpp/clcpp.cpp: LoadMemoryMappedDatabase"]}
{"id": "C71", "title": "The function name found in a demangled signature is a piece of that signature, and the exact name for plain and template functions", "statement": "For any signature in which no closing bracket is directly followed by a digit (so it is in C++), finding its function name ends and gives a piece of the signature that starts at its front or behind a blank (or with operator) and ends at a parenthesis or the end, whatever random digits the placeholders get. It is exactly the name for return-type name(parameters) when the name has no template arguments, and for names with one template argument list in which further lists only nest. Shown false, and recorded as findings: exact names for repeated argument lists (void N<int>::f<A<int> >(int) gives '>'), conversion operators, call operators and functions returning function pointers.", "quantifier": "every signature under 3*10^8 characters, every sequence of random digits, every return type, name, nesting depth and parameter text of the stated forms", "why_tests_cant": "signatures, digits of the random placeholder and combinations of overloads are unbounded; a wrong piece of text only shows as a null function pointer for some functions of some programs", "anchors": ["src/clReflectExport/MapFileParser.cpp: ParseFunctionName, ReplacePattern, ReplaceAll, RestoreReplacedString, FindRandomString"]}
{"id": "C72", "title": "A symbol of the linker map gives its address to exactly the function with that name and those parameters", "statement": "For a signature name(parameters) with or without const, whose parameter types are words, unsigned/signed words, template types and pointers or references to them written without const: the first function of the database with the name's hash and the chained hash of the parameters (for a scoped name: first with a leading pointer to the scope, const for const functions, then without) gets the address and nothing else changes; if there is none, no function changes. For any signature at all: functions keep name, parent and id, only get the address given, never 0; and a signature under 790 characters is read within the buffers and to an end. Shown false, and recorded: const parameters, long long, commas in template arguments and ** behind templates never match on these compilers; a static function taking its class's pointer and a member function share an id; type names of 1024 characters overrun the buffer.", "quantifier": "every database with distinguishable name hashes, every name, number and choice of parameters, every address; any signature for the frame", "why_tests_cant": "signatures, digits of the random placeholder and combinations of overloads are unbounded; a wrong piece of text only shows as a null function pointer for some functions of some programs", "anchors": ["src/clReflectExport/MapFileParser.cpp: ProcessFunctionItem, AddFunctionAddress, MatchParameter, ConsumeParameterToken", "src/clReflectCore/Database.cpp: CalculateFunctionUniqueID"]}
{"id": "C73", "title": "Generated construct, destruct and GetType functions are filed with their types", "statement": "A symbol clcppConstructObject...(T*) or clcppDestructObject...(T*) adds exactly one function T::ConstructObject or T::DestructObject with parent T, the id of a T* parameter and the address, and one field this of type T* with that function as parent and that id; nothing else but names changes. A symbol clcpp::GetType<T>() or clcpp::GetTypeNameHash<T>() sets that one of T's two addresses, and leaves the other, all other types' and all other tables alone. Shown false, and recorded: GetType addresses above 4 GB are cut to 32 bits; for template types T the entry is filed under a cut name.", "quantifier": "every database, every class name of the stated form, every suffix, return type and address", "why_tests_cant": "signatures, digits of the random placeholder and combinations of overloads are unbounded; a wrong piece of text only shows as a null function pointer for some functions of some programs", "anchors": ["src/clReflectExport/MapFileParser.cpp: AddClassImplFunction, AddGetTypeAddress, SkipTypePrefix, IsConstructFunction"]}
{"id": "C74", "title": "Reading a linker map takes addresses from the text section only and finds every listed function", "statement": "For a GNU ld map: without a .text line nothing is read; otherwise the base address is that of the first .text line with an address, every function address that changes is one a later line has, none is 0, and no function is lost or changes name, parent or id. If the later lines' symbols are functions as in C72 the result is the database with those addresses given in order; a function listed once, in a database where name and id tell functions apart, has that line's address. Maps whose symbols and signatures are under the limits are read within the buffers and to an end. Shown false, and recorded: an empty file dereferences null; a symbol of 1024 characters overruns its buffer.", "quantifier": "every map file, every behaviour of sscanf and of the demangler, every database, number and order of symbols", "why_tests_cant": "signatures, digits of the random placeholder and combinations of overloads are unbounded; a wrong piece of text only shows as a null function pointer for some functions of some programs", "anchors": ["src/clReflectExport/MapFileParser.cpp: ParseGCCMapFile, ParseLinuxGCCMapFile, MapFileParser::MapFileParser"]}
{"id": "C75", "title": "A scan records its declarations in source order and nothing else", "statement": "The tables of the database a scan ends with are those obtained by recording, for each source in turn, the builtin types and then what the reflected declarations give, in source order, and last the containers requested; attributes included. The declarations of a source leave exactly one way to do this.", "quantifier": "every list of translation units as Clang would hand them over (any nesting, number and order of declarations, any types, attributes and reflection requests) that the scan gets through, provided specialisations whose names hash alike are all describable or none is", "why_tests_cant": "Tests scan a handful of headers; what is recorded depends on nesting, marks, order of declarations, repeated and forward declarations, earlier translation units and earlier failures in any combination.", "anchors": ["src/clReflectScan/ASTConsumer.cpp: WalkTranlationUnit, AddDecl, AddContainedDecls, ParseAttributes", "src/clReflectScan/Main.cpp: main", "src/clReflectScan/ReflectionSpecs.cpp: Gather"]}
{"id": "C76", "title": "A field, function, enum or constant is in the database exactly when a reflected declaration gives it", "statement": "After a scan, a field (or parameter, or return value), function, enum or enum constant is in the database if and only if some declaration that is reached through reflected scopes, and is itself reflected by its attribute, by a request or by its scope, gives it; it is filed under its name's hash.", "quantifier": "every list of translation units as Clang would hand them over (any nesting, number and order of declarations, any types, attributes and reflection requests) that the scan gets through, provided specialisations whose names hash alike are all describable or none is", "why_tests_cant": "Tests scan a handful of headers; what is recorded depends on nesting, marks, order of declarations, repeated and forward declarations, earlier translation units and earlier failures in any combination.", "anchors": ["src/clReflectScan/ASTConsumer.cpp: AddFieldDecl, MakeFunction, AddMethodDecl, AddEnumDecl, MakeField"]}
{"id": "C77", "title": "Entries of the same name keep their number and source order", "statement": "Looking up a name gives every function, field, enum, constant or builtin type declared under it, in source order and as often as declared (builtin types once per source).", "quantifier": "every list of translation units as Clang would hand them over (any nesting, number and order of declarations, any types, attributes and reflection requests) that the scan gets through, provided specialisations whose names hash alike are all describable or none is", "why_tests_cant": "Tests scan a handful of headers; what is recorded depends on nesting, marks, order of declarations, repeated and forward declarations, earlier translation units and earlier failures in any combination.", "anchors": ["src/clReflectScan/ASTConsumer.cpp: MakeFunction, AddEnumDecl", "src/clReflectCore/Database.h: Add", "src/clReflectCore/Database.cpp: AddBaseTypePrimitives"]}
{"id": "C78", "title": "Namespaces, class templates and classes are recorded once", "statement": "A namespace, class template or class is in the database if and only if a reflected declaration gives it, and then once. Its scope (and for a class whether it is a class or a struct) is that of the first such declaration; a class has the size of the last definition, or the mark of a forward declaration if there is none.", "quantifier": "every list of translation units as Clang would hand them over (any nesting, number and order of declarations, any types, attributes and reflection requests) that the scan gets through, provided specialisations whose names hash alike are all describable or none is", "why_tests_cant": "Tests scan a handful of headers; what is recorded depends on nesting, marks, order of declarations, repeated and forward declarations, earlier translation units and earlier failures in any combination.", "anchors": ["src/clReflectScan/ASTConsumer.cpp: AddNamespaceDecl, AddClassDecl, AddClassTemplateDecl"]}
{"id": "C79", "title": "Arrays and containers", "statement": "The container entry of a name is the one requested for it by clcpp_container_info, the last such request of the whole run, and otherwise that of the array field or parameter declared first under that name, with its length; there is no other entry.", "quantifier": "every list of translation units as Clang would hand them over (any nesting, number and order of declarations, any types, attributes and reflection requests) that the scan gets through, provided specialisations whose names hash alike are all describable or none is", "why_tests_cant": "Tests scan a handful of headers; what is recorded depends on nesting, marks, order of declarations, repeated and forward declarations, earlier translation units and earlier failures in any combination.", "anchors": ["src/clReflectScan/ASTConsumer.cpp: MakeField", "src/clReflectScan/ReflectionSpecs.cpp: Gather", "src/clReflectCore/Database.cpp: AddContainerInfo"]}
{"id": "C80", "title": "Template instances", "statement": "Every template type in the database is a specialisation of the sources, named template<arguments>, with its template, its size, and the names and pointer marks of its arguments; the specialisations it mentions and its base classes are recorded as well. Every specialisation used by a recorded field, parameter, return value or base class is in the database. Shown false, and recorded: instances of four-argument templates are dropped although the template is recorded; instances that differ in the const of an argument share one entry.", "quantifier": "every list of translation units as Clang would hand them over (any nesting, number and order of declarations, any types, attributes and reflection requests) that the scan gets through, provided specialisations whose names hash alike are all describable or none is", "why_tests_cant": "Tests scan a handful of headers; what is recorded depends on nesting, marks, order of declarations, repeated and forward declarations, earlier translation units and earlier failures in any combination.", "anchors": ["src/clReflectScan/ASTConsumer.cpp: ParseTemplateSpecialisation, GetParameterInfo"]}
{"id": "C81", "title": "Inheritance", "statement": "Every inheritance entry is base<-derived for a base class of a reflected class or of a template specialisation, and the base classes of reflected classes are all recorded. Shown false, and recorded: a specialisation that is dropped for a later base leaves the entries of its earlier ones.", "quantifier": "every list of translation units as Clang would hand them over (any nesting, number and order of declarations, any types, attributes and reflection requests) that the scan gets through, provided specialisations whose names hash alike are all describable or none is", "why_tests_cant": "Tests scan a handful of headers; what is recorded depends on nesting, marks, order of declarations, repeated and forward declarations, earlier translation units and earlier failures in any combination.", "anchors": ["src/clReflectScan/ASTConsumer.cpp: ParseBaseClass, AddClassDecl", "src/clReflectCore/Database.cpp: AddTypeInheritance"]}
{"id": "C82", "title": "Attributes", "statement": "Every attribute in the database belongs to a declaration that is looked at, with that declaration's name as parent and the value written; and no attribute that is to be kept is lost: an equal one is in the database. Shown false, and recorded: equal attributes can be recorded twice; attributes of declarations that are not reflected are recorded.", "quantifier": "every list of translation units as Clang would hand them over (any nesting, number and order of declarations, any types, attributes and reflection requests) that the scan gets through, provided specialisations whose names hash alike are all describable or none is", "why_tests_cant": "Tests scan a handful of headers; what is recorded depends on nesting, marks, order of declarations, repeated and forward declarations, earlier translation units and earlier failures in any combination.", "anchors": ["src/clReflectScan/ASTConsumer.cpp: ParseAttributes, AddAttribute"]}
{"id": "C83", "title": "A function is recorded with all its parameters or not at all", "statement": "For every function in the database all its parameters are there, numbered from 0 in their order (this first), with the function's name as parent and its unique id, which is the id of exactly these parameters; and its return value, numbered -1, unless its type is called void. A field with a non-zero unique id belongs to a function in the database. Shown false, and recorded: a void* return value is dropped.", "quantifier": "every list of translation units as Clang would hand them over (any nesting, number and order of declarations, any types, attributes and reflection requests) that the scan gets through, provided specialisations whose names hash alike are all describable or none is", "why_tests_cant": "Tests scan a handful of headers; what is recorded depends on nesting, marks, order of declarations, repeated and forward declarations, earlier translation units and earlier failures in any combination.", "anchors": ["src/clReflectScan/ASTConsumer.cpp: MakeFunction, AddMethodDecl", "src/clReflectCore/Database.cpp: CalculateFunctionUniqueID"]}
{"id": "C84", "title": "A scan ends", "statement": "A scan of any source ends if no template specialisation mentions itself in its arguments or base classes, directly or through others. Shown false otherwise, and recorded: a field of type A<int> with template<class T> struct A : B<A<T>> makes the scanner recurse for ever.", "quantifier": "every list of translation units and every well-founded graph of template specialisations, of any depth", "why_tests_cant": "Termination for all inputs; the failing case needs a recursive template pattern.", "anchors": ["src/clReflectScan/ASTConsumer.cpp: ParseTemplateSpecialisation, ParseBaseClass, GetParameterInfo"]}
{"id": "C85", "title": "The database of a scan survives its file", "statement": "Whatever was scanned, the resulting database can be written to a binary file and is read back exactly as it was, and to a text file and is read back with exactly the losses of C37: the only conditions are the limits of the files (name and text length, table sizes, number widths, no two text values with the same hash, no container or base named with hash 0).", "quantifier": "every scan that gets through, of any list of translation units, within the limits of the file formats; anything may follow the data in the file", "why_tests_cant": "Whether some scanned construct leads to a row the file cannot hold depends on every combination of declarations; tests try a few.", "anchors": ["src/clReflectScan/Main.cpp: main, WriteDatabase", "src/clReflectCore/DatabaseBinarySerialiser.cpp: WriteBinaryDatabase, ReadBinaryDatabase", "src/clReflectCore/DatabaseTextSerialiser.cpp: WriteTextDatabase, ReadTextDatabase"]}
{"id": "C86", "title": "Sources scanned apart and merged give what they declare", "statement": "Scanning sources in separate runs and merging the databases gives a database that holds exactly the functions, fields (and parameters) and enum constants some run declares, each once; of namespaces, templates, enums and types the first declared under a name, run by run in source order; of classes one per name, taken from the first run that defines it, so that a class is left a forward declaration only if no run defines it; the attributes of all runs, equal ones once; and the template instances and inheritance entries of all runs. Merging fails if and only if one hash stands for two different names.", "quantifier": "every list of runs, each of any list of translation units, that the scans get through, under C75's proviso; texts under 2 GB and no NaN attribute", "why_tests_cant": "It relates the sources to the final merged database over any number of runs and any overlap between them; tests look at one tool at a time.", "anchors": ["src/clReflectScan/Main.cpp: main", "src/clReflectMerge/Main.cpp: main", "src/clReflectMerge/DatabaseMerge.cpp: MergeDatabases"]}
{"id": "C87", "title": "From sources to the run-time database", "statement": "Sources scanned apart and merged can be exported: apart from limits of size, nothing the scans can record makes the export fail or misbehave, provided no anonymous union or struct stands outside a class, no two types of different kinds share a name and inheritance is not circular. In the exported database every declared function is there once, with exactly the declared parameters and return value of that name and overload; every declared class is there once, with exactly its declared fields whose type is known and which no function of the class's name claims. Shown false otherwise, and recorded: an anonymous union at namespace scope makes the exporter follow a null-like parent (undefined behaviour); the fields of a class that shares its name with a parameterless function become parameters of that function.", "quantifier": "every list of runs, each over any list of translation units, that the scans get through; every memory layout meeting C42's conditions", "why_tests_cant": "It composes scanner, merger and exporter over all their inputs; the tests export one database.", "anchors": ["src/clReflectScan/ASTConsumer.cpp: AddClassDecl, MakeFunction", "src/clReflectMerge/DatabaseMerge.cpp: MergeDatabases", "src/clReflectExport/CppExport.cpp: BuildCppExport"]}
{"id": "C88", "title": "Loading any text at all", "statement": "Whatever bytes are given to the JSON loader, it ends, after work bounded by the length of the text, and it changes only bytes of the object's fields, also when it reports an error. It is undefined only if a number is cut off inside its exponent at the end of the text, a decimal number does not fit in an integer type, or the fields do not lie in memory; it stops at an assertion only if some class has a C-array. Shown by example, and recorded: an array with more values than the field has elements stops the program, and a decimal number too large for an int is undefined.", "quantifier": "every list of bytes shorter than 2^31, every well-formed set of types, every object and transient flag", "why_tests_cant": "Malformed text has no end of shapes: no list of samples shows that each of them ends and stays inside the object.", "anchors": ["src/clReflectUtil/SerialiseJSON.cpp: LoadJSON, ParserObject, ParserMembers, ParserPair, ParserValue, ParserArray, ParserElements, Expect, LexerNextToken"]}
{"id": "C89", "title": "The file a scan leaves", "statement": "A scan writes the one file it was told to, as text if the name ends in .csv and as binary otherwise, except that a name of exactly three characters gets text too (recorded as a finding). The other tools read the database back from it whichever it is: exactly from binary, with the losses of C37 from text. An output that cannot be opened is undefined behaviour (recorded).", "quantifier": "every output name, every set of translation units whose database fits the kind of file, every state of the disk", "why_tests_cant": "Which format is chosen depends on a size_t wrap in a string search over every possible name, and reading back on every database.", "anchors": ["src/clReflectScan/Main.cpp: main, WriteDatabase, EndsWith", "src/clReflectMerge/Main.cpp: main", "src/clReflectCore/DatabaseTextSerialiser.cpp: WriteTextDatabase, ReadTextDatabase", "src/clReflectCore/DatabaseBinarySerialiser.cpp: WriteBinaryDatabase, ReadBinaryDatabase"]}
{"id": "C90", "title": "What a run of clmerge leaves", "statement": "clmerge with an output, then the options -cpp_codegen and -h_codegen in any combination and order, then inputs: the output holds the merge of the inputs in the order given, also if it is one of them; the files of the options are generated as C69 says; no other file changes. If an input cannot be read the exit code is 1 and nothing was written. For any words at all the exit code is 0 or 1, 1 means nothing was written, and 0 that at most the output and the files behind the options were. Options that do not stand right behind the output are misread, up to an empty output with success (recorded).", "quantifier": "every command line, every state of the disk, every set of files that can be opened", "why_tests_cant": "The words, their order, and what stands in the files are unbounded; that nothing else is touched is a statement about every file.", "anchors": ["src/clReflectMerge/Main.cpp: main", "src/clReflectCore/Arguments.h: GetIndexOf, GetProperty", "src/clReflectMerge/CodeGen.cpp: GenMergedCppImpl, WriteFile"]}
{"id": "C91", "title": "What a run of clexport leaves", "statement": "With -cpp the file named there holds the image of what the export builds from the database, after the addresses of the file named by -map if there is one, and the file named by -cpp_log its text. For any words at all the exit code is 0 or 1; 1 means that the database could not be read (or words are missing) and nothing was written, and 0 that at most the files behind -cpp and -cpp_log were, and none without -cpp. Success is also reported when the output cannot be opened (recorded).", "quantifier": "every command line, every state of the disk, every set of files that can be opened", "why_tests_cant": "As for C90.", "anchors": ["src/clReflectExport/Main.cpp: main", "src/clReflectCore/Arguments.h: GetIndexOf, GetProperty"]}
{"id": "C92", "title": "From sources to what the exporter reads", "statement": "Sources are scanned run by run into files of either format, the files are merged by clmerge, and the exporter reads the result: it holds exactly the fields, functions and enum constants that some source declares. Functions are unchanged; offsets of fields and values of constants are as text files keep them (C37), because clmerge always writes text. Recorded: negative enum values are therefore always lost, and a function declared in a source scanned into text and in one scanned into binary is exported with its return value among its parameters.", "quantifier": "every number of runs, every list of translation units, every choice of file names and formats", "why_tests_cant": "The property composes four programs over every set of sources; no test suite covers the product.", "anchors": ["src/clReflectScan/Main.cpp: main", "src/clReflectMerge/Main.cpp: main", "src/clReflectExport/Main.cpp: main"]}
{"id": "C93", "title": "What the exporter builds can be saved and loaded anywhere", "statement": "Whatever the exporter builds from a database it accepts, in whatever order its arrays were allocated and whatever was left between them, is memory of the form saving and loading rely on. Saving it succeeds, and loading the file at any address gives, byte for byte, what the exporter would have built at that address. The exception is recorded: a primitive attribute whose owner is not in the database keeps a hash where a pointer should be, and saving stops on an assertion.", "quantifier": "every exportable database whose primitive attributes have owners, every order of allocations within the allocator's capacity, every address of the allocator and of the loaded memory, every value of padding bytes", "why_tests_cant": "The claim is about every byte of an image of any size, and every pointer in it, at every pair of addresses.", "anchors": ["src/clReflectExport/CppExport.cpp: BuildCppExport, SaveCppExport", "src/clReflectExport/PtrRelocator.cpp: AddPointers, MakeRelative", "src/clReflectExport/StackAllocator.h: Alloc", "src/clReflectCpp/clcpp.cpp: LoadMemoryMappedDatabase", "inc/clcpp/clcpp_internal.h: DatabaseMem"]}
{"id": "C94", "title": "What a program sees in a loaded database", "statement": "After a database is exported, saved, and loaded at any address, a program that reads the memory with the declarations of the structures finds: one object for each primitive, with its kind, name hash and zero-terminated name, not overlapping another; parents, types, template arguments, return values, constructors, base types, attribute values and container descriptions pointing at the objects (or null) the source database says; arrays that list exactly the kept children in hash order; the global namespace, the type table, the name table, sizes, offsets, qualifiers, ids, values and flags as in the source.", "quantifier": "every exportable database whose primitive attributes have owners, every order of allocations, every address, every primitive and member", "why_tests_cant": "The statement ranges over all databases and every member of every object, at the level of bytes; a test reads a few fields of one database.", "anchors": ["src/clReflectExport/CppExport.cpp: BuildCppExport, SaveCppExport", "src/clReflectCpp/clcpp.cpp: LoadMemoryMappedDatabase", "inc/clcpp/clcpp.h: Primitive, Type, Enum, Field, Function, Class, Template, TemplateType, Namespace", "inc/clcpp/clcpp_internal.h: DatabaseMem"]}
{"id": "C95", "title": "What Database::Load changes in the memory it loads", "statement": "After a database is exported, saved and loaded with Database::Load at any address, every primitive in the tables points at the Database that loaded it; each function with an address is at that address minus the base address of the export plus the given load address (unchanged if the option says so, or if it had none); no other byte of the memory has changed, no write or read leaves the memory, and all that C94 says of the objects, names and descriptions still holds. The global namespace is not in a table: it is not given the Database and its pointer stays null.", "quantifier": "every exportable database whose primitive attributes have owners, every order of allocations, every address, every load address, Database and options", "why_tests_cant": "Load walks fourteen tables of packed objects in raw memory with computed strides; that it touches exactly the intended eight bytes of each object holds or fails for all databases and addresses, and a test looks at a few members.", "anchors": ["src/clReflectCpp/clcpp.cpp: Database::Load, RebaseFunctions, ParentPrimitivesToDatabase", "inc/clcpp/clcpp.h: Primitive, Function, CArray", "inc/clcpp/clcpp_internal.h: DatabaseMem"]}
{"id": "C96", "title": "Look-ups in a loaded database", "statement": "In the memory of a database after Database::Load, whatever the hash: GetType, GetNamespace, GetTemplate and GetFunction return an object of that kind with that name hash, and null exactly when the source database has none; GetOverloadedFunction returns exactly the range of functions with the hash; FindPrimitive and FindOverloadedPrimitive do the same in every array of children of every object and of the global namespace; both GetName return the name and its text, and the empty name exactly when the database has no such name, so that the text of any name finds it; GetTypes and GetFunctions list each type and function once. No look-up reads outside the memory.", "quantifier": "every exportable database whose primitive attributes have owners, every order of allocations, every address, every hash and every text without a zero", "why_tests_cant": "Binary searches over sorted arrays of pointers into raw memory: a wrong boundary, stride or order shows only for some hashes in some databases.", "anchors": ["src/clReflectCpp/clcpp.cpp: Database::GetName, Database::GetType, Database::GetNamespace, Database::GetTemplate, Database::GetFunction, Database::GetOverloadedFunction, Database::GetTypes, Database::GetFunctions, FindPrimitive, FindOverloadedPrimitive, BinarySearch, SearchNeighbours", "inc/clcpp/clcpp.h: CArray"]}
{"id": "C97", "title": "DerivesFrom and GetValueName in a loaded database", "statement": "In the memory of a database after Database::Load: Type::DerivesFrom answers true exactly when the source database gives the type a proper ancestor of that name, however far up, and always returns, with calls nested no deeper than the longest chain of base types; Enum::GetValueName returns the text of the name of the first constant of that value, in the order of the hashes of their names (so an alias of a value is not told by its place in the source), and null exactly when no constant has the value. Neither reads outside the memory.", "quantifier": "every exportable database whose primitive attributes have owners, every order of allocations, every address, every type and hash, every enum and value", "why_tests_cant": "The answer depends on the whole inheritance graph behind raw pointers; a missed base, a wrong stride or a search that stops at the first level shows only in some graphs.", "anchors": ["src/clReflectCpp/clcpp.cpp: Type::DerivesFrom, Enum::GetValueName", "inc/clcpp/clcpp.h: Type, Enum, EnumConstant, CArray"]}
{"id": "C98", "title": "Database objects over their life", "statement": "Over any history of constructing, loading and destroying any number of Database objects with any allocators: the live blocks of an allocator are at every point those it had before, one for each loaded Database that used it, and blocks left by failed loads (none if each failed Load was turned down by the header of its file); destroying any object always gives back exactly its block, to the allocator it came from, so that nothing is left when all are destroyed. A Load on a loaded object stops at an assert; a failed Load answers false and the object can be loaded again, with another allocator too; an object loaded with a file the exporter makes has all that C95 to C97 say, until it is destroyed, whatever happens to other objects.", "quantifier": "every history of calls on Database objects that exist, every number of objects and allocators, every content of the files, every address", "why_tests_cant": "Histories are unbounded and interleave objects, allocators and failures; a block freed twice, leaked or given to the wrong allocator needs a particular order of calls.", "anchors": ["src/clReflectCpp/clcpp.cpp: Database::Database, Database::~Database, Database::Load, LoadMemoryMappedDatabase", "inc/clcpp/clcpp.h: Database, IAllocator, IFile"]}
{"id": "C99", "title": "What is taken from the map of the MSVC linker", "statement": "From an MSVC map with the load address, the heading and public symbols of functions, the exporter takes the load address as written, modulo 2^64, and gives one symbol after the other's address, modulo 2^32, to the first function of the database that has the name and the id of the symbol's parameters: for free and static functions the parameters as DbgHelp writes them, put in the database's spelling; for member functions also the object, which is taken to be const if the return type is. For any map that is read to an end: no function is lost, renamed or given another id, new addresses are not 0 and have 32 bits, the load address is that of the first line with its words and 0 without one, and symbols not marked as functions change no address.", "quantifier": "every map file, every database, every answer of the undecorator, every number of symbols and of parameters", "why_tests_cant": "Maps have as many symbols as programs; a function misses its address only for particular mixtures of types, constness, spellings and address widths.", "anchors": ["src/clReflectExport/MapFileParser.cpp: ParseMSVCMapFile, ParseAddressField, UndecorateFunctionSignature, MatchParameter, AddFunctionAddress"]}
{"id": "C100", "title": "Module objects over their life", "statement": "Over any history of constructing, loading, asking and destroying any number of Module objects: the references held on a shared library are at every point those there were before, one for each module that holds it and one for each time a module that held it was loaded again (those are lost). No program that uses modules only while they exist closes a library too often; it stops at an assert exactly when it asks a module that holds no library for a function, or loads a library for a null host database. After a Load that succeeds the module gives the functions and the reflection database of that library, and the library stays open, until the module is loaded again or destroyed, whatever happens to other modules; a Load that fails answers false and leaves the module without a library.", "quantifier": "every history of calls on Module objects that exist, every number of modules and libraries, everything libraries export", "why_tests_cant": "A reference lost or closed twice shows only in particular orders of calls on several modules that share libraries, and then as a library that disappears under code still using it.", "anchors": ["src/clReflectUtil/Module.cpp: Module::Module, Module::~Module, Module::Load, Module::GetFunction", "inc/clutl/Module.h: Module"]}
{"id": "C101", "title": "What the logs hold", "statement": "Over any calls that direct logs to standard output and to files, log texts and indent: what is printed is, in order, each logged text (its first 511 characters) after the prefix of its tag (a tab per level of indentation for information, WARNING: or ERROR:, nothing if no prefix is asked for), once for each time the top bit of its tag was directed to standard output under its name since that bit was last directed to a file. A file that one bit of one log is directed to, and nothing else, holds exactly the texts logged with it from then on. The calls are defined exactly as long as tags are positive, prefixed information is logged at an indentation of 0 to 127 levels and the indentation fits an int.", "quantifier": "every sequence of calls, every name, tag, path and text, every state of the files before", "why_tests_cant": "What a log holds depends on the order of all earlier calls that directed, indented or logged, and losses show only when several tags or streams are combined.", "anchors": ["src/clReflectCore/Logging.cpp: SetLogToStream, SetLogToStdout, SetLogToFile, Log, PushIndent, PopIndent, FileStream", "src/clReflectCore/Logging.h: LOG, LOG_TO_STDOUT, LOG_TO_FILE"]}
{"id": "C102", "title": "Arrays are lists", "statement": "Over any history of making, reading, writing, removing from, copying and destroying any number of arrays: they behave as lists. stable_remove takes away the element at the index and keeps the order of the others, unstable_remove takes it away and puts the last element in its place, a deep copy has the elements its source had and does not change with it, and no array changes when another does. Every access lies in a live block; an index that is too large stops the program. When all arrays are destroyed and none was copied, all memory is freed, by the allocator it came from. A shallow copy has its source's elements and shares them: what is stored in one is read in the other, and destroying both, when the source frees its memory, frees it twice.", "quantifier": "every history of calls on arrays that exist, every number of arrays and allocators, every size and index; deep copies into arrays made without a size; a shallow copy after any such history", "why_tests_cant": "A removal that is off by one, shared or lost memory show only for particular sizes and orders of calls.", "anchors": ["src/clReflectCore/Array.h: CArray, stable_remove, unstable_remove, deep_copy, shallow_copy"]}
{"id": "C103", "title": "What is taken from the map of the Mac linker", "statement": "From a map of the Mac linker the base address is that of the last section called __text (0 if there is none); functions get addresses from the lines under the heading of symbols only, never 0, and only from symbols with two underscores in front, which are read without the first; no function is lost or changes its name, parent or id. If the symbols are those of functions with plain signatures, each gives its address to the function with its name and parameters, one after the other, and nothing else in the database changes but names. Without a heading of symbols no function changes. A file whose first line is not that of such a map is not read as one: nothing changes and the base address is 0.", "quantifier": "every map with one heading of sections and then one of symbols, every content of its lines with names under 1024 characters, every database, whatever sscanf and the demangler make of a line", "why_tests_cant": "Which lines count depends on the headings before them and on every symbol; a mistake shows as one wrong address among thousands.", "anchors": ["src/clReflectExport/MapFileParser.cpp: ParseMacGCCMapFile, ParseGCCMapFile, ProcessFunctionItem"]}
