# clReflect in Rocq: design

Formal model of the logic of clReflect (C++ sources in /repo) in Coq 8.16.1,
standard library only. Properties are listed in `properties.jsonl`; the mapping
property -> theorem is `MANIFEST.json`.

## Layout (rocq/theories)

For each area `X`:

* `XModel.v`  - executable definitions only; every definition cites the file and
  lines it models and says where it simplifies.
* `XSpec.v`   - the small, separate vocabulary the theorems are stated in. It does not
  mention the model's helpers.
* `XProofs.v` - lemmas (some areas have several such files).
* `XProps.v`  - the property theorems, named after the property (`C05_...`),
  `Print Assumptions` after each, and `Example`s showing that concrete non-trivial cases
  meet the hypotheses.

`Base.v` has machine words, bytes, little-endian codecs and the outcome type.

## Conventions

* Machine integers are `Z`; every wrap is written (`mod 2^32`, `mod 2^64`). Bytes
  are `Z` in 0..255; `list Z` is a byte string.
* Target: the 64-bit little-endian build (`size_type`, pointers: 8 bytes; `int`,
  `unsigned`: 4 bytes, two's complement).
* Outcome of a run: `Ok a`, `Trap` (a `clcpp::internal::Assert` fires: `int 3`),
  `UB` (undefined behaviour of C++: out-of-bounds access, null dereference, signed
  overflow), `Fuel` (the loop bound of the model ran out; theorems exclude it).
* When a property is false of the code, the model is kept faithful and a theorem
  `..._refuted` exhibits a concrete witness; the strongest true weakening is proved next to it.

## Plan per property

| Id | Model | Proof |
|----|-------|-------|
| C01 | MurmurHash3 with explicit blocks/tail/wrap | equality with an independent reference written from the published algorithm; strlen lemma |
| C02 | same | every step shown injective modulo 2^32 (odd multipliers have inverses, rotations are bijections, xorshifts are invertible) |
| C03, C04 | BinarySearch / SearchNeighbours over arrays with `Trap` on out-of-range index and `UB` on int overflow | loop invariant; sortedness |
| C05, C06, C07, C08 | PtrRelocator::MakeRelative, SaveCppExport's file writer, LoadMemoryMappedDatabase on bytes with an explicit allocator log | byte-level round trip; every prefix; C07 refuted by witness, leak set characterised |
| C09 | RebaseFunctions, ParentPrimitivesToDatabase | direct, modulo 2^64 |
| C10 | DerivesFrom on a finite graph with fuel | equivalence with transitive closure |
| C11 | GetValueName | first-match spec |
| C12 | Array iterators as state machines | induction on count |
| C13, C14, C15 | WriteBuffer/ReadBuffer as state machines with an explicit growth loop | refinement to byte concatenation; C14 refuted (capacities 0 and 1) |
| C16, C17 | JSON lexer, character level | induction on remaining input |
| C18, C19, C20 | SaveInteger / SaveUnsignedInteger / SaveHexInteger buffers, LexerInteger, LoadInteger | round trip by induction on digits; C18 refuted at the widest negatives, proved elsewhere |
| C21, C22, C23 | JSON save and load over a type universe and byte memory | structural induction over types; C23 refuted at the top-level brace, the rest proved |
| C24 | SaveEnum / flags parser | greedy decomposition |
| C25, C26, C27 | versioned binary save/load over a type universe | structural induction; C27 refuted |
| C28-C32 | ObjectGroup open-addressed table, iterators, scoped lookups | invariant over histories, refinement to a finite map; C32 refuted for three or more ids |
| C33-C36 | Database tables as key-sorted multimaps, merge | algebra of merge |
| C37, C38 | text writer and line parser at character level | round trip per table; C38 refuted |
| C39 | binary writer/reader at byte level | round trip; refuted for repeated text values and names over 1023 bytes |
| C40 | attribute lexer/parser | print/parse round trip; refuted for a trailing comma |
| C41 | itohex/hextoi | induction on digits |
| C42-C46, C52 | BuildCppExport stages | per-stage specifications and composition |
| C47 | ParameterObjectCache / ParameterData | state machine with construction log |
| C48 | FieldVisitor | structural induction |
| C49 | CalculateFunctionUniqueID | C02's injectivity |
| C50 | cldb::Database::GetName | invariant over histories |
| C51, C68, C69 | CodeGen: text generation, the namespace tree in a heap of nodes, the hash gate | generated text read back by an independent reader of blocks and lines; pruned-tree invariant; case analysis on previous file contents |
| C53 | container iterators | which call sequences construct and destroy the iterator object |
| C54 | CreateObject / DestroyObject over C28's table | refinement |
| C55-C58 | FileUtils: itoa, StringReplace, ConsumeToken, ReadLine | induction on text |
| C59 | SaveHexDouble / hexadecimal float lexing | bit-level round trip |
| C60, C61 | versioned binary with load_vbin functions and with arbitrary input | step invariant: every read and write in bounds or trapped, exact exceptions listed |
| C62-C66 | BuildCppExport stages | per-stage specifications |
| C67 | JSON arguments into parameter objects | composition of the lexer and C47 |
| C70 | Image: structure declarations, computed layout, SaveCppExport's pointer lists | every pointer the declarations contain is compared with the slots listed; invariant over the AddPointers calls; composition with C05 |
| C71-C74 | MapFile: GNU ld maps and demangled signatures, character by character | invariant of the placeholder substitutions (each placeholder stands for the text it replaced); induction over parameter tokens; composition of per-symbol steps over the file |
| C75-C84 | Scan: ASTConsumer, ReflectionSpecs and the scan loop, over declarations and types as Clang hands them over | a separate relation says what each declaration gives; the walk is shown to record exactly that (simulation, invariant over the database), and the tables are read off the recorded sequence; termination by a rank on specialisations |
| C85, C86 | Pipe (no new code): the models of the scanner, the files and the merge composed | an invariant of the scan gives the hypotheses of C37 and C39; C76-C82 carried through C33-C36 |
| C87 | PipeExport (no new code): scanner, merge and export composed | every row of the merged database is a row of some run; each field's owner is found from the walk that recorded it; then C42 and C46 |
| C88 | JsonSafe (no new code): the loader of C21-C24 on arbitrary text | mutual induction on the six parser functions: every pass of a loop uses up a token, so the text left bounds the calls; each store stays in the bytes `may_store` gives the field |
| C89-C92 | Tools: Arguments.h and the three main functions over a disk (a map from names to contents) | case analysis of the command line; the models of the files, the merge, the code generator and the export composed; an invariant shows that merged and text-stored databases can be written again |
| C93 | Laid: the bytes of the exporter's allocations, structure by structure, from the export record of C42-C66 | every member is a leaf of its structure, leaves are disjoint (checked over all structures); the blocks and pointers of ImageSpec.v are read off the encoded bytes; relocated memory agrees on pointers and elsewhere, and so is the image at the new address |
| C94 | LaidSpec.v reads memory through the declared members; LaidModel as for C93 | C93 gives the loaded bytes; every member read is a leaf of the encoding (checked over all structures), so each value is that of the export record, about which C42-C66 speak |
| C95 | QueryModel: the end of Database::Load as loads and stores in the block of memory | each store hits one leaf of one table row; a view of the memory (the leaves of the image, some overwritten) is kept by every step; loops by induction on the rows done |
| C96 | QueryModel: the searches of SearchModel with element addresses and hashes read from memory | the view of C95 gives the hash of each element, the order is that of C43, and the search theorem of C03/C04 applies |
| C97 | MethodModel: DerivesFrom and GetValueName on the bytes of the loaded memory | the view of C95; DerivesFrom by induction on the rank of a type above its ancestors, the loops by induction on the elements left |
| C98 | LifeModel: objects by address, allocators with live blocks, calls as steps | an invariant of every step: the live blocks are a permutation of those at the start, those of the loaded objects and those failed loads left; the memory of C95 to C97 is carried by a frame lemma |
| C99 | MsvcModel: ParseMSVCMapFile over the lines of the file, the undecorator as a parameter | token by token through the signature for the exact effect of a symbol, induction on the lines for maps; a frame invariant for arbitrary maps |
| C100 | ModuleModel: modules by address, libraries by handle with reference counts, calls as steps | an invariant of every step: references are those at the start, those of the modules and those lost; a frame lemma for a loaded module |
| C101 | LogModel: stream lists per name and tag bit, standard output, files and the positions of open FILEs, calls as steps | an invariant of every step relates the lists to the earlier calls; a second one follows one FILE |
| C102 | ArrayModel: arrays with size, block and allocator over blocks of elements, calls as steps | refinement of every step to lists; a second invariant gives every block an array that frees it. Sharing by shallow_copy is stated of one such copy after any history |
| C103 | MacModel: the lines of a map by region, with the shared part of MapFileModel | the lines of symbols are shown to be read as those of a GNU map, so that C74's proofs apply; induction over the sections |

## Trusted base

* Coq 8.16.1's kernel, and its `vm_compute` machine for the concrete examples.
* Axioms: none. `Print Assumptions` prints "Closed under the global context" for every
  theorem named in `MANIFEST.json`. `coqchk -o` and `vcheck` list seven constants of
  `Coq.ssr.ssrunder` (`Under_rel`, `Over_rel`, ...). They are opaque members of a standard
  library module that other standard library files load; no theorem here depends on them.
* Standard library only: `ZArith`, `Lia`, `List`, `Permutation`, `Sorted`, `String`, `Bool`. No functors, no
  module types, no plugins beyond those of the standard library.
* The reading of the C++ by hand. Every definition cites what it models, so a reader can
  compare. Nothing was run.

## What is modelled

| Source | Modelled by | Left out |
|--------|-------------|----------|
| clcpp.cpp (hashing) | HashModel | |
| clcpp.cpp (lookup, DerivesFrom, GetValueName, rebasing) | SearchModel, RuntimeModel | |
| clcpp.cpp (loading) | MmapModel, QueryModel (the end of Database::Load and the look-ups, on bytes), MethodModel (DerivesFrom and GetValueName, on bytes), LifeModel (histories of Database objects) | OS file calls; the allocator is an abstract supply of fresh blocks |
| Containers.cpp | RuntimeModel | what user container classes do |
| Database.h/.cpp | DatabaseModel, Maps | |
| DatabaseBinarySerialiser.cpp, DatabaseMetadata.cpp | BinaryModel | |
| DatabaseTextSerialiser.cpp | TextDbModel | printf and sscanf of floats are parameters |
| FileUtils.cpp | FileUtilsModel | |
| AttributeParser.cpp | AttrModel | sscanf of floats is a parameter; diagnostics |
| DatabaseMerge.cpp | MergeModel | log text |
| CodeGen.h/.cpp | CodeGenModel | printf and fscanf of integers are trusted; text under 2^31 bytes; files open |
| CppExport.cpp | ExportModel (what is built), LaidModel (its bytes), ImageModel (pointer lists), MmapModel (file writing) | log text; the order in which arrays are allocated and what is left behind them are arbitrary, within the 5 MB of the allocator |
| StackAllocator.h | LaidModel | |
| clcpp.h, clcpp_internal.h (structures) | ImageLayout | 64-bit layout: natural alignment, 8-byte pointers |
| PtrRelocator.cpp | MmapModel | |
| JSONLexer.cpp | JsonLexModel | strtod's value is a parameter |
| SerialiseJSON.cpp | JsonNumModel, JsonObjModel | container infos other than C arrays; custom load/save functions are parameters |
| SerialiseVersionedBinary.cpp | VersBinModel | container infos, dictionaries, template types |
| SerialiseFunction.cpp | ParamModel | the inline-assembly calls |
| Serialise.cpp | BufferModel | |
| Objects.cpp | ObjectsModel | constructor bodies |
| FieldVisitor.cpp | VisitModel | container contents are a function of type and address |
| Module.cpp, Module.h | ModuleModel | the system's loader |
| Logging.cpp, Logging.h | LogModel | vsnprintf; what is done at exit |
| Array.h | ArrayModel | array_data_offset, arrays over memory of the caller, elements with destructors |
| MapFileParser.cpp | MapFileModel, MsvcModel, MacModel | sscanf, the demangler and the undecorator are parameters; log text |
| ASTConsumer.cpp, ReflectionSpecs.cpp, clReflectScan/Main.cpp | ScanModel | Clang: its AST is the input (types `qt`, `decl`); volatile and restrict; command line; the text of warnings |
| Arguments.h, clReflectScan/Main.cpp, clReflectMerge/Main.cpp, clReflectExport/Main.cpp | ToolsModel | Arguments: other occurrences than the first; what a write that fails half way leaves; llvm's option parser; logs and times; the map reader, log text and image are parameters of clexport's main |

Not modelled: Clang itself, OS calls,
which texts the tools log, printf/strtod formatting of floating point, the x86 calling thunks, and, outside
ImageLayout, object layout rules chosen by the compiler.

## Findings

Places where the code does not do what a user would expect. Each is either part of the
property's exact statement or exhibited by a `..._refuted` theorem or an `Example`.

* C03: the midpoint of the binary search overflows `int` above 2^30 entries.
* C05: a pointer to the first byte of an image becomes null.
* C07: a failed load leaks what it had allocated.
* C09: the global namespace never learns its owner.
* C10: a cyclic inheritance graph is searched for ever.
* C12: arrays of zero-sized elements trap.
* C13: an empty first write to a default-constructed buffer hands null to `memcpy`.
* C14: growing from capacity 0 or 1, or past 2^32, never ends.
* C15: seeking backwards is not checked.
* C16: a text cut in an exponent (`1.5e`) is read one byte past its end.
* C17: a number at the very end of the input is an error; a bad `\u` escape yields both a
  token and an error; a stray exponent letter makes an integer a decimal.
* C18: values of -10^18 and below overflow SaveInteger's buffer.
* C20: builtin types are recognised by hash modulo 47 only, so an enum named `Level`
  (or `Mode`, `Axis`, `Filter`, ...) is written as eight bytes.
* C21: unmappable pointers in arrays give `[1,,,]`; a transient field type gives a name without a value; an
  object read into a pointer field overwrites the pointer; fields shadowed by a base are lost; sorting by offset
  drops fields of equal offsets; bases are all saved at the same pointer.
* C23: the top-level brace is not required; a document cut right behind a member loads silently; `{"a":1 "b":2}` drops
  `b`; trailing text is ignored.
* C24: constants of several bits are not always written back as they were.
* C25-C27, C61: pointer fields are saved as values; enums whose size is not 4 are not restored; scalar to array and
  enum to class changes misparse; crafted chunk sizes loop for ever; negative seeks read before the buffer.
* C32: with three or more ids, intermediate ids are looked up in the receiver; with none, memory is read out of bounds.
* C33: NaN attributes are appended again by every merge.
* C36: function addresses are not compared.
* C37: negative and ten-digit integers are mangled; enum sizes become 4; an empty text value crashes the reader.
* C38: the header is not required.
* C39: repeated text values and names over 1023 bytes are unreadable; files under eight bytes make the check read
  uninitialised memory.
* C40: a trailing comma reads past the tokens; `0X12` reads as 0.
* C42, C45: primitives with unresolved parents are in no namespace; the global namespace's functions are not isolated.
* C43: base type arrays are not sorted.
* C44: a cyclic inheritance graph recurses for ever; bit 0x100 is inherited even when not asked for.
* C47: with sixteen parameters every access traps; the index is not checked.
* C48: references are visited as values.
* C50: an identifier whose hash is zero (`aboe0MHb`) loses its name.
* C51: lines over 511 characters are cut. C68: types of orphan namespaces are not declared. C69: only hashes are compared.
* C53: a ReadIterator over a container whose iterator class has no constructor is destroyed all the same.
* C55: ten-digit values lose a digit. C56: an empty pattern loops for ever. C57: a token that fills the buffer is
  terminated out of bounds. C58: an unterminated last line is dropped.
* C67: separators between JSON arguments are not checked; extra values are ignored.
* C71: `void N<int>::f<A<int> >(int)` is taken to be named `>`; conversion operators lose their class, call operators
  their parentheses, functions returning function pointers have no name.
* C72: GCC and clang write `char const*`, which is read as the type `charconst*`: functions with pointer or reference to
  const parameters never get an address. The same for `long long`, for commas in template arguments and for `**` behind
  a template. A static function that takes its class's pointer and a member function share an id. Type names of 1024
  characters overrun a buffer.
* C73: GetType addresses are cut to 32 bits; `GetType<A<B> >` is filed under `A<B`.
* C74: an empty map file dereferences null; a symbol of 1024 characters overruns the buffer it is scanned into.
* C76: typedef'd arrays, arrays of arrays and anonymous template aliases of plain classes drop the field; fields of an
  anonymous struct have offsets relative to that struct; an unnamed bit-field stops the scanner at an assert; an enum
  declared twice is recorded twice; enum values are cut to 32 bits.
* C77: scanning several sources records every builtin type once per source.
* C79: arrays of length zero have no container entry; parameters of functions that are dropped leave theirs; names with
  a dash cannot be requested.
* C80: four-argument templates are recorded but never their instances; `A<const int>` and `A<int>` share an entry.
* C81: a dropped class leaves the inheritance of its earlier bases.
* C82: attributes of unreflected declarations are recorded; a request for a symbol swallows its first attribute;
  attributes are only compared with the first of their name, so equal ones can appear twice; `noreflect` does not
  keep a forward declaration out.
* C83: a `void*` return value is dropped, as if the function returned nothing.
* C84: `template<class T> struct A : B<A<T> >` makes the scanner recurse for ever.
* C85, C86: no new ones; what the files and the merge lose is under C37, C39 and C33.
* C87: an anonymous union at namespace scope makes the exporter dereference a parent that is not there; the fields of a
  class that shares its name with a parameterless function (`struct stat`, `stat()`) become parameters of the function.
* C88: an array in the text with more values than the C-array field has elements stops the program at an assertion; a
  decimal number outside the range of the integer field it is for is undefined behaviour (both from input text alone).
* C89: a scan into a file whose name has exactly three characters writes text whatever the name (`npos == 3 - 4`); an
  output that cannot be opened is written through a null FILE pointer.
* C90: `clmerge out a.csv -cpp_codegen gen.cpp` skips a.csv and reads gen.cpp as a database; since every text without a
  version line is one (C38), the output is empty and the exit code 0.
* C91: clexport exits with 0 when its output cannot be opened.
* C92: clmerge always writes text, so negative enum constants never reach the exporter (-1 becomes 429496729). A function
  declared in two sources of which one was scanned into text and the other into binary is exported with a spurious
  parameter named return, because the offset -1 of its return value differs between the two files.
* C93: an attribute that names a primitive, and whose owner is not in the database, keeps the hash of the owner in its
  parent pointer; MakeRelative then asserts that the pointer lies in the allocated memory, and no file is written.
* C95: Database::Load gives its address to the primitives in the tables only; the global namespace, which GetGlobalNamespace
  returns as any other namespace, keeps a null database pointer.
* C97: when two constants of an enum have one value, GetValueName gives the one whose name has the smaller hash, not the one
  declared first.
* C99: the MSVC map reader cuts addresses of functions to 32 bits, but not the load address, so that in a 64-bit image every
  function falls below it; const member functions never get an address, nor do member functions that return something const;
  a symbol of 1024 characters or more is written past the end of an array; a function whose name is not found in its signature
  ends the reading of the whole map (and leaves the file open).
* C100: a Module that is loaded again never closes its first library, loses it even if the second cannot be loaded, and goes on
  giving the first library's database if the second has none.
* C101: directing a log to a file takes away the streams it had before (FileStream's copy constructor does not copy `next`): clscan's reflection
  spec warnings and errors, directed to standard output and then with ALL to a file, are no longer printed. A file that several tags are directed to is
  opened once per tag, so the tags overwrite each other's lines. Texts are cut at 511 characters; an indentation of 128 levels or a negative
  one writes outside its buffer. Logs are found by the address of their name, so it depends on the compiler whether two files that use
  the same name mean the same log.
* C102: shallow_copy hands over the allocator too, so that destroying the copy and a source that frees its memory frees it twice.
* C102: deep_copy assigns `allocator` to itself instead of to the array, so that the memory of a copy is never freed (clexport's log of
  its primitives leaks one block per function, enum and class), and a copy into an array that has an allocator loses that array's memory and frees the copy with it.
* C103: a map file without any line end (an empty one, say) hands a null pointer to the comparison of its first line.
* C103: as in the other maps, a symbol of 1024 characters or more overruns its buffer, and an empty file is read through a null pointer.

## Tests of the theorems

`seeded/LOG.jsonl` has one line per wrong program tried: the definition edited, the edit, the claim it breaks, the
theorems that stopped proving and those tightened.
