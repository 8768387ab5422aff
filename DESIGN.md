# Formal model of CommunityDragon/CDTB

Machine-checked model (Rocq / Coq 8.16.1, standard library only) of the parts
of `/repo/cdtb` listed below, with proofs of the properties in
`properties.jsonl`.  Nothing in `/repo` was built, run or changed.

## Layout

| directory | content |
|---|---|
| `rocq/theories/Base` | Python substrate: exceptions, byte strings, text, slices, `str` methods, `os.path`, `struct`, UTF-8, sorting, dictionaries, parser monad, filesystem |
| `rocq/theories/Model` | definitions transcribed from `/repo/cdtb`, each citing its file and lines |
| `rocq/theories/Spec` | specifications, written without using the model's helpers |
| `rocq/theories/Proofs` | lemmas |
| `rocq/theories/Props` | the property theorems, `Print Assumptions` of each, and concrete `Example`s showing that the hypotheses can be met |

A theorem named `..._refuted` proves that the English claim fails for the
modelled code (with a witness); `..._partial` proves part of a claim and says
what is missing.

## Trusted base

* The Coq kernel (and `coqchk`), version 8.16.1.
* Axioms: none, see "Print Assumptions" below.
* The reading of Python given in `Base` (integers are `Z`/`N`, `bytes` are lists
  of `byte`, `str` is a list of code points, exceptions are values) and the
  transcription of each function in `Model`.
* External components are parameters (explicit function arguments of the model,
  universally quantified in theorems), never axioms: `xxhash`, `zstd`, `gzip`,
  `hashlib`, the network, `json`, PIL, ijson, ujson, the clock.

## Plan per property

| id | modelled | proof |
|---|---|---|
| C01 | `BaseVersion`, `PatchVersion`, `RadsVersion` construction and comparison | lexicographic order lemmas on integer lists |
| C02 | same, with decimal formatting/parsing | digit induction; round trip of split/join |
| C03 | `as_int`, thresholds | arithmetic |
| C04 | `RequestStreamReader` on an arbitrary chunk list | induction on the chunk list, then on the operation list |
| C05 | `Storage.patches/patch/patch_element`, `Patch._create/latest` | induction on the listing |
| C06 | `RadsStorage.patch_elements`, `versions` | merge invariant, Permutation/Sorted |
| C07 | `RadsProjectVersion.extract` over FS + chunked stream | loop invariant on position and FS |
| C08 | `dependencies`, `projects` | round trip against an independent printer |
| C09 | `BinPackageFile` | split/join laws |
| C10 | `parse_storage_component` with the regex as a recognizer | language equivalence |
| C11 | `storage_conf_from_path` over an abstract FS | case analysis |
| C12 | `write_file_or_remove` over the FS with failure injection | all failure points |
| C13 | `Storage.download`, `s3_download` | histories, induction |
| C14 | `parse_headers` | encoder in Spec; round trip by parser triples |
| C15 | `read_data`, `read_file_data` | induction on sub-chunk index |
| C16 | `sanitize_paths` | string length arithmetic, splitext laws |
| C17 | `set_unknown_paths` | hex injectivity |
| C18 | `Wad.extract` over FS | induction on entries |
| C19 | `guess_extension(s)` | first match; cache invariant |
| C20 | `HashFile` | split/join, stable sort canonicity |
| C21 | `HashGuesser` check functions | state invariant over sequences |
| C22 | `directory_list` | worklist termination + closure |
| C23 | tree reduction | structural induction on trees |
| C24 | `filter_exporter` | membership characterisation |
| C25 | `clean_output_dir` | FS walk |
| C26 | `process` plan | from C23/C24 |
| C27 | `tex_to_dds` | byte-level |
| C28 | `BinReader`/`BinFile` | mutual induction on value trees against a Spec encoder |
| C29 | `parse_bintype` | finite table x all versions |
| C30 | `BinObjectWithFields` access | list induction |
| C31 | `to_serializable` keys | injectivity |
| C32 | `RstFile` | round trip |
| C33 | `SknFile` | round trip, ranges |
| C34 | `PatcherManifest` parsing | relational layout spec, induction |
| C35 | directory resolution | well-founded chains; fuel-independent non-termination |
| C36 | `PatcherBundle.add_chunk` | prefix sums |
| C37 | `langs_predicate`, `filter_files` | filter characterisation |
| C38 | `extract_file` over FS | store invariant, failure injection |
| C39 | `bundle_ids`, `download_bundles`, `extract` | set inclusion |
| C40 | thread pool of downloads as interleaving semantics | commutation/invariant over all schedules |
| C41 | release bookkeeping as a transition system with crashes | invariant by induction on histories |
| C42 | `download_manifest` URL regex | recognizer + injectivity |
| C43 | `from_directory` | list lemmas |
| C44 | `command_export` decisions | case analysis (expected: refuted in part) |
| C45 | `parse_storage_args` | case analysis (expected: refuted in part) |
| C46 | converters selection/naming | case analysis on suffixes |
| C47 | UTF-8 encode/decode | per code point arithmetic |
| C48 | atlas/championskin parsers | round trip |
| C49 | `_default_hash_dir`, `default_hashfile` | case analysis |
| C50 | `load_translations` | recognizer |
| C51 | `build_wordlist` | characterisation of the split |
| C52 | basename and extension substitutions | the set of tried paths is characterised |
| C53 | `Wad.__init__`, `resolve_paths`, `load_subchunk_toc` | composition of C14 and C15 |
| C54 | `_create_symlinks` (with `realpath`, `relpath`, `makedirs`) | resolution of paths through links, invariant on the filesystem |
| C55 | `CdragonRawPatchExporter.process` after `_create_exporter` | composition of C26, cleaning, export and links |
| C56 | `Exporter.add_path`, `Exporter.add_patch_files`, `_create_exporter` | invariant of the extension cache over the sources; counterexample when data with one hash differs |
| C57 | `TftTransformer.parse_items`, `collect_effects` | soundness and completeness against a relational description of the entries; counterexample |
| C58 | `TftTransformer.parse_traits`, `parse_sets`, `parse_character_names` | loops as tables indexed by paths; sorted sets; any order of the traits; counterexample for the old format |
| C59 | `TftTransformer.parse_champs` | relation between the entry, the record, the spell and the champion, field by field; last entry wins; counterexample for the icon |
| C60 | `TftTransformer.build_template`, `build_output_sets`, translation in `export` | shared objects as tables modified in place; number of references; end-to-end relation from the entries to the output; counterexample for the double translation |
| C61 | `ArenaTransformer.parse_augments`, translation in `export` | same tables as C57 and C58; dictionary of values by name; exact condition of success; counterexamples for foreign spells and eager defaults |
| C62 | `stringtable_paths` (with `glob`) | paths named by format; searched file by file instead of by pattern; counterexamples for pattern characters and ends of line |
| C63 | files of TFT and Arena data | export loop on the filesystem with faults; frame and result by induction over languages; refutations for crashes and older type codes |
| C64 | Texts with versions, caches of versions, retrieval for patcher elements and RADS solutions | Reversed-text matcher against a declarative shape of lines; runs of programs; resolution of paths kept by writing a file |
| C65 | Formats, numbers and words of basenames, filters of both guessers | Longest runs found by the scan are exactly the declarative ones; a format applied to its arguments is the candidate; induction on the generated list |
| C66 | Regular expressions of the guessers as functions on paths | Each function is exactly the declarative shape of a path; left-to-right replacement is deterministic, and by a mark then by a text is by the text |
| C67 | files of characters, skins and shaders are guessed exactly as described | combinations as subsequences, the format of a path as an inductive relation; order of the set arbitrary; exact outcome of the enumeration of a growing dictionary |
| C68 | paths in files of game archives are found exactly as described | each regular expression against an independent description of its leftmost matches; normpath as a rewriting relation; exact condition of failure |
| C69 | the download of a solution is complete, keeps existing files, and is idempotent | composition of the steps of C07 with a frame relation; project versions do not disturb the manifests of one another; induction over the project versions |
| C70 | hash files are updated exactly when outdated, nothing else changes | calendar arithmetic against the successor relation of dates; parser lemmas; invariant of the filesystem for mkdir and guarded writes; induction over the files |
| C71 | wad-extract writes exactly the wanted entries; wad-list lists all entries in order | token lists of patterns against an inductive relation; filters against an inductive choice; composition with C18 |
| C72 | grep of client archives: matches of the patterns, paths, names, failures | backtracking matcher against declarative matches; composition with C21/C22 |
| C73 | success of download and extraction under availability of the data | total correctness: invariant on pending files, composition with C39/C40 |
| C74 | commands download, files and versions | declarative designation of elements; uniqueness of version groups |
| C75 | command hashes-guess | composition of the guessing methods: growth of tables, chain of methods, frame on files |
| C76 | components, order and listing of RADS parts | regular expression read back, stable sort by numbers, listing of directories |
| C77 | elements listed by a patcher storage | programs which only read at a state, list of releases of C41, caches of C64 |
| C78 | extraction of meshes by the command line | invariant of directories and files without links, as in C31, on the format of C33 |
| C79 | text dump of BIN files | lines of texts, literals with an independent reader |
| C80 | interruptible iterations | transition system with signals between all steps, inductive invariants |
| C81 | whole releases | composition of the results about elements; invariant over downloads, then over extractions |
| C82 | downloads of patches | invariant over the elements: what an extraction changes elsewhere (new shared files and directories only) |

## Print Assumptions

Every file of `Props` runs `Print Assumptions` on each of its theorems, after the
end of the sections.  All of them answer `Closed under the global context`: no
axiom of the standard library and no axiom of this development is used.
Functions of the environment (hashes, decompressors, network, JSON, ...) are
section variables, so each theorem is quantified over them; when something is
assumed about them (for instance that `json.load` reads back what `json.dump`
wrote) it is an explicit hypothesis of the theorem.

## What is modelled

| source | model | content |
|---|---|---|
| `storage.py` | `Model/Version`, `Stream`, `Storage`, `Component`, `Files`, `PatchCache` | versions, `RequestStreamReader`, `download`, patch listings, component strings, configuration lookup, versions in system.yaml and content-metadata.json |
| `rads.py` | `Model/Storage`, `Rads`, `RadsDownload`, `RadsParts`, `PatchCache` | component strings, order of versions, solution and project listings, manifests, package files, `extract`, `download`, paths of elements, patch versions |
| `patcher.py` | `Model/Rman`, `Patcher`, `Releases`, `PatchCache`, `PatcherList`, `ReleaseJobs` | RMAN manifests, languages, bundles, `extract_file`, parallel downloads, release bookkeeping, patch versions, listing of elements, whole releases |
| `wad.py` | `Model/Wad`, `WadExtract` | headers, data, sub-chunks, extensions, sanitizing, extraction |
| `export.py` | `Model/ExportTree`, `Exporter`, `Convert`, `Clean`, `Symlinks`, `Process`, `AddFiles`, `Tex`, `Tables`, `Cli` | lists of files, filters, converters, link reduction, export, cleaning, links and `process` on the filesystem, TEX, atlases, champion skins |
| `binfile.py` | `Model/BinFile`, `Model/BinDump` | decoding, field access, JSON form, text dump |
| `rstfile.py`, `sknfile.py` | `Model/Rst`, `Skn` | decoding, lookup, OBJ text |
| `hashes.py` | `Model/Hashes`, `Model/Guess`, `Model/GuessPaths`, `Model/GuessChars`, `Model/Grep`, `Model/GrepLcu` (with `Base/Re`), `Model/FetchHashes`, `Model/Progress` | interruptible iterations, hash files, lists of unknown hashes, update of the hash files (dates of headers in ASCII), default lists, check functions, directory list, word list, substitutions of basenames, extensions, numbers, words, regions, plugins, suffixes, languages, characters, prefixes, skins, files of characters, shader variants, fixed patterns, search of paths in game and client archives, lists of words, hashes of archives; the list of regions of `data.py` |
| `tools.py` | `Model/Tools`, `Files`, `Convert`, `Tables`, `Stringtables` | guarded writes, strings, path conversion, search of translation files (with `glob` and `fnmatch` of CPython 3.11; the game name is matched literally, its dots included, where the code puts it in a regular expression) |
| `tftdata.py` | `Model/Translations`, `Model/GameData`, `Model/Tft`, `Model/GameExport` | text translations, tables of items, traits, sets, champions, translation of the tables, files of each language |
| `arenadata.py` | `Model/Arena`, `Model/GameExport` | augments and their translation, files of each language |
| `__main__.py` | `Model/Cli`, `Model/FetchHashes`, `Model/WadCli`, `Model/Components`, `Model/GuessCli`, `Model/SknCli`, `Model/BinDump` | update of hash files, decisions of `export` and of the storage arguments, extraction and listing of archives, download and listing of components, guessing of hashes, extraction of meshes, text dump of BIN files |

The filesystem (`Base/Fs` and what follows) is a POSIX-like tree of files,
directories and symbolic links.  Programs are trees of atomic system calls.  The
interpreter takes a plan that makes any call fail with any error or crash the
program; another interpreter interleaves threads.

Simplifications, repeated at the definitions concerned:

* no permissions, hard links, or concurrent processes other than the modelled threads;
* one `unpack` of several fields is one read per field (values and exceptions agree);
* source files are read in one call; a buffered write is one call which may be cut anywhere;
* `shutil.rmtree` lists the tree first; a directory walk lists all paths before using them;
* `os.path.realpath` examines the filesystem in one call;
* floats are their 32-bit patterns;
* `re.I` and `\d` are restricted to ASCII in the few regular expressions that use them;
* JSON configuration values are texts.

## Not modelled

Image and sound codecs, the text produced by `json`/`ujson`, logging,
`argparse`, the candidate generators of the hash guessers other than those listed
in C21, C51, C52, C65, C66, C67, C68 and C72 (they all go through the modelled check functions), reading versions out of executables (`hachoir`), Windows
path rules, the `repr` of floats.
