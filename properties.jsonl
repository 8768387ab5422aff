{"id": "C01", "title": "Version comparison is a numeric lexicographic order", "statement": "For any two version objects built from numeric strings or tuples, <, <=, > and >= compare the numeric components lexicographically (never the text), they form a strict weak/total order on the components, exactly one of <, same components, > holds, and for canonically spelled versions `==` agrees with having the same components and with hash(). The special version 'main' is equal only to itself and ordering it against a numeric version raises instead of answering.", "quantifier": "all pairs and triples of version strings/tuples, any number of components, any component magnitude", "why_tests_cant": "transitivity, trichotomy and eq/hash agreement quantify over all pairs and triples of an infinite set of versions", "anchors": ["cdtb/storage.py:BaseVersion", "cdtb/storage.py:PatchVersion", "cdtb/rads.py:RadsVersion"]}
{"id": "C02", "title": "Version text and tuples round-trip; patch versions keep exactly the first two numbers", "statement": "Building a version from a tuple of integers and re-parsing its text gives the same components; PatchVersion of a string with two or more components equals the PatchVersion of its first two components, whatever follows; one component, an empty string or a non-numeric component is rejected.", "quantifier": "all tuples of integers and all strings", "why_tests_cant": "round trip must hold for every integer and every suffix, unbounded in size", "anchors": ["cdtb/storage.py:BaseVersion.__init__", "cdtb/storage.py:PatchVersion.__init__", "cdtb/rads.py:RadsVersion.__init__"]}
{"id": "C03", "title": "The integer form of a patch version preserves order", "statement": "PatchVersion.as_int() is strictly increasing (hence injective) on versions whose patch number is below 100, and 'main' is not below any version with season <= 98; every version threshold used by the parsers (e.g. 9.23, 10.8, 14.15, 15.2) therefore selects exactly the versions from that patch on.", "quantifier": "all pairs of patch versions", "why_tests_cant": "monotonicity is a statement about all pairs of versions", "anchors": ["cdtb/storage.py:PatchVersion.as_int", "cdtb/export.py:_create_exporter", "cdtb/binfile.py:parse_bintype", "cdtb/rstfile.py:get_hashfile"]}
{"id": "C04", "title": "Streaming reads do not depend on how the network chops the data", "statement": "For every way of splitting a response body into chunks (empty chunks included), any sequence of copy/skip/skip_to calls delivers to the writers exactly the requested byte ranges of the concatenated body, in order, leaving the position at the sum of the requested sizes; a request past the end of the body raises after delivering all remaining bytes.", "quantifier": "all bodies, all chunkings, all sequences of operations", "why_tests_cant": "the number of chunkings and call sequences is unbounded", "anchors": ["cdtb/storage.py:RequestStreamReader"]}
{"id": "C05", "title": "Patches are maximal groups with one, most recent, element per name", "statement": "Storage.patches() splits the element listing into consecutive groups with equal version, in order; each patch holds, for every element name occurring in its group, the first (latest) such element and nothing else; patch(v) is the first patch with version v or None; patch_element(name, v) is the first matching element or None; Patch.latest() of such a patch has the same elements; if the listing is sorted from the latest, patch versions are pairwise distinct and decreasing.", "quantifier": "all element listings produced by a storage", "why_tests_cant": "arbitrary listing lengths, version repetitions and element orders", "anchors": ["cdtb/storage.py:Storage.patches", "cdtb/storage.py:Storage.patch", "cdtb/storage.py:Storage.patch_element", "cdtb/storage.py:Patch.latest", "cdtb/storage.py:Patch._create"]}
{"id": "C06", "title": "RADS element listing merges both solutions in version order without loss", "statement": "RadsStorage.patch_elements() yields every element of both solutions exactly once, keeps the relative order within each solution, and, when each solution is sorted from the latest, the result is sorted from the latest (client first on ties); solution versions without a patch are dropped and nothing else is.", "quantifier": "all pairs of solution version lists and all assignments of patch versions", "why_tests_cant": "all interleavings of two unbounded lists", "anchors": ["cdtb/rads.py:RadsStorage.patch_elements", "cdtb/rads.py:RadsSolution.versions", "cdtb/rads.py:RadsSolutionVersion.__lt__"]}
{"id": "C07", "title": "RADS extraction writes exactly the advertised byte range of the package", "statement": "RadsProjectVersion.extract() on a package manifest whose ranges do not overlap writes, for each requested file not yet on disk, exactly package[offset:offset+size] (decompressed when the entry is .compressed), independently of manifest order and of network chunking; files already on disk, and all other paths, are left unchanged; overlapping ranges are reported by an assertion, never by wrong content.", "quantifier": "all manifests, packages, network chunkings and prior disk contents", "why_tests_cant": "every manifest order, package layout and chunking", "anchors": ["cdtb/rads.py:RadsProjectVersion.extract", "cdtb/storage.py:RequestStreamReader"]}
{"id": "C08", "title": "RADS solution manifests are parsed exactly and language selection is exact", "statement": "For every well-formed solutionmanifest, dependencies() returns for each language exactly the listed project versions in order and under None exactly the required projects; projects(False/True/lang/[langs]) is the corresponding selection without duplicates; malformed headers raise.", "quantifier": "all solution manifests", "why_tests_cant": "unbounded lists of projects and languages", "anchors": ["cdtb/rads.py:RadsSolutionVersion.dependencies", "cdtb/rads.py:RadsSolutionVersion.projects"]}
{"id": "C09", "title": "Package manifest lines are parsed exactly", "statement": "Each manifest line '/path,package,offset,size,type' with comma-free fields yields the path without its leading slash, the package, the two numbers and the compressed flag, and the extract path is the path without the .compressed suffix exactly when the flag is set; a line with another number of fields is rejected.", "quantifier": "all manifest lines", "why_tests_cant": "all strings", "anchors": ["cdtb/rads.py:BinPackageFile"]}
{"id": "C10", "title": "Component strings: accepted language and meaning", "statement": "parse_storage_component accepts exactly '<patch|game|client>=' followed by nothing, 'main' or a dotted number (optionally ending in a dot), rejects everything else with ValueError, and asks the storage for exactly the named kind and version (latest when empty, latest sub-patch when it ends with a dot).", "quantifier": "all strings", "why_tests_cant": "language of a regular expression over all strings", "anchors": ["cdtb/storage.py:parse_storage_component"]}
{"id": "C11", "title": "Storage configuration resolution", "statement": "storage_conf_from_path always yields a configuration having a type and a path or raises ValueError; precedence is directory with conf file, directory guessed as patcher, conf file, 'type:path', then a patcher storage at that path.", "quantifier": "all paths and filesystem states", "why_tests_cant": "all combinations of filesystem state and text", "anchors": ["cdtb/storage.py:storage_conf_from_path", "cdtb/storage.py:load_storage_conf", "cdtb/storage.py:guess_storage_conf"]}
{"id": "C12", "title": "Guarded file writes leave all or nothing on error", "statement": "A file written through write_file_or_remove holds exactly the written data if the block succeeds; if any step (directory creation, open, any write, close) raises, the target does not exist afterwards as a regular file, the exception is re-raised, and no path other than the target and its missing parent directories is modified.", "quantifier": "all filesystem states, paths, data and failure points", "why_tests_cant": "every failure point of every write sequence", "anchors": ["cdtb/tools.py:write_file_or_remove"]}
{"id": "C13", "title": "Downloads are idempotent and never clobber", "statement": "Storage.download without force never changes an existing file and makes no request then; otherwise on success the file is exactly the response body, on failure the file does not exist; repeating a download changes nothing.", "quantifier": "all storage states, URLs and sequences of downloads with arbitrary failures", "why_tests_cant": "all histories of downloads and failures", "anchors": ["cdtb/storage.py:Storage.download", "cdtb/patcher.py:PatcherStorage.download_manifest", "cdtb/patcher.py:PatcherStorage.download_bundle"]}
{"id": "C14", "title": "WAD headers are decoded exactly for every supported version", "statement": "For every list of entries and every supported version (1.x, 2.x, 3.0-3.3, 3.4+), a WAD whose bytes lay out these entries yields exactly these entries in order (hash, offset, sizes, type, sub-chunk count and first index, duplicate flag, checksum); other magic or versions and truncated tables are rejected.", "quantifier": "all entry lists and all file contents", "why_tests_cant": "unbounded tables, all field values", "anchors": ["cdtb/wad.py:Wad.parse_headers", "cdtb/wad.py:WadFileHeader.__init__"]}
{"id": "C15", "title": "WAD entry data is returned exactly, and sub-chunked data is verified", "statement": "read_data returns the stored bytes for type 0, their decompression for types 1 and 3, None for redirections; for type 4 with a table of contents it returns the concatenation of the (decompressed) sub-chunks if every sub-chunk lies inside the entry and matches its checksum, and raises MalformedSubchunkError otherwise; it never returns data of an unverified sub-chunk.", "quantifier": "all archives, entries and tables of contents", "why_tests_cant": "all sub-chunk layouts and corruptions", "anchors": ["cdtb/wad.py:WadFileHeader.read_data", "cdtb/wad.py:Wad.read_file_data"]}
{"id": "C16", "title": "Sanitized WAD paths are short enough and keep directory and extension", "statement": "After sanitize_paths every path has an extension, the same directory as before, a basename of at most 250 characters whenever its extension is at most 233 characters long, and paths that were already short and had an extension are unchanged; two distinct hashes never collide because of truncation.", "quantifier": "all paths, extensions and hashes", "why_tests_cant": "all string lengths around the boundaries", "anchors": ["cdtb/wad.py:Wad.sanitize_paths"]}
{"id": "C17", "title": "Unknown WAD files get pairwise distinct names", "statement": "set_unknown_paths gives every file without a path a path under the given directory made of its 16-digit hash and guessed extension; two files with different hashes never get the same path, and files with a path are untouched.", "quantifier": "all WAD file lists", "why_tests_cant": "injectivity over all 64-bit hashes", "anchors": ["cdtb/wad.py:Wad.set_unknown_paths"]}
{"id": "C18", "title": "WAD extraction writes each entry's data under the output directory", "statement": "After Wad.extract with overwriting, every entry whose data can be read is found at output/path with exactly its data (the last entry wins for equal paths); with overwrite=False existing files are unchanged; nothing outside the listed paths is modified; redirections and unreadable sub-chunked entries write nothing; every path without '..' or leading '/' stays below the output directory. Without failures of the system, the extraction succeeds when the entries can be read, there is room for them and none is in a directory with the path of another.", "quantifier": "all archives, output directory states and path tables", "why_tests_cant": "all archives and prior output states", "anchors": ["cdtb/wad.py:Wad.extract", "cdtb/wad.py:WadFileHeader.extract"]}
{"id": "C19", "title": "Extension guessing follows the first matching signature and is cached per hash", "statement": "guess_extension returns the extension of the first signature in the table that matches, otherwise 'json' exactly if the data is JSON, otherwise None; guess_extensions never changes a known extension and gives equal hashes equal extensions across archives in any order of processing.", "quantifier": "all data and all sequences of archives", "why_tests_cant": "all inputs and call histories share a process-wide cache", "anchors": ["cdtb/wad.py:WadFileHeader.guess_extension", "cdtb/wad.py:Wad.guess_extensions"]}
{"id": "C20", "title": "Hash files survive save and load", "statement": "For every table whose strings contain no line break, saving and reloading gives the same table; the saved text is sorted by string, saving a reloaded file reproduces it byte for byte, and loading is cached until forced. The unknown hashes listed by exports, one per line, are all read, and a line that is not a number is an error.", "quantifier": "all hash tables and sequences of load/save", "why_tests_cant": "all tables and strings", "anchors": ["cdtb/hashes.py:HashFile", "cdtb/hashes.py:HashGuesser.unknown_from_export"]}
{"id": "C21", "title": "Hash guessing only ever adds correct hashes", "statement": "Over any sequence of check/check_iter/is_known calls: known entries are never changed or removed, a path is added only under its own hash and only if that hash was unknown, known and unknown stay disjoint with a constant union, a candidate whose hash is unknown is always found, and the number found equals the decrease of unknown.", "quantifier": "all initial tables, unknown sets and candidate sequences", "why_tests_cant": "all histories of candidates", "anchors": ["cdtb/hashes.py:HashGuesser.check", "cdtb/hashes.py:HashGuesser.check_iter", "cdtb/hashes.py:HashGuesser.is_known", "cdtb/hashes.py:HashGuesser._add_known"]}
{"id": "C22", "title": "The directory list is exactly the set of ancestors of known paths", "statement": "directory_list() terminates and returns every ancestor directory of every known path and nothing else.", "quantifier": "all sets of paths", "why_tests_cant": "termination and closure over arbitrary path depth", "anchors": ["cdtb/hashes.py:HashGuesser.directory_list"]}
{"id": "C23", "title": "Reduced symlink lists cover exactly the common files", "statement": "reduce_common_paths(p1, p2, ex) for prefix-free sets with p1 a subset of p2: every path of p1 is equal to or below exactly one returned path; every path of p2 below a returned path is in p1 (so a linked directory never brings in foreign files); no returned path is an ancestor of, or equal to a directory containing, an excluded path; returned paths are pairwise incomparable.", "quantifier": "all sets of paths of any depth", "why_tests_cant": "set cover properties over unbounded trees", "anchors": ["cdtb/export.py:paths_to_tree", "cdtb/export.py:reduce_common_trees", "cdtb/export.py:reduce_common_paths"]}
{"id": "C24", "title": "Filtering against another exporter removes exactly the identical files", "statement": "After filter_exporter, a plain file remains iff the other exporter does not export the same path from the same source; an archive entry remains iff the other exporter has no archive of that name, or its archive is a different file that does not have an entry with the same hash and checksum; archives left empty disappear.", "quantifier": "all pairs of exporters", "why_tests_cant": "all pairs of export sets", "anchors": ["cdtb/export.py:Exporter.filter_exporter", "cdtb/export.py:Exporter.filter_export_paths"]}
{"id": "C25", "title": "Cleaning the output directory removes exactly the unexpected files", "statement": "After clean_output_dir(kept, links): every kept regular file and everything below a kept directory is unchanged, every symlink in links is unchanged, every other file or symlink not below a kept directory is gone, and nothing outside the output directory is altered except that emptied parent directories may be pruned.", "quantifier": "all directory trees and kept sets", "why_tests_cant": "all directory trees", "anchors": ["cdtb/export.py:Exporter.clean_output_dir", "cdtb/export.py:Exporter.walk_output_dir"]}
{"id": "C26", "title": "Export plans: every new path is either extracted or linked, never both", "statement": "In process() with symlinks, every path of the new patch is either in the set to extract or covered by exactly one symlink, no symlink covers a path to be extracted, and every symlinked path exists in the previous patch's export, provided equal archive entries export to equal paths in both patches. The exported files are the plain files and archive entries that are not executables nor plain 'description.json' files; entries of game archives are moved below 'game' (and their language since 14.4) and kept only if their conversion gives a useful file; unnamed entries get a path in the directory of their plugin.", "quantifier": "all pairs of patches", "why_tests_cant": "all contents of two patches", "anchors": ["cdtb/export.py:CdragonRawPatchExporter.process", "cdtb/export.py:Exporter.all_converted_exported_paths", "cdtb/export.py:CdragonRawPatchExporter._transform_exported_files"]}
{"id": "C27", "title": "TEX to DDS conversion keeps dimensions and the full-size image", "statement": "tex_to_dds returns a 128-byte DDS header (148 with a DX10 block) holding the TEX width and height and the matching pixel format, followed by exactly the pixel data of the largest mipmap (all pixel data when there are no mipmaps); too-short, non-TEX and unsupported data raise FileConversionError.", "quantifier": "all TEX contents, all dimensions and formats", "why_tests_cant": "all sizes and formats", "anchors": ["cdtb/export.py:TexConverter.tex_to_dds"]}
{"id": "C28", "title": "BIN files are decoded exactly", "statement": "For every value tree (any nesting of lists, maps, options, structs, embedded objects) that the BIN format can carry, BinFile applied to its encoding yields exactly this tree: version, linked files, entries with path, type and fields in order, and patch entries grouped by path; an entry whose declared length differs from its content is rejected.", "quantifier": "all BIN value trees of any depth", "why_tests_cant": "unbounded recursive structures", "anchors": ["cdtb/binfile.py:BinFile", "cdtb/binfile.py:BinReader"]}
{"id": "C29", "title": "BIN type numbering is reinterpreted consistently across patches", "statement": "For each of the three numbering eras (before 9.23, before 10.8, later) the byte-to-type mapping is injective, agrees with the numbering published for that era, and bytes outside it are rejected with ValueError.", "quantifier": "all bytes and all version numbers", "why_tests_cant": "all version numbers", "anchors": ["cdtb/binfile.py:BinReader.parse_bintype"]}
{"id": "C30", "title": "BIN field access behaves like a map keyed by case-insensitive name hash", "statement": "obj[k], k in obj, get, getv and get_path agree: k in obj iff obj[k] succeeds; lookup by a string equals lookup by its hash and is case-insensitive; assigning a field named k makes obj[k] return it and leaves every other key's lookup unchanged.", "quantifier": "all field lists and keys", "why_tests_cant": "all field lists", "anchors": ["cdtb/binfile.py:BinObjectWithFields", "cdtb/binfile.py:compute_binhash", "cdtb/binfile.py:key_to_hash"]}
{"id": "C31", "title": "BIN JSON output loses no field", "statement": "With a hash list whose strings hash to their keys and do not look like '{hex}', the JSON keys of two fields (entries) are equal only if their hashes are equal, so an object without repeated field names serializes to as many members as it has fields (plus __type).", "quantifier": "all objects and hash lists", "why_tests_cant": "all hash lists and objects", "anchors": ["cdtb/binfile.py:BinHashBase", "cdtb/binfile.py:BinObjectWithFields.to_serializable"]}
{"id": "C32", "title": "RST files are decoded exactly and looked up by masked hash", "statement": "For every supported version, a file laying out a table of (hash, text) pairs yields exactly this table (the last pair wins for equal hashes); rst[key] for a string key is the entry of the lowercased key's hash masked to the file's hash width; `in`, [] and get agree.", "quantifier": "all string tables", "why_tests_cant": "all tables and keys", "anchors": ["cdtb/rstfile.py:RstFile", "cdtb/rstfile.py:key_to_hash"]}
{"id": "C33", "title": "SKN meshes are decoded exactly with in-range face indices", "statement": "For every SKN layout, SknFile yields the entries with exactly their vertex and index ranges; whenever the file's indices of a submesh refer to its own vertices, all exported indices are between 1 and its vertex count.", "quantifier": "all SKN contents", "why_tests_cant": "unbounded vertex/index lists", "anchors": ["cdtb/sknfile.py:SknFile"]}
{"id": "C34", "title": "Patcher manifests are decoded exactly", "statement": "For every body laying out bundles, flags, files and directories in the offset-table format, parse_body yields exactly these objects: files keyed by full path, with their flags and chunks, each chunk pointing to its bundle, whatever the layout order of tables and entries in the body.", "quantifier": "all manifest bodies", "why_tests_cant": "random access format, all layouts", "anchors": ["cdtb/patcher.py:PatcherManifest"]}
{"id": "C35", "title": "File names in manifests are the full directory path", "statement": "For an acyclic directory table each file is named parent/.../dir/name following parent links to the root; a missing directory raises KeyError; a cyclic chain never terminates.", "quantifier": "all directory tables", "why_tests_cant": "termination over all graphs", "anchors": ["cdtb/patcher.py:PatcherManifest.parse_body"]}
{"id": "C36", "title": "Chunks of a bundle are contiguous", "statement": "The offset of the n-th chunk of a bundle is the sum of the sizes of the preceding chunks, so consecutive chunks tile the bundle without gap or overlap.", "quantifier": "all chunk lists", "why_tests_cant": "unbounded chunk lists", "anchors": ["cdtb/patcher.py:PatcherBundle.add_chunk"]}
{"id": "C37", "title": "Language filtering selects exactly the right files", "statement": "langs=True keeps all files, langs=False keeps exactly files without a locale flag, a language keeps exactly the files flagged with it ignoring case.", "quantifier": "all files and flags", "why_tests_cant": "all flag lists and languages", "anchors": ["cdtb/patcher.py:PatcherFile.langs_predicate", "cdtb/patcher.py:PatcherManifest.filter_files"]}
{"id": "C38", "title": "Extracted patcher files are the concatenation of their decompressed chunks", "statement": "After extract_file without failure, reading the output path gives the concatenation of the file's decompressed chunks, provided the shared store only holds correct files, and the shared store stays correct; an interrupted extraction (exception) leaves no partial file.", "quantifier": "all storages, files, failure points and sequences of extractions", "why_tests_cant": "all histories of extractions and failures", "anchors": ["cdtb/patcher.py:PatcherStorage.extract_file", "cdtb/patcher.py:PatcherStorage.load_chunk", "cdtb/patcher.py:PatcherReleaseElement.extract_file"]}
{"id": "C39", "title": "Downloading then extracting never lacks a bundle", "statement": "After download_bundles(langs, skip_extracted=True) succeeds, extract(langs) finds every bundle it needs for every selected file. The files are extracted by increasing names, each of them under its name in the directory 'files' of the release.", "quantifier": "all manifests, language filters and disk states", "why_tests_cant": "all manifests and disk states", "anchors": ["cdtb/patcher.py:PatcherReleaseElement.bundle_ids", "cdtb/patcher.py:PatcherReleaseElement.download_bundles", "cdtb/patcher.py:PatcherReleaseElement.extract"]}
{"id": "C40", "title": "Parallel bundle downloads are schedule independent", "statement": "For every interleaving of the worker threads' steps, the storage after download_bundles is the same as after downloading the bundles one after the other. The bundles are requested by increasing identifiers, each of them once.", "quantifier": "all schedules of the thread pool", "why_tests_cant": "all interleavings", "anchors": ["cdtb/patcher.py:PatcherReleaseElement.download_bundles", "cdtb/storage.py:Storage.download"]}
{"id": "C41", "title": "Release bookkeeping: no duplicate releases, latest first", "statement": "Fetching the latest release twice with unchanged CDN answers adds at most one release; releases are listed from the most recent; with a clock that never goes back the first listed release is the last one fetched; a crash between the two writes loses no release. Without failures of the system, a fetch succeeds when the servers answer, the last release can be read and there is room for the files. The description of a release holds the URL of the first client configuration of the region and the one of the only game release of the platform, read from the document of the client (a local file, a given URL or the default one) and of the game.", "quantifier": "all histories of fetches, CDN answers, clock values and crashes", "why_tests_cant": "all histories with crash points", "anchors": ["cdtb/patcher.py:PatcherStorage.fetch_latest_update", "cdtb/patcher.py:PatcherStorage.iter_releases", "cdtb/patcher.py:PatcherStorage.latest_timestamp"]}
{"id": "C42", "title": "Manifest URLs map to one local path", "statement": "download_manifest accepts exactly URLs of the form base/channels/public/releases/<16 uppercase hex>.manifest (with an optional .secure. host part), maps different manifest ids to different local paths, and the same id given as a number or URL to the same path.", "quantifier": "all URLs and ids", "why_tests_cant": "all strings", "anchors": ["cdtb/patcher.py:PatcherStorage.download_manifest"]}
{"id": "C43", "title": "Exporting a directory of patches pairs each patch with its predecessor", "statement": "from_directory returns, oldest first, one exporter for each version directory found in the storage from `first` on, each with the next older selected patch as previous patch (none for the oldest), and raises if some version directory is unknown to the storage. An exporter makes links when told to, or by default when it has a previous patch; links without one are refused.", "quantifier": "all directory listings and storages", "why_tests_cant": "all listings", "anchors": ["cdtb/export.py:CdragonRawPatchExporter.from_directory"]}
{"id": "C44", "title": "Export command argument decisions", "statement": "`cdtb export` with a patch exports exactly that patch with the given, none, or immediately preceding stored patch as previous; without a patch it updates all exported patches starting from --from.", "quantifier": "all argument combinations and storages", "why_tests_cant": "all storages and arguments", "anchors": ["cdtb/__main__.py:command_export"]}
{"id": "C45", "title": "--patchline selects the patchline", "statement": "A --patchline option is honoured for patcher storages and rejected for others, whatever the way the storage was given. A RADS storage takes its URL or that of its CDN, and both together or another type are refused.", "quantifier": "all argument combinations", "why_tests_cant": "all arguments and environments", "anchors": ["cdtb/__main__.py:parse_storage_args"]}
{"id": "C46", "title": "Converters: every exported file has a converter and predictable output names", "statement": "Each export path is handled by the first matching converter, else copied as is; for the export of a patch, the converter depends on the extension and directories as documented by the patterns of the converters; the announced converted paths are exactly the ones written on success; with overwrite=False a file all of whose converted paths exist is not touched.", "quantifier": "all paths and output states", "why_tests_cant": "all paths", "anchors": ["cdtb/export.py:FileConverter", "cdtb/export.py:Exporter._get_converter", "cdtb/export.py:Exporter._export_plain_file", "cdtb/export.py:CdragonRawPatchExporter._create_exporter"]}
{"id": "C47", "title": "UTF-8 text round-trips", "statement": "Every Unicode text embedded in a parsed binary file is recovered exactly, and byte strings that are not UTF-8 are rejected (strict) or decoded with replacement characters (RST) without losing the valid parts.", "quantifier": "all texts and byte strings", "why_tests_cant": "all code points and byte strings", "anchors": ["cdtb/tools.py:BinaryParser.unpack_string", "cdtb/binfile.py:BinReader.read_string", "cdtb/rstfile.py:RstFile.parse_rst"]}
{"id": "C48", "title": "Atlas and champion skin tables are decoded exactly", "statement": "For every table, the atlas info parser (both the string and the IMAA hash format) and the champion skin parser return exactly the laid out table, and reject a bad magic, version or atlas index.", "quantifier": "all tables", "why_tests_cant": "unbounded tables", "anchors": ["cdtb/export.py:AtlasInfoConverter.parse_atlasinfo", "cdtb/export.py:ChampionSkinInfoConverter.parse_championskininfo"]}
{"id": "C49", "title": "Hash directory and hash list selection", "statement": "The hash directory is chosen by the documented precedence of environment variables, ignoring empty values and a relative XDG_DATA_HOME; the hash list used for an archive depends only on its suffix.", "quantifier": "all environments and paths", "why_tests_cant": "all environments", "anchors": ["cdtb/hashes.py:_default_hash_dir", "cdtb/hashes.py:default_hashfile"]}
{"id": "C50", "title": "Text translations are decoded exactly", "statement": "load_translations on a text string table returns for every line tr \"key\" = \"value\" exactly this key and value, the last one winning.", "quantifier": "all text tables", "why_tests_cant": "all strings", "anchors": ["cdtb/tftdata.py:load_translations"]}
{"id": "C51", "title": "The word list is exactly the set of non-final pieces of paths", "statement": "build_wordlist(paths) is strictly sorted and contains exactly the pieces (cut at / _ . -) of the paths that are followed by a separator, except numbers of three digits or more.", "quantifier": "all lists of paths", "why_tests_cant": "all strings", "anchors": ["cdtb/hashes.py:build_wordlist"]}
{"id": "C52", "title": "Basename and extension substitutions try every combination", "statement": "After check_basenames, substitute_basenames or substitute_extensions no unknown hash is the hash of a combination of a known directory (or prefix) and a given or known name (or extension), and every path added is such a combination.", "quantifier": "all sets of known paths and unknown hashes, all hash functions", "why_tests_cant": "all sets of paths", "anchors": ["cdtb/hashes.py:HashGuesser.check_basenames", "cdtb/hashes.py:HashGuesser.substitute_basenames", "cdtb/hashes.py:HashGuesser.substitute_extensions"]}
{"id": "C53", "title": "Opening a WAD resolves paths and loads the sub-chunk table", "statement": "Opening a WAD gives every file whose hash is known exactly the known path and the extension of its base name, leaves the other files without path, changes no header field, and keeps as sub-chunk table the data of the first file whose path ends with .subchunktoc, or none.", "quantifier": "all archives, all hash dictionaries, all paths", "why_tests_cant": "unbounded paths and file tables", "anchors": ["cdtb/wad.py:Wad.__init__", "cdtb/wad.py:Wad.resolve_paths", "cdtb/wad.py:Wad.load_subchunk_toc"]}
{"id": "C54", "title": "Links to the previous patch lead to the same files", "statement": "Creating the links of an export never changes or removes anything; on success every listed path is a link, and a newly created one leads to exactly the file the same path leads to in the previous output directory, even through earlier links; it succeeds exactly when nothing but a link is at the place of a link and nothing but directories on the way to it, and a second run does nothing. Whatever failures occur, a run that ends normally leaves out only links whose text the system refused.", "quantifier": "all output and previous directories, all lists of links, all filesystem states, failures and crashes", "why_tests_cant": "all link chains and tree shapes, interrupted runs", "anchors": ["cdtb/export.py:CdragonRawPatchExporter._create_symlinks"]}
{"id": "C55", "title": "An exported patch has exactly the planned content", "statement": "Exporting a patch never touches anything outside its output directory; on success the directory holds nothing but the lists, the kept paths and links; each file that differs from the previous patch is its converted source, each other exported path leads to what it leads to in the previous patch, and the lists name exactly the exported paths (and the word cdragon when no links are made), the links, and the hashes without a path, sorted.", "quantifier": "all patches, previous patches, converters, filesystem states, plans of failures", "why_tests_cant": "two patches, link reduction, cleaning and extraction composed, previous states of the output directory", "anchors": ["cdtb/export.py:CdragonRawPatchExporter.process"]}
{"id": "C56", "title": "The files of a patch are collected without losing or mixing entries", "statement": "Collecting the files of a patch maps each export path to its last source, archives apart from other files; each archive holds its entries in order without the redirections, each with the extension of its path, or else one guessed from the data of an entry with that hash, and a sanitized path; when data with the same hash always gives the same extension, the extensions do not depend on the order, and two patches collected one after the other can be exported with links.", "quantifier": "all lists of sources, archives, hash tables, states of the extension cache", "why_tests_cant": "the cache is shared by all archives of a process: its state depends on everything opened before", "anchors": ["cdtb/export.py:Exporter.add_path", "cdtb/export.py:Exporter.add_patch_files", "cdtb/export.py:CdragonRawPatchExporter._create_exporter"]}
{"id": "C57", "title": "TFT items are those of the map data, with their components named", "statement": "parse_items gives one item per item entry that is neither a template nor the null item, in order, with the data of its entry; components and traits are replaced by the names found in the last entry with that hash; it succeeds exactly when item names are strings and every link leads to a known trait or to a kept item.", "quantifier": "all lists of BIN entries, all hash lists", "why_tests_cant": "entries of any type and number, repeated paths, dangling links", "anchors": ["cdtb/tftdata.py:TftTransformer.parse_items", "cdtb/tftdata.py:collect_effects"]}
{"id": "C58", "title": "TFT traits and sets hold exactly what the lists of the map name", "statement": "parse_traits gives for each path the data of the last trait entry that is not a template, the variables of each level being the common ones replaced by its own; parse_sets keeps, in order, the sets that have lists, a number and a name, each with the lower case names of the characters of its lists in order, each of its traits once, and its augments and other items sorted without repetition; it succeeds exactly when there is a set and every set is skipped or has the expected lists and names.", "quantifier": "all lists of BIN entries, all hash lists, all set orders", "why_tests_cant": "dangling and repeated links, order of Python sets", "anchors": ["cdtb/tftdata.py:TftTransformer.parse_traits", "cdtb/tftdata.py:TftTransformer.parse_sets", "cdtb/tftdata.py:TftTransformer.parse_character_names"]}
{"id": "C59", "title": "Champions of the TFT data", "statement": "When TftTransformer.parse_champs succeeds, the champion stored under a lower case name is built from the last TftShopData entry with this name which is kept (it is not the template, one of its two files exists, the first record of the file has spells), and all its fields are those of the entry, of the first record of its file and of the first spell the record designates (first non-zero reference, or last part of the first spell name without regard for case): cost, role, statistics, traits, ability and its variables. Every kept entry gives a champion and no name appears twice. The function succeeds as soon as the traits are read and each kept entry has a name, a readable file whose spells have text names, and data of the expected forms. A champion without a splash has the icon 'None': the fallback to mIconPath never happens, which is shown to be reachable.", "quantifier": "all entries of the map bin, all files, all input directories", "why_tests_cant": "the test suite has no TFT data; the loop mixes two bin files, several generations of field names and defaults evaluated eagerly", "anchors": ["cdtb/tftdata.py:241-338"]}
{"id": "C60", "title": "Exported TFT data and its translation", "statement": "When build_template and the translation of TftTransformer.export succeed, and no text of the table is a key with another text, setData has one object per set that is not skipped, with the traits of the set and its known champions in order, each with the data of its last entry and with its name, description, trait names and ability texts translated once and nothing else changed; the sets by number hold the last set with this number; the items are those of the map, translated once. In general a trait or a champion is translated once per reference from the sets by number and from setData, because these share the same objects; a table whose texts are themselves keys translates them several times, which is exhibited. build_template succeeds when names, traits, sets, champions and items can be read and numbers of sets are not lists; with a string table (RST) the translation always succeeds.", "quantifier": "all entries, all files of champions, all tables of translations, all orders of sets", "why_tests_cant": "sharing of mutable objects between two output structures is invisible unless a translation is itself a key", "anchors": ["cdtb/tftdata.py:40-59", "cdtb/tftdata.py:61-93", "cdtb/tftdata.py:95-119"]}
{"id": "C61", "title": "Arena data", "statement": "ArenaTransformer.parse_augments gives one augment per enabled AugmentData entry, in order, with the fields of the entry, its icon paths in lower case with textures named .png, and the data values (the last one for each name, and at most one without a name) and the calculations of the spell it designates. It succeeds exactly when the spell of each enabled augment is a SpellObject of the map whose values can be read; a link to any other spell, even the null one, makes the whole export fail, and so does an empty mValues list next to a values list. Names, descriptions and tooltips are translated once and nothing else changes.", "quantifier": "all entries of the map bin, all string tables", "why_tests_cant": "a foreign or null spell link does not occur in the sample data; defaults of getv are evaluated eagerly", "anchors": ["cdtb/arenadata.py:36-48", "cdtb/arenadata.py:54-92", "cdtb/tools.py:110-114"]}
{"id": "C62", "title": "Search of translation files", "statement": "stringtable_paths(base_dir, game) gives the string tables of the newest path format for which at least one file is below base_dir, and only those: one entry per language code, holding exactly the path of the file of that language; RuntimeError is raised exactly when no format has any file. This assumes that base_dir has no pattern characters and that language directories have regular names: a directory such as \"x[1]\" is not searched, another one matching the pattern is searched instead, and a name with an end of line makes the search fail with AttributeError.", "quantifier": "all filesystem states, base directories and game names, all orders of the directory listings", "why_tests_cant": "needs directories mixing formats, and base directories with pattern characters", "anchors": ["cdtb/tools.py:84-108"]}
{"id": "C63", "title": "TFT and Arena exports write one correct file per language and nothing else", "statement": "TFT data are exported from patch 9.14 on, Arena data from patch 13.14 on, and both for PBE; nothing is done for older patches. When the export ends normally, the output directory has for each language of the string tables (or each requested one) a file <lang>.json with exactly the dump of the data of the map translated with the string table of this language. Whatever the faults, exceptions or crashes, only these files and the directories that lead to them change. The export succeeds when the data of all languages can be computed; a requested language without string table stops it with KeyError after the files of the languages before. An interrupted export leaves a truncated file in place, and BIN files are always read with the latest type codes, so that the map of an older patch, although readable and complete, makes the export fail: both are refuted.", "quantifier": "For every filesystem, list of languages, template, string table, sequence of faults and crash point, every version.", "why_tests_cant": "Tests would need game files of many patches, crash injection at each write and comparison of whole directory trees.", "anchors": ["cdtb/tftdata.py:35-93", "cdtb/arenadata.py:9-51", "cdtb/export.py:388-404"]}
{"id": "C64", "title": "Patch versions of elements and their caches", "statement": "The patch version of a release element is read from its extracted system.yaml (first 'branch:' line ending with a version) or content-metadata.json (first two numbers), is 'main' on PBE, and is written to a cache file; once this file exists the version comes from it without retrieving or changing anything, and a version which was stored is given again by any later call. RADS solutions follow the same rules and have no version only if their file list is gone or for old clients without system.yaml. Interrupted writes of the cache, files without version, and RADS files that exist relatively to the current directory are refuted cases.", "quantifier": "for all files, texts, manifests, cache contents, filesystem states, failure plans, network and codec behaviours", "why_tests_cant": "Caches hide the retrieval in later runs, and the results depend on the state left by earlier or interrupted runs; tests only cover some texts and complete runs.", "anchors": ["cdtb/storage.py:428-454", "cdtb/patcher.py:585-637", "cdtb/rads.py:309-391"]}
{"id": "C65", "title": "Guessing numbers and words tries exactly the described paths", "statement": "For known paths without percent signs (and, for words, without opening braces), the substitution of numbers tries exactly the paths obtained by replacing a longest run of digits of a basename, before its extension, by each number below the limit; with a given width it replaces each aligned group of that many digits by zero-padded numbers, and the width guessed from the limit is the number of digits of the largest number. Substitution of words replaces nold neighbouring words by every sequence of nnew words joined by '-' or by '_', and fails when nold or nnew is 0; addition of a word puts each word before or after each word of the basename. Each new known path is such a candidate stored under its own hash, nothing known is lost and no candidate remains unknown. The client guesser leaves out exactly the listed paths (champion data, characters, items, digests), the plugin and extension filters and the word lists are as described, and the game guesser adds no words to voice, sound, character and skin paths. Whatever the paths, the guesser remains consistent. A known path with a percent sign can stop the search, so that candidates of other paths are not tried.", "quantifier": "all known paths, unknown hashes, word lists, limits, widths, numbers of words, hash functions", "why_tests_cant": "Candidates depend on every known path and every number or combination of words; no test enumerates them, and a missed candidate is silent", "anchors": ["cdtb/hashes.py:278-337", "cdtb/hashes.py:382-428", "cdtb/hashes.py:570-622"]}
{"id": "C66", "title": "Guessing by changes of regions, plugins, suffixes, languages, characters and prefixes tries exactly the described paths", "statement": "The substitution of regions and languages tries, for each known plugin path plugins/x/region/lang/rest, all listed regions and languages (with global and default), and other known paths unchanged. The substitution of plugins tries each known path below plugins with each known plugin name. The substitution of suffixes replaces the .suffix before the extension by each known suffix and by none. The substitution of languages replaces, from left to right, all language codes of a known path by each language; that of characters replaces all occurrences of the name of the directory of a character by each known character. The prefix guesser tries each prefix before the last name of each known path. Game paths ending in .dds or .json give the client paths with .png and .jpg or .json, and client paths below the default game data give the game paths; what one finds, the other brings back to the same path. Each new known path is such a candidate stored under its own hash, nothing known is lost and no candidate remains unknown. A known file directly in plugins stops the plugin guesser with a TypeError, and a file whose name contains the name of its character is not tried under its own name for other characters.", "quantifier": "all known paths, unknown hashes, lists of game and client paths, prefixes, hash functions", "why_tests_cant": "Candidates depend on every known path; no test enumerates them, and a missed candidate is silent", "anchors": ["cdtb/hashes.py:387-399", "cdtb/hashes.py:430-439", "cdtb/hashes.py:505-515", "cdtb/hashes.py:601-615", "cdtb/hashes.py:624-640", "cdtb/hashes.py:664-693", "cdtb/hashes.py:747-759", "cdtb/data.py:4-5"]}
{"id": "C67", "title": "Guessing of the files of characters, skins, shaders and fixed patterns tries exactly the described paths", "statement": "The list of characters is sorted and contains exactly the names found in known paths. Whatever the order in which the set of skins is enumerated, the skin guesser finds only known paths whose names of skins are replaced, from left to right, by different known skins of the same character, and for each choice of different skins it tries at least one of their orders; a path with one skin is tried with every skin of its character. The long names of skin files are tried for each nonempty set of known skins and skin 0, in the order of texts; those of chromas for each nonempty set of groups and the root, sorted, and one path of another form stops the guesser with an AttributeError before any check. The files of characters, with 200 skins (500 for sightward) and ten tiers for pets, and the variants of the last shader extension of a known path, alone and with multiples of 100 below 20000, are tried exactly as listed. The fixed patterns of perks and sanitizer are tried; the guesser then stops with a RuntimeError as soon as one splash is found, since it adds to the dictionary which it enumerates. The same skin twice is never tried.", "quantifier": "all known paths, unknown hashes, hash functions, orders of sets, downloaded lists of skins", "why_tests_cant": "Candidates depend on every known path and on the order of a set of strings; a missed candidate is silent", "anchors": ["cdtb/hashes.py:517-554", "cdtb/hashes.py:585-595", "cdtb/hashes.py:642-662", "cdtb/hashes.py:695-745", "cdtb/hashes.py:761-798"]}
{"id": "C68", "title": "The search of paths in game archives finds exactly the described strings", "statement": "For every list of entries of an archive (types, extensions, paths, results of reading) the search tries exactly these paths: in property files each string which starts with one of nine directory names, of the length written in the two bytes before it, when it is ASCII, with its derived paths by kind (characters, Lua files, shaders with all extensions and variants, map geometry, parent directories, pictures); in preload files each quoted name, as Lua, troy or preload file; in shaders each include relative to the shader, in the normal form of os.path.normpath; in atlases each ASCII line relative to the atlas; in other files the leftmost longest path-like strings, whole and of the length written before them in two or four bytes, with data_soon replaced and the Lua variants. Links and seventeen extensions are not read. The search succeeds exactly when no entry fails: an entry fails when it cannot be read, or when a quoted text of a preload file or shader is not ASCII; entries before the first failing one are completely searched and later ones not at all. Only paths which are unknown are added and the guesser stays consistent. The lines of a debugger are searched likewise. Hypothesis: no percent sign in the directory of a preload file.", "quantifier": "all archives, bytes, known and unknown hashes, hash functions", "why_tests_cant": "The search works on arbitrary bytes; a missed string is silent and one bad byte stops it", "anchors": ["cdtb/hashes.py:245-247", "cdtb/hashes.py:594-595", "cdtb/hashes.py:800-912"]}
{"id": "C69", "title": "The download of a RADS solution is complete, keeps existing files and needs the server only once", "statement": "For every solution version, choice of languages, server and execution (failing calls and crashes included), the download leaves every existing file unchanged and creates only the solution manifest, the release and package manifests and the packaged files of the selected project versions, and directories leading to them. Unless the process dies or the removal of an incomplete file fails, each new file is a manifest exactly as received or has the bytes advertised by the manifest of its project version. After a success, all manifests and packaged files of all selected project versions are there; a second download then changes nothing whatever the server answers and succeeds without a server; and the listing of the paths works without a server and gives exactly the packaged files, all of which exist, with what follows the fifth slash in lower case as relative path (IndexError when a path has less slashes). Hypotheses: the places of the manifests and packaged files are plain paths without links, distinct, and no packaged file takes the place of a package manifest.", "quantifier": "all solutions, servers, filesystems, failures, orders of sets", "why_tests_cant": "A download of thousands of files is interrupted at arbitrary points and started again; tests do not enumerate these executions", "anchors": ["cdtb/rads.py:241-307", "cdtb/rads.py:475-488", "cdtb/rads.py:529-568"]}
{"id": "C70", "title": "The update of the hash files changes nothing else, downloads what is outdated and keeps what is recent", "statement": "Valid dates of the calendar (years 1 to 9999) have consecutive day numbers, and a header such as 'Sun, 06 Nov 1994 08:49:37 GMT' is read as the number of seconds since 1970 it denotes; whatever text is accepted denotes some instant, and all others give ValueError. For every directory of hashes other than that of the source, server, modification times and execution (failing calls and crashes included), the update changes nothing but the nine hash files and directories leading to them. After a success, each file was there and is unchanged and not older than that of the server, or has the content sent by the server. Otherwise the files up to some file have been updated, the following ones are unchanged and that file is unchanged or gone (unless the process died or the removal failed). When nothing can be downloaded no file changes; when all files are there and recent, an update without failures succeeds and changes nothing. With the directory of the source nothing is done. Hypothesis: the directory is a plain path without links.", "quantifier": "all dates, texts, directories, servers, modification times, failures", "why_tests_cant": "Dates of all years and interrupted updates cannot be enumerated by tests; the server and the clock are outside of their control", "anchors": ["cdtb/hashes.py:88-110", "cdtb/__main__.py:91-114"]}
{"id": "C71", "title": "The archive commands extract exactly the wanted entries and list all of them", "statement": "fnmatch agrees with the documented meaning of patterns (any text, any character, sets and negated sets that must be closed) for every pattern and name. wad-extract takes exactly the entries that agree with --unknown and with some pattern, in order; with patterns, entries of unknown path are never taken. Without an output the directory is the path without its last extension. If the archive or its hash file cannot be read or parsed, the output is something else than a directory, or the guessing of extensions fails, nothing is written and the command fails; otherwise the extraction runs. Whatever fails later, only the destinations of wanted entries with data and missing directories change; after a success they hold the data of the (last) entry; with --lazy what exists is never changed and what was missing is written. wad-list writes nothing and prints every entry once, as hash and path or '?', ordered by path then hash; a line is read back as a line of a hash file. Hypothesis: the destinations are plain paths without links.", "quantifier": "all archives, hash files, patterns, options, filesystems, failures", "why_tests_cant": "Tests extract a few archives; they cannot cover all patterns and interleavings of failures", "anchors": ["cdtb/__main__.py:117-156", "cdtb/hashes.py:53-86", "cdtb/wad.py:188-340"]}
{"id": "C72", "title": "The search in client archives finds only paths of their files, and all of them when no file fails", "statement": "The matches of the eight regular expressions are the non-overlapping matches from left to right, with greedy, lazy and ordered alternatives resolved to longest runs, longest names, last and first marks. A JSON file is read according to its path and keys; every other text is searched as such. Only the paths in the files, and the relative names of the files below the directories of known or just found paths, are added, each under its own hash which was unknown. The search succeeds iff no file fails (unreadable, redirection, JSON of another shape). Then every path, and every name in every directory of a known path, has been tried. If a file fails, the paths of the files before it have been tried and no name at all. A list of words is tried word by word. Only archives named *.wad are used, and the hashes to find are their hashes that are not known.", "quantifier": "all entries, texts, JSON values, known and unknown hashes, hash functions", "why_tests_cant": "Tests search a few files; they cannot cover all texts matched by the patterns nor all orders of failures", "anchors": ["cdtb/hashes.py:186-193", "cdtb/hashes.py:241-243", "cdtb/hashes.py:354-367", "cdtb/hashes.py:375-381", "cdtb/hashes.py:441-503"]}
{"id": "C73", "title": "Downloads of releases succeed when their data is available, and give every file", "statement": "Consider a usable storage and release whose selected files have names. Assume that each selected file is already extracted, or that there is room for it and its chunks decompress from bundles that are in the storage or on the CDN. Then, without failures of the system, the list of bundles is computed, all download threads succeed whatever their schedule, the extraction succeeds, and each selected file can be read: its content is that of its chunks, or the one it had before. The downloaded bundles are exactly those of the files that were not extracted. If the manifest has no links, all paths listed by fspaths() can then be read.", "quantifier": "all manifests, languages, filesystems, bundles, schedules of the threads, with or without shared files", "why_tests_cant": "Tests download one release in one schedule; success for all states of the storage and all schedules cannot be enumerated", "anchors": ["cdtb/patcher.py:431-472", "cdtb/patcher.py:546-583", "cdtb/patcher.py:646-658"]}
{"id": "C74", "title": "Commands on components act on the designated elements, all or nothing", "statement": "The elements of a component argument are those it designates: all elements of the first patch of that version on the server, or the first element of that name and version (among stored elements when a version is given). When a component designates nothing, or is malformed, the command exits with an error; a download then does nothing at all, whatever the position of the component among the arguments. Otherwise all elements of all components are downloaded in order. A version with a final dot is the same as without. The listing of files gives the lines of each element in order until a failure; the listing of versions gives one line for each group of elements with an element of that type and never fails. Relative paths are the names of the manifest in lower case.", "quantifier": "all listings, component texts, filesystems, plans of failures, manifests", "why_tests_cant": "Tests use a few well-formed components on one listing", "anchors": ["cdtb/__main__.py:32-47", "cdtb/__main__.py:73-88", "cdtb/patcher.py:645-658"]}
{"id": "C75", "title": "The command that guesses hashes runs the requested methods and only adds correct paths", "statement": "A successful hashes-guess has opened the given archives (files, or files of all elements of given patches), and run, for the archives of the client and then for those of the game, the requested methods once each in a fixed order (all but two by default), on a guesser whose unknown hashes are those of the archives that are not in the table. The table is saved when something was found and it is not a dry run; otherwise nothing changes. In any execution, failed or not, only the files of hashes may change; their new text is the one of a table with all known entries plus paths stored under their own hashes, which are hashes of the given archives, and it is complete if the system does not fail; reloading it gives that table back. A dry run never writes. An unknown method, or no archive, makes the program exit before anything is read.", "quantifier": "all arguments, filesystems, archives, tables, hash functions, plans of failures", "why_tests_cant": "The methods are composed in many ways on arbitrary tables; tests cannot cover combinations, failures and hash collisions", "anchors": ["cdtb/__main__.py:159-261", "cdtb/hashes.py:71-74", "cdtb/hashes.py:186-206"]}
{"id": "C76", "title": "Component strings, order and listing of the parts of a RADS storage", "statement": "parse_rads_component accepts exactly the texts [s:|p:]name[=version] with at most one final newline, and refuses all others with ValueError. The type is the given one, else 'patch' for this name, a solution for names ending in _sln, a project otherwise. Without version the part itself is returned; four numbers give the version with this text and these numbers, another count is an AssertionError; 'main' only suits patches; an empty version of a solution is the newest version of its release listing, in any order of the lines, and of a project the first line. What is printed after 'rads:' for a part or one of its versions, once typed, is read back. Versions of parts are ordered by name then newest first, strictly and without failure, and are equal when their names and texts are. list_projects and list_solutions return each directory with releases once; stored versions are the directories of the solution, newest first.", "quantifier": "all strings, character classes, release listings, versions, filesystems and directory orders", "why_tests_cant": "A regular expression and an order have infinitely many inputs; the newest version depends on arbitrary listings", "anchors": ["cdtb/rads.py:76-92", "cdtb/rads.py:141-239", "cdtb/rads.py:403-473", "cdtb/rads.py:599-636"]}
{"id": "C77", "title": "Elements of the releases of a patcher storage", "statement": "The available elements of a release are exactly 'game' and 'client' when they have a non-empty manifest URL. When the versions of the elements are in cache files (always for PBE), listing stored elements gives exactly the elements of all stored releases with these versions, latest release first and game before client, once each when directories have usual decimal names; it changes nothing, even when it fails, does not depend on the servers, and succeeds when caches and releases can be read. When the latest release is asked for, after any sequence of fetches with a clock that does not go back, the first element listed is the first element of the release given by the servers, whatever the caches.", "quantifier": "all filesystems, releases, caches, orders of directories, servers, failures and crashes", "why_tests_cant": "The list depends on the whole content of a storage and on failures at any operation", "anchors": ["cdtb/patcher.py:332-356", "cdtb/patcher.py:476-505", "cdtb/patcher.py:520-538", "cdtb/patcher.py:585-608", "cdtb/patcher.py:641-645"]}
{"id": "C78", "title": "Extraction of meshes by the command line", "statement": "skn-extract refuses what is not a file and fails on what is not a mesh before creating anything. Whatever fails, it only writes the files of the submeshes and the missing directories of the output directory, which by default is the path of the mesh without its extension. When it succeeds, all the submeshes are made of triangles and the file of the last submesh of each name holds its OBJ text. It succeeds when they are made of triangles and nothing is in the way; otherwise the submeshes before the first wrong one are complete, that one is left empty and the next ones are not written. (Submesh names without separators, output directory reached without '..' nor links.)", "quantifier": "all meshes, filesystems, output directories, failures and crashes", "why_tests_cant": "Tests run the command on a few meshes, without failures nor malformed submeshes", "anchors": ["cdtb/__main__.py:305-316", "cdtb/sknfile.py:6-7", "cdtb/sknfile.py:74-85"]}
{"id": "C79", "title": "Text dump of BIN files", "statement": "The dump of a BIN file is made of complete lines; whatever the values, its lines which are not indented are exactly the first and last lines of the list of linked files, of each entry and of each patch entry, in order, with the path and type of the entry. Items of lists, fields of structures and of entries are on their own lines, indented by two more spaces than what holds them; so are the items of maps when keys are on one line. Strings are shown as Python literals on one line from which they can be read back, in double quotes exactly when they hold single quotes and no double ones, ordinary characters as themselves, other simple values and names of types as documented by the format. The command bin-dump refuses what is not a file, never writes, and prints the dump (or the JSON form) of the file read with the version which was asked, the latest one by default.", "quantifier": "all BIN files and values, hash tables, versions and filesystems", "why_tests_cant": "Tests dump a few files, without newlines in strings nor unusual nesting", "anchors": ["cdtb/binfile.py:7-13", "cdtb/binfile.py:75-78", "cdtb/binfile.py:85-88", "cdtb/binfile.py:112-115", "cdtb/binfile.py:224-243", "cdtb/binfile.py:251-252", "cdtb/binfile.py:303-304", "cdtb/binfile.py:317-318", "cdtb/binfile.py:329-331", "cdtb/binfile.py:341-343", "cdtb/binfile.py:373-380", "cdtb/__main__.py:319-330"]}
{"id": "C80", "title": "Interruptible iterations of the guessers", "statement": "Whenever signals arrive between the steps of a displayed iteration, items are given in order and each one once, all of them when it ends by itself; as long as it is not being left, the remaining items can be obtained. While it is active signals come to it. It is interrupted exactly when a signal comes less than half a second after the previous one. Displayed lines are about increasing positions, at most one per signal, and a signal received while the loop body runs makes the next item, with its position, displayed. The previous handler is put back at the end when signals are spaced, or when none arrives right after the installation nor during the restoration.", "quantifier": "all sequences, previous handlers and interleavings of signals, exits of the loop and exceptions", "why_tests_cant": "Interleavings of signals with each step cannot be enumerated nor timed by tests", "anchors": ["cdtb/hashes.py:128-145", "cdtb/hashes.py:147-162"]}
{"id": "C81", "title": "Downloads and extractions of whole releases", "statement": "When the chunks of all files to extract of all elements of a release are in bundles of the storage or of the CDN, there is room for the files and no two of them have the same place, downloading the bundles of the elements one after the other succeeds whatever the schedules of the threads, then extracting the elements succeeds, and every file of every element can be read, with the content of its chunks unless it was already there. This also holds after any previous downloads, of this release or others, interrupted by network failures. Whether it succeeds or not, the download only makes missing bundles available on the CDN.", "quantifier": "all lists of manifests, selections of languages, initial storages, CDN contents and schedules of the threads", "why_tests_cant": "The state left by each element is the start of the next ones, under all schedules of eight threads", "anchors": ["cdtb/patcher.py:507-517", "cdtb/patcher.py:554-566"]}
{"id": "C82", "title": "Downloads of patches", "statement": "When the chunks of all files to extract of the elements of a patch, which may come from several releases, are in bundles of the storage or of the CDN, there is room for the files and no two of them have the same place, downloading the patch (each element is downloaded then extracted before the next one) succeeds whatever the schedules of the threads. Afterwards every file of every element can be read, with the content of its chunks unless it was already there, and files of other elements and releases extracted before keep their content. Whether it succeeds or not, the download only changes the places of the files of the elements, their shared copies and missing bundles. After any number of attempts stopped by failed requests, downloading again succeeds and gives the same files. A download that succeeds has downloaded and extracted every element.", "quantifier": "all lists of elements, selections of languages, initial storages, CDN contents and schedules of the threads", "why_tests_cant": "The files extracted for each element are shared by the next ones, in states left by all schedules of the threads", "anchors": ["cdtb/storage.py:423-425", "cdtb/patcher.py:646-648", "cdtb/patcher.py:554-571"]}
