-Q theories Verif
theories/Base/Py.v
theories/Base/PyFacts.v
theories/Base/Text.v
theories/Base/TextFacts.v
theories/Base/PathFacts.v
theories/Base/Bin.v
theories/Base/BinFacts.v
theories/Base/Utf8.v
theories/Base/Fs.v
theories/Spec/FsSpec.v
theories/Base/FsFacts.v
theories/Spec/Utf8Spec.v
theories/Proofs/Utf8Proofs.v
theories/Model/Version.v
theories/Spec/VersionSpec.v
theories/Proofs/VersionProofs.v
theories/Props/VersionProps.v
theories/Model/Stream.v
theories/Spec/StreamSpec.v
theories/Proofs/StreamProofs.v
theories/Props/StreamProps.v
theories/Model/Storage.v
theories/Spec/StorageSpec.v
theories/Proofs/StorageProofs.v
theories/Props/StorageProps.v
theories/Model/Component.v
theories/Spec/ComponentSpec.v
theories/Proofs/ComponentProofs.v
theories/Props/ComponentProps.v
theories/Model/Tools.v
theories/Props/Utf8Props.v
theories/Model/Wad.v
theories/Spec/WadSpec.v
theories/Proofs/WadProofs.v
theories/Proofs/WadPathProofs.v
theories/Props/WadProps.v
theories/Model/Files.v
theories/Spec/FilesSpec.v
theories/Proofs/FilesProofs.v
theories/Props/FilesProps.v
theories/Model/WadExtract.v
theories/Spec/WadExtractSpec.v
theories/Proofs/WadExtractProofs.v
theories/Props/WadExtractProps.v
theories/Base/Lines.v
theories/Base/LinesFacts.v
theories/Model/Rads.v
theories/Spec/RadsSpec.v
theories/Proofs/RadsProofs.v
theories/Proofs/RadsExtractProofs.v
theories/Props/RadsProps.v
theories/Model/Hashes.v
theories/Spec/HashesSpec.v
theories/Proofs/HashesProofs.v
theories/Props/HashesProps.v
theories/Spec/DictSpec.v
theories/Proofs/DictProofs.v
theories/Model/Rst.v
theories/Spec/RstSpec.v
theories/Proofs/RstProofs.v
theories/Props/RstProps.v
theories/Model/Skn.v
theories/Model/BinFile.v
theories/Spec/SknSpec.v
theories/Spec/BinSpec.v
theories/Proofs/SknProofs.v
theories/Proofs/BinProofs.v
theories/Proofs/BinReadProofs.v
theories/Spec/BinAccessSpec.v
theories/Proofs/BinAccessProofs.v
theories/Props/BinProps.v
theories/Props/BinAccessProps.v
theories/Props/SknProps.v
theories/Props/WadOpenProps.v
theories/Model/Rman.v
theories/Spec/RmanSpec.v
theories/Proofs/RmanProofs.v
theories/Props/RmanProps.v
theories/Model/Patcher.v
theories/Model/Releases.v
theories/Base/Regex.v
theories/Model/ExportTree.v
theories/Model/Exporter.v
theories/Model/Tex.v
theories/Model/Tables.v
theories/Model/Translations.v
theories/Model/Cli.v
theories/Spec/PatcherSpec.v
theories/Spec/ReleasesSpec.v
theories/Spec/ExportTreeSpec.v
theories/Spec/ExporterSpec.v
theories/Spec/TexSpec.v
theories/Spec/TablesSpec.v
theories/Spec/TranslationsSpec.v
theories/Spec/CliSpec.v
theories/Proofs/PatcherUrlProofs.v
theories/Base/FsLinks.v
theories/Base/FsDir.v
theories/Base/FsThreads.v
theories/Proofs/PatcherLinkProofs.v
theories/Proofs/PatcherExtractProofs.v
theories/Proofs/PatcherBundleProofs.v
theories/Proofs/PatcherCompleteProofs.v
theories/Proofs/ReleasesProofs.v
theories/Proofs/ExportTreeProofs.v
theories/Proofs/ExporterProofs.v
theories/Proofs/TexProofs.v
theories/Proofs/TablesProofs.v
theories/Proofs/TranslationsProofs.v
theories/Proofs/CliProofs.v
theories/Props/PatcherProps.v
theories/Props/PatcherBundleProps.v
theories/Proofs/ReleasesTotalProofs.v
theories/Props/ReleasesProps.v
theories/Props/ExportTreeProps.v
theories/Props/ExporterProps.v
theories/Props/TexProps.v
theories/Props/TablesProps.v
theories/Props/TranslationsProps.v
theories/Props/CliProps.v
theories/Base/FsTree.v
theories/Model/Clean.v
theories/Spec/CleanSpec.v
theories/Proofs/CleanProofs.v
theories/Props/CleanProps.v
theories/Base/FsTreeFacts.v
theories/Base/FsReal.v
theories/Base/FsRealFacts.v
theories/Model/Convert.v
theories/Spec/ConvertSpec.v
theories/Proofs/ConvertProofs.v
theories/Proofs/ConvertRunProofs.v
theories/Proofs/ExportAllProofs.v
theories/Props/ConvertProps.v
theories/Model/Symlinks.v
theories/Spec/SymlinksSpec.v
theories/Proofs/SymlinksProofs.v
theories/Props/SymlinksProps.v
theories/Model/Process.v
theories/Spec/ProcessSpec.v
theories/Proofs/ProcessProofs.v
theories/Props/ProcessProps.v
theories/Model/AddFiles.v
theories/Spec/AddFilesSpec.v
theories/Proofs/AddFilesProofs.v
theories/Props/AddFilesProps.v
theories/Model/GameData.v
theories/Model/Tft.v
theories/Spec/GameDataSpec.v
theories/Spec/TftSpec.v
theories/Proofs/GameDataProofs.v
theories/Proofs/TftProofs.v
theories/Proofs/TftSetProofs.v
theories/Props/TftProps.v
theories/Props/TftSetProps.v
theories/Spec/TftChampSpec.v
theories/Proofs/TftChampProofs.v
theories/Props/TftChampProps.v
theories/Spec/TftExportSpec.v
theories/Proofs/TftExportProofs.v
theories/Props/TftExportProps.v
theories/Model/Arena.v
theories/Spec/ArenaSpec.v
theories/Proofs/ArenaProofs.v
theories/Props/ArenaProps.v
theories/Model/Stringtables.v
theories/Spec/StringtablesSpec.v
theories/Proofs/StringtablesProofs.v
theories/Props/StringtablesProps.v
theories/Model/GameExport.v
theories/Spec/GameExportSpec.v
theories/Proofs/GameExportProofs.v
theories/Props/GameExportProps.v
theories/Model/PatchCache.v
theories/Spec/PatchCacheSpec.v
theories/Proofs/PatchCacheProofs.v
theories/Props/PatchCacheProps.v
theories/Model/Guess.v
theories/Spec/GuessSpec.v
theories/Proofs/GuessProofs.v
theories/Props/GuessProps.v
theories/Model/GuessPaths.v
theories/Spec/GuessPathsSpec.v
theories/Proofs/GuessPathsProofs.v
theories/Props/GuessPathsProps.v
theories/Model/GuessChars.v
theories/Spec/GuessCharsSpec.v
theories/Proofs/GuessCharsProofs.v
theories/Props/GuessCharsProps.v
theories/Model/Grep.v
theories/Spec/GrepSpec.v
theories/Proofs/GrepProofs.v
theories/Props/GrepProps.v
theories/Model/RadsDownload.v
theories/Spec/RadsDownloadSpec.v
theories/Proofs/RadsDownloadProofs.v
theories/Props/RadsDownloadProps.v
theories/Model/FetchHashes.v
theories/Spec/FetchHashesSpec.v
theories/Proofs/FetchDateProofs.v
theories/Proofs/FetchHashesProofs.v
theories/Props/FetchHashesProps.v
theories/Model/WadCli.v
theories/Model/GuessCli.v
theories/Spec/WadCliSpec.v
theories/Spec/GuessCliSpec.v
theories/Proofs/WildProofs.v
theories/Proofs/WadCliProofs.v
theories/Proofs/GuessCliProofs.v
theories/Props/WadCliProps.v
theories/Props/GuessCliProps.v
theories/Base/Re.v
theories/Model/GrepLcu.v
theories/Spec/GrepLcuSpec.v
theories/Proofs/ReProofs.v
theories/Proofs/GrepLcuProofs.v
theories/Proofs/GrepLcuFileProofs.v
theories/Props/GrepLcuProps.v
theories/Model/Components.v
theories/Spec/ComponentsSpec.v
theories/Proofs/ComponentsProofs.v
theories/Spec/PatcherTotalSpec.v
theories/Proofs/PatcherTotalProofs.v
theories/Props/PatcherTotalProps.v
theories/Proofs/WadTotalProofs.v
theories/Props/WadTotalProps.v
theories/Spec/HandledSpec.v
theories/Proofs/HandledProofs.v
theories/Props/HandledProps.v
theories/Spec/SelectionSpec.v
theories/Proofs/SelectionProofs.v
theories/Props/SelectionProps.v
theories/Props/PatcherOrderProps.v
theories/Props/ComponentsProps.v
theories/Model/RadsParts.v
theories/Spec/RadsPartsSpec.v
theories/Proofs/RadsPartsProofs.v
theories/Props/RadsPartsProps.v
theories/Model/PatcherList.v
theories/Model/ReleaseJobs.v
theories/Spec/PatcherListSpec.v
theories/Proofs/PatcherListProofs.v
theories/Props/PatcherListProps.v
theories/Model/SknCli.v
theories/Spec/SknCliSpec.v
theories/Proofs/SknCliProofs.v
theories/Props/SknCliProps.v
theories/Model/BinDump.v
theories/Spec/BinDumpSpec.v
theories/Proofs/BinDumpProofs.v
theories/Props/BinDumpProps.v
theories/Model/Progress.v
theories/Spec/ProgressSpec.v
theories/Proofs/ProgressProofs.v
theories/Props/ProgressProps.v
theories/Proofs/ReleaseJobsProofs.v
theories/Props/ReleaseJobsProps.v
theories/Spec/PatchDownloadSpec.v
theories/Proofs/PatchDownloadProofs.v
theories/Props/PatchDownloadProps.v
