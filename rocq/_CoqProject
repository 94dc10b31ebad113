-Q theories Verif
theories/Base.v
theories/InfinintModel.v
theories/InfinintProof.v
theories/InfinintProof2.v
theories/PropInfinint.v
theories/LimitintModel.v
theories/LimitintProof.v
theories/PropLimitint.v
theories/DeciModel.v
theories/DeciProof.v
theories/PropDeci.v
theories/CrcModel.v
theories/CrcProof.v
theories/PropCrc.v
theories/FileModel.v
theories/ElasticModel.v
theories/ElasticProof.v
theories/PropElastic.v
theories/TerminateurModel.v
theories/TerminateurProof.v
theories/PropTerminateur.v
theories/EscapeModel.v
theories/EscapeSpec.v
theories/EscapeProof.v
theories/EscapeProof2.v
theories/EscapeProof3.v
theories/EscapeProof4.v
theories/PropEscape.v
theories/ClientSpec.v
theories/ScramblerModel.v
theories/PropScrambler.v
theories/NumModel.v
theories/SliceModel.v
theories/HeaderModel.v
theories/PropSlice.v
theories/SarNameModel.v
theories/PropSarName.v
theories/RangeModel.v
theories/PropRange.v
theories/PathModel.v
theories/PropPath.v
theories/MaskModel.v
theories/PropMask.v
theories/DatetimeModel.v
theories/PropDatetime.v
theories/PropChange.v
theories/DbModel.v
theories/DbMap.v
theories/PropDbDelta.v
theories/PropDbPerm.v
theories/PropDbLookup.v
theories/PropDbRemove.v
theories/CritModel.v
theories/PropCrit.v
theories/PolicyModel.v
theories/PropPolicy.v
theories/SparseModel.v
theories/SparseProof.v
theories/SparseProof2.v
theories/SparseProof3.v
theories/PropSparse.v
theories/CopyModel.v
theories/PropCopy.v
theories/CacheModel.v
theories/CacheProof.v
theories/CacheProof2.v
theories/PropCache.v
theories/TroncModel.v
theories/PropTronc.v
theories/StorageModel.v
theories/StorageProof.v
theories/PropStorage.v
theories/CryptModel.v
theories/CryptProof.v
theories/PropCrypt.v
theories/BlockModel.v
theories/PropBlock.v
theories/HeaderProof.v
theories/HeaderProof2.v
theories/HeaderProof3.v
theories/PropHeader.v
theories/ListingModel.v
theories/ListingProof.v
theories/PropListing.v
theories/SarModel.v
theories/SarProof.v
theories/PropSar.v
theories/ReadStable.v
theories/CatModel.v
theories/CatSpec.v
theories/CatProof.v
theories/CatProof2.v
theories/CatProof3.v
theories/PropCatalogue.v
theories/DbFileModel.v
theories/DbFileSpec.v
theories/DbFileProof.v
theories/DbFileProof2.v
theories/PropDbFile.v
theories/PipeModel.v
theories/PipeProof.v
theories/PipeProof2.v
theories/PipeSpec.v
theories/PropPipe.v
theories/RestoreModel.v
theories/RestoreSpec.v
theories/RestoreProof.v
theories/RestoreProof2.v
theories/RestoreProof3.v
theories/RestoreProof4.v
theories/RestoreProof5.v
theories/PropRestore.v
theories/LinkModel.v
theories/LinkSpec.v
theories/LinkProof.v
theories/LinkProof2.v
theories/LinkProof3.v
theories/LinkProof4.v
theories/PropLink.v
theories/MergeModel.v
theories/MergeSpec.v
theories/MergeProof.v
theories/MergeProof2.v
theories/MergeProof3.v
theories/MergeProof4.v
theories/MergeProof5.v
theories/PropMerge.v
theories/SeqModel.v
theories/SeqSpec.v
theories/SeqProof.v
theories/SeqProof2.v
theories/SeqProof3.v
theories/SeqProof4.v
theories/SeqProof5.v
theories/SeqProof6.v
theories/SeqProof7.v
theories/SeqProof8.v
theories/SeqProof9.v
theories/SeqProof10.v
theories/SeqProof11.v
theories/PropSeq.v
theories/DiffModel.v
theories/DiffSpec.v
theories/DiffProof.v
theories/DiffProof2.v
theories/DiffProof3.v
theories/DiffProof4.v
theories/PropDiff.v
theories/UnzipModel.v
theories/UnzipSpec.v
theories/UnzipProof.v
theories/UnzipProof2.v
theories/UnzipProof3.v
theories/UnzipProof4.v
theories/UnzipProof5.v
theories/PropUnzip.v
theories/CancelModel.v
theories/CancelSpec.v
theories/CancelProof.v
theories/CancelProof2.v
theories/PropCancel.v
theories/ZapModel.v
theories/ZapSpec.v
theories/PropZap.v
theories/ManagerModel.v
theories/ManagerSpec.v
theories/ManagerProof.v
theories/PropManager.v
theories/BackupModel.v
theories/BackupSpec.v
theories/BackupProof.v
theories/BackupPaths.v
theories/BackupCount.v
theories/PropBackup.v
theories/HookSpec.v
theories/HookProof.v
theories/HookPaths.v
theories/PropHook.v
theories/FetchModel.v
theories/FetchSpec.v
theories/FetchProof.v
theories/FetchLive.v
theories/PropFetch.v
theories/HashModel.v
theories/HashSpec.v
theories/HashProof.v
theories/HashProof2.v
theories/PropHash.v
theories/FsaModel.v
theories/FsaSpec.v
theories/FsaProof.v
theories/PropFsa.v
theories/SplitModel.v
theories/SplitSpec.v
theories/PropSplit.v
theories/DarCpModel.v
theories/DarCpSpec.v
theories/DarCpProof.v
theories/PropDarCp.v
theories/RsyncModel.v
theories/RsyncSpec.v
theories/RsyncProof.v
theories/PropRsync.v
theories/FilterModel.v
theories/FilterSpec.v
theories/FilterProof.v
theories/FilterProof2.v
theories/PropFilter.v
theories/PropFilterRegex.v
theories/CompStreamModel.v
theories/CompStreamSpec.v
theories/CompStreamProof.v
theories/PropCompStream.v
theories/ZstdModel.v
theories/ZstdSpec.v
theories/ZstdProof.v
theories/PropZstd.v
theories/DcfModel.v
theories/DcfSpec.v
theories/DcfProof.v
theories/DcfProof2.v
theories/DcfProof3.v
theories/PropDcf.v
theories/ArgModel.v
theories/ArgSpec.v
theories/ArgProof.v
theories/PropArg.v
theories/EaModel.v
theories/EaSpec.v
theories/EaProof.v
theories/EaProof2.v
theories/PropEa.v
theories/ZoptModel.v
theories/ZoptSpec.v
theories/ZoptProof.v
theories/PropZopt.v
