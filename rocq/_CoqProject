-Q theories Verif
theories/Base.v
theories/Spec.v
theories/Dim.v
theories/Radix.v
theories/Limits.v
theories/DimProofs.v
theories/ShardProofs.v
theories/Json.v
theories/World.v
theories/Writer.v
theories/Stream.v
theories/TileProofs.v
theories/BufProofs.v
theories/AddrProofs.v
theories/PathProofs.v
theories/SinkProofs.v
theories/CreateProofs.v
theories/FlushProofs.v
theories/CrashProofs.v
theories/LayoutProofs.v
theories/ShardFile.v
theories/ShardGrid.v
theories/WriterProofs.v
theories/LevelProofs.v
theories/MetaProofs.v
theories/Api.v
theories/StreamProofs.v
theories/PyramidProofs.v
theories/Examples.v
theories/SettingsSpec.v
theories/ValidProofs.v
theories/JsonSpec.v
theories/JsonProofs.v
theories/SessionSpec.v
theories/SessionProofs.v
theories/AppendSpec.v
theories/AppendProofs.v
theories/StoreProofs.v
theories/PyramidSpec.v
theories/ExamplesUse.v
theories/LevelsProofs.v
theories/ChunkProofs.v
theories/IndexProofs.v
theories/StoreSpec.v
theories/ChunkStore.v
theories/CrashSpec.v
theories/CrashStore.v
theories/MetaSpec.v
theories/RunSpec.v
theories/RunProofs.v
theories/PropsAddr.v
theories/PropsSettings.v
theories/PropsStore.v
theories/PropsChunks.v
theories/PropsAppend.v
theories/PropsMeta.v
theories/PropsPyramid.v
theories/ApiSpec.v
theories/PropsApi.v
theories/S3Spec.v
theories/S3Proofs.v
theories/PropsS3.v
theories/Vfw.v
theories/Py.v
theories/PropsPy.v
theories/Pool.v
theories/PoolSpec.v
theories/PoolProofs.v
theories/PoolRun.v
theories/PropsPool.v
theories/PoolBatch.v
theories/PoolAssert.v
theories/Jobs.v
theories/JobProofs.v
theories/PropsJobs.v
theories/PropsJobsFiles.v
theories/PropsPySession.v
theories/UploadSpec.v
theories/JobS3.v
theories/JobClose.v
theories/PropsJobsS3.v
theories/JobCrash.v
theories/PropsCrashJobs.v
theories/OpenProofs.v
theories/FrameProofs.v
theories/OpenSpec.v
theories/BoundProofs.v
theories/FrameStream.v
theories/FrameSpec.v
theories/PropsFrame.v
theories/RepProofs.v
theories/RepStream.v
theories/PropsReport.v
theories/Destroy.v
theories/PropsDestroy.v
theories/PropsDirs.v
theories/PropsFail.v
theories/LayoutSpec.v
theories/ItemProofs.v
theories/PropsLayout.v
theories/PropsCrash.v
theories/PropsOpen.v
theories/SafeProofs.v
theories/SafeWriter.v
theories/SafeStream.v
theories/SafeSpec.v
theories/PropsSafe.v
theories/PropsStatus.v
theories/PixelSpec.v
theories/PixelProofs.v
theories/PropsPixel.v
theories/GridProofs.v
theories/GridStream.v
theories/GridSpec.v
theories/GridLevels.v
theories/PropsGrid.v
theories/RaceSpec.v
theories/RaceProofs.v
theories/PropsRace.v
theories/MemSpec.v
theories/MemProofs.v
theories/PropsMem.v
theories/Multi.v
theories/MultiSpec.v
theories/IndepProofs.v
theories/IndepStream.v
theories/MultiProofs.v
theories/PropsIndep.v
theories/OnceSpec.v
theories/OnceProofs.v
theories/OnceStream.v
theories/PropsOnce.v
theories/OrderProofs.v
theories/OrderStream.v
theories/PropsOrder.v
theories/LostProofs.v
theories/LostStream.v
theories/PropsLost.v
theories/ReaderSpec.v
theories/PropsReader.v
theories/LiveSpec.v
theories/LiveProofs.v
theories/LiveArray.v
theories/LiveStream.v
theories/PropsLive.v
theories/AnswerSpec.v
theories/AnswerProofs.v
theories/AnswerStream.v
theories/AnswerCreate.v
theories/AnswerSession.v
theories/AnswerRun.v
theories/PropsDurable.v
theories/Conn.v
theories/ConnSpec.v
theories/ConnProofs.v
theories/ConnRun.v
theories/PropsConn.v
theories/PropsPlace.v
