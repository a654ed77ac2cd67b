-Q theories Verif
theories/Base.v
theories/Varint.v
theories/BaseFacts.v
theories/VarintFacts.v
theories/Types.v
theories/Floats.v
theories/Fields.v
theories/Codec.v
theories/V5.v
theories/Api.v
theories/Spec.v
theories/LibSpec.v
theories/GorillaFacts.v
theories/FieldFacts.v
theories/WriteFacts.v
theories/CodecFacts.v
theories/BuildFacts.v
theories/RunFacts.v
theories/SectionFacts.v
theories/PaletteFacts.v
theories/V5Facts.v
theories/ChunkV5Facts.v
theories/Stage1Facts.v
theories/ApiFacts.v
theories/CloudFacts.v
theories/RoundTrip.v
theories/CloudRT.v
theories/LocalFacts.v
theories/CodeFacts.v
theories/CloudApi.v
theories/SizeFacts.v
theories/SeqSpec.v
theories/SeqFacts.v
theories/ColumnFacts.v
theories/Cases.v
theories/PropsField.v
theories/PropsColumn.v
theories/PropsStage1.v
theories/PropsCloud.v
theories/PropsBuilds.v
theories/PropsSize.v
theories/PropsBuffer.v
theories/PropsFrame.v
theories/PropsChunks.v
theories/HostileFacts.v
theories/GorillaHostile.v
theories/PropsHostile.v
theories/ConfineFacts.v
theories/SyncFacts.v
theories/PropsConfine.v
theories/Header.v
theories/HeaderFacts.v
theories/YamlFacts.v
theories/YamlRT.v
theories/FloatText.v
theories/PropsHeader.v
theories/PropsHeaderText.v
theories/Worker.v
theories/WorkerFacts.v
theories/WorkerCalls.v
theories/PropsWorker.v
theories/Cdr.v
theories/CdrFacts.v
theories/PropsCdr.v
theories/Ros.v
theories/RosFacts.v
theories/PropsRos.v
theories/RosViz.v
theories/PropsViz.v
theories/RosObj.v
theories/PropsObj.v
theories/Mcap.v
theories/PropsMcap.v
theories/PropsProfile.v
theories/Pcl.v
theories/PropsPcd.v
theories/PropsFit.v
theories/PropsPcl.v
theories/Transport.v
theories/PropsTransport.v
theories/Pool.v
theories/PropsPool.v
theories/Wasm.v
theories/PropsWasm.v
theories/Python.v
theories/PropsPython.v
theories/ErrorSpec.v
theories/FloatReal.v
theories/PropsError.v
theories/FloatAgain.v
theories/PropsRecode.v
theories/Bag.v
theories/PropsBag.v
theories/FileSys.v
theories/Tools.v
theories/PropsTools.v
theories/PropsEntry.v
theories/PropsPcdFile.v
theories/PropsVizNear.v
theories/FloatTextFacts.v
theories/PropsResText.v
theories/PropsToolsMore.v
theories/RenameFacts.v
theories/FloatOther.v
theories/PropsRounded.v
theories/Browser.v
theories/PropsBrowser.v
theories/HashSet.v
theories/HashSetFacts.v
theories/HashSetTable.v
theories/PropsHashSet.v
theories/QtApp.v
theories/PropsQt.v
theories/Inspector.v
theories/PropsInspect.v
theories/Size32.v
theories/PropsSize32.v
theories/LengthFacts.v
theories/SchemaText.v
theories/SchemaSpec.v
theories/SchemaFacts.v
theories/PropsSchema.v
theories/PyTool.v
theories/PropsPyTool.v
theories/FloatOrder.v
theories/PropsOrder.v
theories/ShortSpec.v
theories/ShortFacts.v
theories/BytesSpec.v
theories/BytesFacts.v
theories/PropsShort.v
theories/PropsBytes.v
theories/WideFacts.v
theories/PropsWide.v
theories/JoinFacts.v
theories/PropsJoin.v
theories/Bench.v
theories/BenchSpec.v
theories/BenchFacts.v
theories/PropsBench.v
theories/StreamSpec.v
theories/StreamFacts.v
theories/PropsCompare.v
theories/RenameSpec.v
theories/ShapeFacts.v
theories/PropsRename.v
theories/DamageFacts.v
theories/PropsDamage.v
theories/Left.v
theories/LeftFacts.v
theories/PropsLeft.v
theories/PropsLeftStop.v
theories/PropsDrift.v
theories/PropsPointwise.v
