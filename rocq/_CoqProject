-Q theories Verif
theories/Bytes.v
theories/Json.v
theories/Utils.v
theories/ConstantsGen.v
theories/State.v
theories/Engine.v
theories/Template.v
theories/FastCgi.v
theories/PhpExec.v
theories/PyExec.v
theories/Spec.v
theories/SpecEngine.v
theories/SpecStatus.v
theories/SpecPhp.v
theories/SpecPy.v
theories/BytesFacts.v
theories/EscapeProofs.v
theories/WildcardProofs.v
theories/MergeProofs.v
theories/BlockProofs.v
theories/FastCgiProofs.v
theories/NumberProofs.v
theories/TextProofs.v
theories/InertProofs.v
theories/FrameProofs.v
theories/FrameRun.v
theories/SimProofs.v
theories/TemplateProofs.v
theories/WordProofs.v
theories/EngineFrames.v
theories/MoreFrames.v
theories/EvalProofs.v
theories/KeepProofs.v
theories/HandlerProofs.v
theories/TraceProofs.v
theories/Samples.v
theories/CommentProofs.v
theories/PropertiesText.v
theories/PropertiesFastCgi.v
theories/PropertiesTemplate.v
theories/PropertiesEngine.v
theories/PropertiesBifs.v
theories/PropertiesLoops.v
theories/PropertiesVars.v
theories/PropertiesFiles.v
theories/PropertiesMore.v
theories/PropertiesData.v
theories/PropertiesHandlers.v
theories/PropertiesMisc.v
theories/PropertiesCache.v
theories/PropertiesScope.v
theories/PropertiesWorld.v
theories/PropertiesPhp.v
theories/PhpBridge.v
theories/SpecBridge.v
theories/PropertiesBridge.v
theories/PropertiesObj.v
theories/SpecDisk.v
theories/PropertiesDisk.v
theories/CleanCache.v
theories/SpecClean.v
theories/PropertiesClean.v
theories/PropertiesArgs.v
theories/PropertiesPy.v
theories/SpecLayout.v
theories/LayoutProofs.v
theories/PropertiesLayout.v
theories/PropertiesDelim.v
theories/SpecPage.v
theories/PropertiesPage.v
theories/SpecReplay.v
theories/ReplayProofs.v
theories/PropertiesReplay.v
theories/SpecParts.v
theories/PropertiesParts.v
theories/PropertiesFail.v
theories/JsonText.v
theories/SpecJson.v
theories/JsonProofs.v
theories/PropertiesJson.v
theories/ClientJs.v
theories/SpecClient.v
theories/ClientProofs.v
theories/ClientInv.v
theories/PropertiesClient.v
theories/ClientForm.v
theories/SpecForm.v
theories/PropertiesForm.v
theories/SpecApi.v
theories/PropertiesApi.v
theories/MsgPack.v
theories/SpecPack.v
theories/MsgProofs.v
theories/PropertiesPack.v
theories/Socket.v
theories/SpecSocket.v
theories/PropertiesSocket.v
theories/PropertiesScript.v
theories/PropertiesScriptPy.v
theories/Digest.v
theories/SpecDigest.v
theories/DigestProofs.v
theories/PropertiesDigest.v
theories/Float64.v
theories/SpecDouble.v
theories/DoubleProofs.v
theories/DoubleShow.v
theories/PropertiesDouble.v
theories/JsonFloat.v
theories/SpecJsonFloat.v
theories/JsonFloatProofs.v
theories/PropertiesJsonFloat.v
theories/SpecHost.v
theories/PropertiesStatus.v
theories/PackFloat.v
theories/SpecPackFloat.v
theories/PackFloatProofs.v
theories/PropertiesPackFloat.v
theories/DateFmt.v
theories/SpecDate.v
theories/DateProofs.v
theories/PropertiesDate.v
