-Q theories Verif
theories/Base.v
theories/Str.v
theories/X64.v
theories/Mac.v
theories/SpecX86.v
theories/PfX64.v
theories/PfX86.v
theories/PfX64Top.v
theories/PropsX64.v
theories/SpecMacho.v
theories/PfBytes.v
theories/PfStr.v
theories/PfMac.v
theories/PfMacRec.v
theories/PfMacRead.v
theories/PfMacTop.v
theories/PfMacTop2.v
theories/PropsMac.v
theories/Obj.v
theories/SpecObj.v
theories/PfObj.v
theories/PfObj2.v
theories/PfObj3.v
theories/PfObj4.v
theories/PfBig.v
theories/PropsObj.v
theories/Asm.v
theories/Assembler.v
theories/Cli.v
theories/SpecAsm.v
theories/SpecDiag.v
theories/SpecRun.v
theories/PfTok.v
theories/PfAsm.v
theories/PfData.v
theories/PfLine.v
theories/PfLine2.v
theories/PfDiag.v
theories/PfDiag2.v
theories/PfRun.v
theories/PfRun2.v
theories/PfRun3.v
theories/PfRun4.v
theories/PfRun5.v
theories/PfEnd.v
theories/PfTop.v
theories/PfTop2.v
theories/SpecCli.v
theories/PfCli.v
theories/PropsAsm.v
theories/PropsDiag.v
theories/SpecMore.v
theories/PfMore.v
theories/PropsMore.v
theories/SpecLink.v
theories/PfLink.v
theories/PfGo.v
theories/PfWhole.v
theories/PropsLink.v
theories/PfBoth.v
theories/PropsRun.v
theories/SpecMeta.v
theories/PfMeta.v
theories/PropsMeta.v
theories/SpecEnc.v
theories/PfEnc.v
theories/PropsEnc.v
theories/SpecProg.v
theories/PfProg.v
theories/PropsProg.v
theories/Sink.v
theories/PfSink.v
theories/PropsSink.v
theories/SpecSamples.v
theories/PfSamples.v
theories/PropsSamples.v
theories/Dbg.v
theories/SpecDbg.v
theories/PfDbg.v
theories/PropsDbg.v
theories/SpecNet.v
theories/PfNet.v
theories/PropsNet.v
theories/SpecRead.v
theories/PfRead.v
theories/PropsRead.v
theories/SpecLoss.v
theories/PfLoss.v
theories/PropsLoss.v
theories/SpecForm.v
theories/PfForm.v
theories/PfForm2.v
theories/PropsForm.v
theories/SpecSize.v
theories/PfSize.v
theories/PropsSize.v
theories/SpecAddr.v
theories/PfAddr.v
theories/PropsAddr.v
theories/Derive.v
theories/SpecDerive.v
theories/PfDerive.v
theories/PfDerive2.v
theories/PfDerive3.v
theories/PfDerive4.v
theories/PropsDerive.v
theories/Os.v
theories/SpecOs.v
theories/PfOs.v
theories/PropsOs.v
theories/Chunk.v
theories/SpecChunk.v
theories/PfChunk.v
theories/PropsChunk.v
theories/Talk.v
theories/SpecTalk.v
theories/PfTalk.v
theories/PfTalk2.v
theories/PfTalk3.v
theories/PropsTalk.v
theories/Equal.v
theories/SpecEqual.v
theories/PfEqual.v
theories/PfEqual2.v
theories/PfEqual3.v
theories/PfEqual4.v
theories/PropsEqual.v
theories/Says.v
theories/SpecSays.v
theories/PfSays.v
theories/PfSays2.v
theories/PfSays3.v
theories/PfSays4.v
theories/PropsSays.v
theories/SpecLocal.v
theories/PfLocal.v
theories/PfLocal2.v
theories/PropsLocal.v
theories/SpecRename.v
theories/PfRename.v
theories/PropsRename.v
theories/SpecShift.v
theories/PfShift.v
theories/PropsShift.v
theories/SpecChecks.v
theories/Tests.v
