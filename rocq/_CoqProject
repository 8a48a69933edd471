-Q theories Verif
theories/Base.v
theories/BaseProofs.v
theories/Packer.v
theories/PackerProofs.v
theories/Prop_Packer.v
theories/LogHeader.v
theories/LogHeaderProofs.v
theories/Prop_LogHeader.v
theories/Chars.v
theories/Fmt.v
theories/FmtProofs.v
theories/FmtLax.v
theories/FrontFmt.v
theories/FrontFmtProofs.v
theories/Prop_FrontFmt.v
theories/Regex.v
theories/MicroCode.v
theories/MicroCodeProofs.v
theories/Prop_MicroCode.v
theories/Args.v
theories/Printf.v
theories/ArgsProofs.v
theories/Prop_Args.v
theories/Decode.v
theories/DecodeProofs.v
theories/Prop_Message.v
theories/Encoder.v
theories/Wire.v
theories/EncoderProofs.v
theories/Prop_Encoder.v
theories/Decoder.v
theories/FileSpec.v
theories/DecoderProofs.v
theories/Prop_Decoder.v
theories/Ordered.v
theories/OrderedProofs.v
theories/OrderSpec.v
theories/OrderTheory.v
theories/Prop_Ordered.v
theories/Prop_Damage.v
theories/Ring.v
theories/RingProofs.v
theories/Prop_Ring.v
theories/Runtime.v
theories/RtRing.v
theories/RtBuf.v
theories/RtInv.v
theories/RtSafe.v
theories/RtFile.v
theories/RtScan.v
theories/RtSync.v
theories/Prop_Runtime.v
theories/RtRuns.v
theories/Prop_RuntimeRuns.v
theories/Prop_Scan.v
theories/RtDrain.v
theories/Prop_Sync.v
theories/Prop_Drain.v
theories/Register.v
theories/RegisterProofs.v
theories/Prop_Register.v
theories/LogMsg.v
theories/LogMsgProofs.v
theories/Prop_LogMsg.v
theories/Preproc.v
theories/PreprocProofs.v
theories/PreprocLit.v
theories/Prop_Preproc.v
theories/GenCode.v
theories/GenSpec.v
theories/GenProofs.v
theories/GenRecord.v
theories/GenMessage.v
theories/Prop_GenCode.v
theories/GenDict.v
theories/Prop_GenDict.v
theories/Parser.v
theories/Prop_Parser.v
theories/Scanner.v
theories/SourceSpec.v
theories/ScanProofs.v
theories/StmtProofs.v
theories/Prop_Scanner.v
theories/Prop_Position.v
theories/Prop_Reject.v
theories/TimeFmt.v
theories/TimeProofs.v
theories/Prop_Time.v
theories/Prop_TimeOrder.v
theories/Cycles.v
theories/Prop_Cycles.v
theories/TimeTrace.v
theories/Prop_TimeTrace.v
theories/MetaDict.v
theories/Prop_MetaDict.v
theories/Pad.v
theories/Prop_Pad.v
theories/Stats.v
theories/Prop_Stats.v
theories/MicroMem.v
theories/MicroMemProofs.v
theories/MemDecoder.v
theories/MemDecoderProofs.v
theories/Prop_MemDecoder.v
theories/PreEncoder.v
theories/PreEncoderProofs.v
theories/PreFile.v
theories/Prop_PreEnd.v
theories/LineFmt.v
theories/LineProofs.v
theories/Prop_Line.v
theories/Program.v
theories/Prop_Program.v
theories/Hist.v
theories/Prop_Hist.v
theories/Disk.v
theories/Prop_Disk.v
theories/Calibrate.v
theories/Prop_Calibrate.v
theories/Counters.v
theories/Prop_Counters.v
theories/Prop_DiskRun.v
theories/Append.v
theories/Prop_Append.v
theories/Prop_Crash.v
theories/OrderSorted.v
theories/Prop_Clock.v
theories/Aggregate.v
theories/AggregateProofs.v
theories/Prop_Aggregate.v
theories/PreOrder.v
theories/Prop_PreOrder.v
theories/Misses.v
theories/Prop_Misses.v
theories/Prop_PreCut.v
theories/PreRuns.v
theories/Prop_PreRuns.v
theories/TraceText.v
theories/Prop_TraceText.v
theories/HexDump.v
theories/Prop_HexDump.v
theories/Sleep.v
theories/Prop_Sleep.v
theories/TraceApi.v
theories/Prop_TraceApi.v
theories/RcdfText.v
theories/Prop_RcdfText.v
theories/AggText.v
theories/Prop_AggText.v
theories/StatsText.v
theories/Prop_StatsText.v
