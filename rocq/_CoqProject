-Q theories Verif
theories/M_Base.v
theories/M_Float.v
theories/M_BitSet.v
theories/M_Hash.v
theories/M_Util.v
theories/M_IO.v
theories/M_V1.v
theories/M_V2.v
theories/M_Bloom.v
theories/M_Utils.v
theories/M_Lines.v
theories/M_Cli.v
theories/M_RefLibm.v
theories/Spec_Bits.v
theories/P_Base.v
theories/P_BitSet.v
theories/Spec_Hash.v
theories/P_Hash.v
theories/Spec_V2.v
theories/Spec_V1.v
theories/P_V1.v
theories/P_V2.v
theories/P_HashMod.v
theories/P_V2Sem.v
theories/P_Fpp.v
theories/P_Float.v
theories/P_IO.v
theories/P_FloatDiv.v
theories/Spec_V2File.v
theories/P_V2Codec.v
theories/P_V2Make.v
theories/P_V2Merge.v
theories/Spec_Libm.v
theories/P_V2Size.v
theories/P_V1Size.v
theories/P_V1Codec.v
theories/P_V1Hist.v
theories/Spec_V2Hist.v
theories/P_V2Hist.v
theories/P_V2Props.v
theories/P_V2More.v
theories/P_V2Sat.v
theories/P_V1More.v
theories/P_CacheCap.v
theories/P_Codec.v
theories/P_Codec2.v
theories/Ex_Base.v
theories/Ex_V1.v
theories/Prop_V2.v
theories/Prop_V2Merge.v
theories/Prop_Hash.v
theories/Prop_V1.v
theories/Prop_Bits.v
theories/Prop_Codec.v
theories/P_Geom.v
theories/Prop_Make.v
theories/Spec_Real.v
theories/P_Real.v
theories/P_RealLibm.v
theories/Prop_Size.v
theories/Spec_Bloom.v
theories/P_Bloom.v
theories/Prop_Bloom.v
theories/Spec_Lines.v
theories/P_Lines.v
theories/Prop_Lines.v
theories/P_Sink.v
theories/Prop_Save.v
theories/P_Batch.v
theories/Spec_Cli.v
theories/P_Par.v
theories/Ex_Cli.v
theories/Prop_Par.v
theories/P_Check.v
theories/Prop_Check.v
theories/P_Create.v
theories/Prop_Create.v
theories/P_Agree.v
theories/Spec_Script.v
theories/Prop_Agree.v
theories/Prop_Build.v
theories/M_Bench.v
theories/P_Stats.v
theories/Spec_Bench.v
theories/P_Bench.v
theories/Prop_Bench.v
theories/Spec_Rate.v
theories/P_Rate.v
theories/P_RateFilter.v
theories/P_RateFloat.v
theories/P_RateV1.v
theories/P_RateV2.v
theories/Prop_Rate.v
theories/Prop_Share.v
theories/Prop_Macro.v
theories/M_Text.v
theories/M_Timing.v
theories/P_Text.v
theories/Prop_Text.v
theories/Prop_Estimate.v
theories/Prop_Params.v
theories/Spec_Exp.v
theories/P_RateCached.v
theories/P_CachedHash.v
theories/Prop_RateCached.v
theories/Prop_Pow2.v
theories/P_Timing.v
theories/Prop_Timing.v
theories/Spec_Count.v
theories/P_Est.v
theories/P_Count.v
theories/Prop_Count.v
theories/Spec_Common.v
theories/P_Common.v
theories/Prop_Common.v
theories/Spec_CountAvg.v
theories/P_CountAvg.v
theories/Spec_Tail.v
theories/P_Tail.v
theories/Prop_CountAvg.v
theories/M_BufRead.v
theories/P_BufRead.v
theories/Prop_BufRead.v
theories/P_BufLines.v
theories/Prop_BufLines.v
theories/M_CliIO.v
theories/P_CliIO.v
theories/Prop_CliIO.v
theories/M_Live.v
theories/P_Mix.v
theories/P_Live.v
theories/Prop_Live.v
theories/Prop_Tail.v
theories/Spec_Double.v
theories/P_Double.v
theories/P_DoubleUp.v
theories/P_DoubleFloat.v
theories/Prop_Double.v
theories/Prop_Spread.v
theories/M_Cost.v
theories/P_Cost.v
theories/Prop_Cost.v
theories/Prop_Zero.v
theories/M_Stdout.v
theories/P_Stdout.v
theories/Prop_Stdout.v
theories/M_Python.v
theories/Prop_Python.v
theories/M_Session.v
theories/Prop_Session.v
theories/M_Args.v
theories/P_Decimal.v
theories/P_Args.v
theories/Ex_Args.v
theories/Prop_Args.v
theories/Prop_Readme.v
theories/Spec_Dcso.v
theories/Prop_Dcso.v
theories/M_Exit.v
theories/Prop_Exit.v
theories/Prop_Grow.v
theories/Spec_Keys.v
theories/Prop_Keys.v
theories/Prop_Partial.v
theories/Spec_BenchAvg.v
theories/Prop_BenchAvg.v
theories/Prop_Doc.v
theories/Prop_Utf8.v
theories/M_Moving.v
theories/Prop_Moving.v
theories/M_Report.v
theories/Prop_Report.v
theories/Prop_Machines.v
theories/M_Messages.v
theories/Prop_Messages.v
theories/Prop_Reports.v
theories/Ex_Wyhash.v
theories/Ex_Conform.v
