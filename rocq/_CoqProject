-Q theories Verif
theories/Bytes.v
theories/Spec.v
theories/Control.v
theories/Bytes_proofs.v
theories/Control_proofs.v
theories/Io.v
theories/Io_proofs.v
theories/SpecTrace.v
theories/Rdwr.v
theories/File.v
theories/Rdwr_proofs.v
theories/Reader.v
theories/Writer.v
theories/SpecStream.v
theories/SpecControl.v
theories/Api.v
theories/Control2_proofs.v
theories/Exact_proofs.v
theories/SpecClient.v
theories/Iothr7_proofs.v
theories/Prop_Control.v
theories/SpecApi.v
theories/SpecReopen.v
theories/Writer_proofs.v
theories/Writer2_proofs.v
theories/Writer3_proofs.v
theories/Writer4_proofs.v
theories/SpecDeliver.v
theories/Writer5_proofs.v
theories/Writer6_proofs.v
theories/Prop_Writer.v
theories/SpecReader.v
theories/Reader_source_proofs.v
theories/Reader_proofs.v
theories/Reader2_proofs.v
theories/Reader3_proofs.v
theories/SpecFile.v
theories/File_proofs.v
theories/Reader4_proofs.v
theories/Reader5_proofs.v
theories/Reader6_proofs.v
theories/Reader7_proofs.v
theories/Reader8_proofs.v
theories/Prop_Reader.v
theories/SpecNet.v
theories/Net.v
theories/Net_proofs.v
theories/Net2_proofs.v
theories/Net3_proofs.v
theories/Net4_proofs.v
theories/Prop_Net.v
theories/OptApi.v
theories/SpecOptions.v
theories/Options_proofs.v
theories/Prop_Options.v
theories/Socket.v
theories/SpecSocket.v
theories/Socket_proofs.v
theories/Prop_Socket.v
theories/Vector.v
theories/SpecVector.v
theories/Vector_proofs.v
theories/Misc.v
theories/SpecMisc.v
theories/Misc_proofs.v
theories/Misc2_proofs.v
theories/Prop_Misc.v
theories/Queue.v
theories/QueueMutex.v
theories/SpecQueue.v
theories/Queue_proofs.v
theories/Queue2_proofs.v
theories/Queue3_proofs.v
theories/Queue4_proofs.v
theories/Prop_Queue.v
theories/Iothr.v
theories/SpecIothr.v
theories/Iothr_proofs.v
theories/Iothr2_proofs.v
theories/Iothr3_proofs.v
theories/Iothr4_proofs.v
theories/Iothr5_proofs.v
theories/Iothr6_proofs.v
theories/Prop_Iothr.v
theories/SpecFair.v
theories/Iothr8_proofs.v
theories/Prop_Fair.v
theories/Capture.v
theories/SpecCapture.v
theories/Capture_proofs.v
theories/Capture2_proofs.v
theories/Capture3_proofs.v
theories/Capture4_proofs.v
theories/Capture5_proofs.v
theories/Capture6_proofs.v
theories/Capture7_proofs.v
theories/Capture8_proofs.v
theories/Capture9_proofs.v
theories/SpecStall.v
theories/Stall_proofs.v
theories/Prop_Capture.v
theories/Tools.v
theories/SpecTools.v
theories/Tools_proofs.v
theories/Tools2_proofs.v
theories/Tools3_proofs.v
theories/Tools4_proofs.v
theories/Tools5_proofs.v
theories/Prop_Tools.v
theories/System.v
theories/SpecSystem.v
theories/System_proofs.v
theories/System2_proofs.v
theories/System3_proofs.v
theories/Prop_System.v
theories/SystemMutex.v
theories/SpecSystemMutex.v
theories/SystemMutex_proofs.v
theories/SystemMutex2_proofs.v
theories/Prop_SystemMutex.v
theories/QueueWeak.v
theories/Queue5_proofs.v
theories/Prop_QueueWeak.v
theories/Wakeup.v
theories/SpecWakeup.v
theories/Wakeup_proofs.v
theories/Wakeup2_proofs.v
theories/Prop_Wakeup.v
theories/Startup.v
theories/SpecStartup.v
theories/Startup_proofs.v
theories/Prop_Startup.v
theories/Argv.v
theories/SpecArgv.v
theories/Argv_proofs.v
theories/Argv2_proofs.v
theories/Argv3_proofs.v
theories/Argv4_proofs.v
theories/Argv5_proofs.v
theories/Argv6_proofs.v
theories/Argv7_proofs.v
theories/Argv8_proofs.v
theories/Prop_Argv.v
theories/ArgvOpen.v
theories/ArgvOpen_proofs.v
theories/SpecArgvOpen.v
theories/ArgvOpen2_proofs.v
theories/Prop_ArgvOpen.v
theories/Deliver_proofs.v
theories/Prop_Deliver.v
theories/Deliver2_proofs.v
theories/Deliver3_proofs.v
theories/Prop_Post.v
theories/SpecPair.v
theories/Pair.v
theories/Pair_proofs.v
theories/Pair2_proofs.v
theories/Pair3_proofs.v
theories/Prop_Pair.v
theories/Mem.v
theories/SpecMem.v
theories/Mem_proofs.v
theories/Mem2_proofs.v
theories/Prop_Mem.v
theories/Thread.v
theories/SpecThread.v
theories/Thread_proofs.v
theories/Prop_Thread.v
theories/ArgvEnv.v
theories/SpecArgvEnv.v
theories/ArgvEnv_proofs.v
theories/ArgvEnv2_proofs.v
theories/ArgvEnv3_proofs.v
theories/ArgvEnv4_proofs.v
theories/Prop_ArgvEnv.v
theories/Stdio.v
theories/Stdio_proofs.v
theories/SpecDisk.v
theories/Stdio2_proofs.v
theories/Stdio3_proofs.v
theories/Prop_Disk.v
theories/CaptureDisk.v
theories/CaptureDisk_proofs.v
theories/CaptureDisk2_proofs.v
theories/Prop_CaptureDisk.v
theories/Messages.v
theories/SpecMessages.v
theories/Messages_proofs.v
theories/Messages2_proofs.v
theories/Messages3_proofs.v
theories/Prop_Messages.v
theories/InPlace.v
theories/SpecInPlace.v
theories/InPlace_proofs.v
theories/InPlace2_proofs.v
theories/InPlace3_proofs.v
theories/Prop_InPlace.v
theories/Dash.v
theories/SpecDash.v
theories/Dash_proofs.v
theories/Prop_Dash.v
theories/StdinNames.v
theories/SpecStdinNames.v
theories/StdinNames_proofs.v
theories/Prop_StdinNames.v
theories/SpecStdinAny.v
theories/StdinAny_proofs.v
theories/Prop_StdinAny.v
theories/CaptureSay.v
theories/SpecCaptureSay.v
theories/CaptureSay_proofs.v
theories/CaptureSay2_proofs.v
theories/CaptureSay3_proofs.v
theories/Prop_CaptureSay.v
theories/CaptureMem.v
theories/SpecCaptureMem.v
theories/CaptureMem_proofs.v
theories/Prop_CaptureMem.v
theories/ToolsMem.v
theories/SpecToolsMem.v
theories/ToolsMem_proofs.v
theories/Prop_ToolsMem.v
theories/ArgvMem.v
theories/SpecArgvMem.v
theories/ArgvMem_proofs.v
theories/Prop_ArgvMem.v
theories/SpecCaptureOpen.v
theories/CaptureOpen_proofs.v
theories/Prop_CaptureOpen.v
theories/SpecArgvNum.v
theories/ArgvNum_proofs.v
theories/Prop_ArgvNum.v
theories/PairBounded.v
theories/PairBounded_proofs.v
theories/Prop_PairBounded.v
theories/SpecPairReplay.v
theories/PairReplay_proofs.v
theories/PairPlay_proofs.v
theories/Prop_PairReplay.v
theories/PairThread.v
theories/SpecPairThread.v
theories/PairThread_proofs.v
theories/PairThread2_proofs.v
theories/PairThread3_proofs.v
theories/PairThread4_proofs.v
theories/Prop_PairThread.v
theories/SpecComeback.v
theories/Comeback_proofs.v
theories/Prop_Comeback.v
theories/ThreadUse_proofs.v
theories/Prop_ThreadUse.v
theories/Usage.v
theories/SpecUsage.v
theories/Usage_proofs.v
theories/Prop_Usage.v
theories/UsageChoice.v
theories/SpecUsageChoice.v
theories/UsageChoice_proofs.v
theories/Prop_UsageChoice.v
theories/Variables.v
theories/SpecVariables.v
theories/Variables_proofs.v
theories/Prop_Variables.v
theories/SpecThreadOpen.v
theories/ThreadOpen_proofs.v
theories/Prop_ThreadOpen.v
theories/SpecThreadFd.v
theories/ThreadFd_proofs.v
theories/Prop_ThreadFd.v
