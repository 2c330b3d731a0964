-Q theories Verif
theories/M_Prog.v
theories/P_Prog.v
theories/P_Exec.v
theories/M_Motion.v
theories/M_ReadAll.v
theories/S_Trace.v
theories/S_Lines.v
theories/S_Motion.v
theories/P_Split.v
theories/P_Read.v
theories/P_Motion.v
theories/P_Worker.v
theories/P_Flow.v
theories/P_Loop.v
theories/P_Copy.v
theories/P_Fan.v
theories/M_BackOff.v
theories/M_Utils.v
theories/M_Junction.v
theories/S_Junction.v
theories/P_Utils.v
theories/P_Ask.v
theories/P_Pass.v
theories/P_Junction.v
theories/P_JInit.v
theories/P_JStart.v
theories/P_JPass.v
theories/M_Connectable.v
theories/M_Regulator.v
theories/M_Faucet.v
theories/M_Manager.v
theories/S_World.v
theories/P_World.v
theories/P_Regulator.v
theories/S_Regulator.v
theories/P_Pause.v
theories/P_Manager.v
theories/P_Control.v
theories/M_Drain.v
theories/S_Drain.v
theories/P_Drain.v
theories/M_Join.v
theories/M_Launch.v
theories/S_Launch.v
theories/P_Text.v
theories/P_Machine.v
theories/P_Reach.v
theories/P_Launch.v
theories/M_Buffer.v
theories/M_Poll.v
theories/S_Buffer.v
theories/P_Buffer.v
theories/P_Counter.v
theories/P_BufferJoint.v
theories/P_BufferRun.v
theories/P_BufferPoll.v
theories/P_Play.v
theories/P_BufferEnd.v
theories/Properties_Read.v
theories/Properties_Motion.v
theories/Properties_Junction.v
theories/Properties_Regulator.v
theories/Properties_Drain.v
theories/Properties_Launch.v
theories/Properties_Buffer.v
theories/M_Config.v
theories/M_Parser.v
theories/S_Grammar.v
theories/P_Parser.v
theories/Properties_Parser.v
theories/M_Manip.v
theories/S_Manip.v
theories/P_Map.v
theories/P_Pair.v
theories/P_Junctions.v
theories/P_Junctions2.v
theories/P_Manip.v
theories/P_ManipExamples.v
theories/Properties_Manip.v
theories/Properties_Lint.v
theories/Properties_Waiter.v
theories/M_Setters.v
theories/M_Serde.v
theories/M_Cli.v
theories/S_Cli.v
theories/P_Cli.v
theories/P_Serde.v
theories/P_Checked.v
theories/P_CliExamples.v
theories/P_Commands.v
theories/Properties_Cli.v
theories/M_Graph.v
theories/S_Graph.v
theories/P_Graph.v
theories/P_Dot.v
theories/P_GraphExamples.v
theories/Properties_Graph.v
theories/S_Unwired.v
theories/P_Unwired.v
theories/Properties_Unwired.v
theories/M_Errors.v
theories/S_Errors.v
theories/P_Errors.v
theories/P_ErrorsExamples.v
theories/Properties_Errors.v
theories/M_Lint.v
theories/S_Lint.v
theories/P_Lint.v
theories/M_Waiter.v
theories/S_Waiter.v
theories/P_Cell.v
theories/P_Wire.v
theories/P_Build.v
theories/P_Ready.v
theories/P_Result.v
theories/P_WaiterExamples.v
theories/P_Phase.v
theories/P_Link.v
theories/S_Network.v
theories/P_Conduit.v
theories/P_Network.v
theories/P_Crowd.v
theories/S_Net.v
theories/P_Respond.v
theories/P_JIdle.v
theories/P_NetComp.v
theories/P_NetMoves.v
theories/P_NetEnd.v
theories/P_Cost.v
theories/P_Patient.v
theories/P_Net.v
theories/P_NetCost.v
theories/P_NetDone.v
theories/P_Calm.v
theories/P_Later.v
theories/P_Turn.v
theories/P_Dam.v
theories/P_Round.v
theories/P_Fair.v
theories/P_NetStart.v
theories/P_NetSteps.v
theories/P_NetExamples.v
theories/P_Order.v
theories/P_Ring.v
theories/P_Wreck.v
theories/M_Start.v
theories/S_Start.v
theories/P_Whole.v
theories/P_Rounds.v
theories/P_Jam.v
theories/P_Pond.v
theories/P_NetworkExamples.v
theories/Properties_Network.v
theories/Properties_Net.v
theories/Properties_Loop.v
theories/Properties_Start.v
theories/S_Shape.v
theories/P_Top.v
theories/P_Made.v
theories/P_Shape.v
theories/P_ShapeExamples.v
theories/Properties_Shape.v
theories/S_Watch.v
theories/P_Watch.v
theories/P_WatchRun.v
theories/P_Prefix.v
theories/P_WatchMarks.v
theories/P_WatchConfig.v
theories/P_WatchExamples.v
theories/Properties_Watch.v
theories/S_Delay.v
theories/P_Skim.v
theories/P_Delay.v
theories/P_DelayRun.v
theories/P_Act.v
theories/P_DelayExamples.v
theories/Properties_Delay.v
theories/S_Flow.v
theories/P_Stream.v
theories/P_Spring.v
theories/P_SpringRun.v
theories/P_SpringExamples.v
theories/Properties_Flow.v
theories/S_Path.v
theories/P_Path.v
theories/P_PathRun.v
theories/P_PathExamples.v
theories/Properties_Path.v
theories/S_Bytes.v
theories/P_Bytes.v
theories/P_BytesExamples.v
theories/Properties_Bytes.v
theories/S_Lasting.v
theories/P_Walk.v
theories/P_Follow.v
theories/P_Loaded.v
theories/P_WholeCost.v
theories/P_Still.v
theories/P_Lasting.v
theories/P_Ahead.v
theories/P_LastingRun.v
theories/P_Spin.v
theories/P_LastingExamples.v
theories/Properties_Lasting.v
theories/P_Near.v
theories/P_Held.v
theories/P_Bounded.v
theories/S_Bounded.v
theories/P_Straight.v
theories/P_BoundedExamples.v
theories/Properties_Bounded.v
theories/S_Soft.v
theories/P_Soft.v
theories/P_SoftRun.v
theories/P_SoftConfig.v
theories/P_SoftExamples.v
theories/Properties_Soft.v
theories/P_SoftEnds.v
theories/P_SoftEndsExamples.v
theories/Properties_SoftEnds.v
theories/S_Lead.v
theories/P_Lead.v
theories/P_LeadRun.v
theories/P_LeadEnds.v
theories/P_LeadExamples.v
theories/Properties_Lead.v
theories/M_Values.v
theories/S_Values.v
theories/P_Values.v
theories/Properties_Values.v
theories/S_Lag.v
theories/P_Lag.v
theories/P_LagRun.v
theories/P_LagExamples.v
theories/P_Unheld.v
theories/Properties_Lag.v
theories/S_Backlog.v
theories/P_Backlog.v
theories/P_BacklogRun.v
theories/P_BacklogExamples.v
theories/Properties_Backlog.v
theories/S_Refusal.v
theories/P_Refusal.v
theories/P_RefusalExamples.v
theories/Properties_Refusal.v
theories/M_BufWriter.v
theories/P_BufWriter.v
theories/P_BufWriterExamples.v
theories/Properties_BufWriter.v
theories/M_Report.v
theories/S_Report.v
theories/P_Report.v
theories/S_Delivery.v
theories/P_Delivery.v
theories/P_ReportExamples.v
theories/Properties_Report.v
theories/P_Status.v
theories/P_StatusExamples.v
theories/Properties_Status.v
theories/S_Spy.v
theories/P_Spy.v
theories/P_SpyExamples.v
theories/P_SpyEnd.v
theories/P_SpyOnce.v
theories/Properties_Spy.v
theories/S_Unspied.v
theories/P_Unspied.v
theories/P_UnspiedExamples.v
theories/Properties_Unspied.v
theories/S_Pictures.v
theories/P_Pictures.v
theories/Properties_Pictures.v
theories/S_Panic.v
theories/P_Panic.v
theories/P_PanicExamples.v
theories/Properties_Panic.v
theories/S_News.v
theories/P_News.v
theories/Properties_News.v
