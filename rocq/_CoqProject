-Q theories Verif
theories/Base.v
theories/Types.v
theories/Commons.v
theories/Instr.v
theories/Lwdtc.v
theories/Cron.v
theories/Scan.v
theories/General.v
theories/Task.v
theories/Spec.v
theories/Lib.v
theories/View.v
theories/Ops.v
theories/InstrLemmas.v
theories/SpecRun.v
theories/Effects.v
theories/Demo.v
theories/P_Basic.v
theories/Props_Basic.v
theories/P_Arith.v
theories/Props_Arith.v
theories/P_Access.v
theories/Props_Access.v
theories/P_Move.v
theories/Props_Move.v
theories/SpecTime.v
theories/Timers.v
theories/P_Timer.v
theories/Props_Timer.v
theories/Counters.v
theories/P_Counter.v
theories/Props_Counter.v
theories/SpecScan.v
theories/FrameInstr.v
theories/Frame.v
theories/ScanFrame.v
theories/Plan.v
theories/ScanOutcome.v
theories/P_Scan.v
theories/Props_Scan.v
theories/SpecRung.v
theories/Rung.v
theories/Groups.v
theories/DemoScan.v
theories/P_Rung.v
theories/Props_Rung.v
theories/SpecGen.v
theories/P_Init.v
theories/Props_Init.v
theories/P_Setup.v
theories/Props_Setup.v
theories/P_Place.v
theories/Props_Place.v
theories/SpecTask.v
theories/Trace.v
theories/Hist.v
theories/Cycle.v
theories/ScanPoint.v
theories/Loop.v
theories/DemoTask.v
theories/P_Cycle.v
theories/Props_Cycle.v
theories/P_Task.v
theories/Props_Task.v
theories/P_Edge.v
theories/Props_Edge.v
theories/CronStep.v
theories/SpecCron.v
theories/P_Cron.v
theories/Props_Cron.v
theories/SpecParse.v
theories/Parse.v
theories/P_Parse.v
theories/Props_Parse.v
theories/SpecSafe.v
theories/Safe.v
theories/SafeScan.v
theories/SafeTask.v
theories/P_Safe.v
theories/Props_Safe.v
theories/DemoSafe.v
theories/SafeApi.v
theories/Check.v
theories/SpecCheck.v
theories/Checking.v
theories/P_Check.v
theories/Props_Check.v
theories/DemoCheck.v
theories/CronNext.v
theories/SpecNext.v
theories/P_Next.v
theories/Props_Next.v
theories/Json.v
theories/SpecJson.v
theories/JsonFacts.v
theories/DemoJson.v
theories/P_Load.v
theories/Props_Load.v
theories/SaveFacts.v
theories/P_Save.v
theories/Props_Save.v
theories/Schema.v
theories/SpecSchema.v
theories/SchemaFacts.v
theories/Shipped.v
theories/DemoSchema.v
theories/P_Schema.v
theories/Props_Schema.v
theories/SpecShipped.v
theories/ShippedFacts.v
theories/ShippedLoad.v
theories/P_Shipped.v
theories/Props_Shipped.v
theories/SpecFlow.v
theories/FlowFacts.v
theories/P_Flow.v
theories/Props_Flow.v
theories/Print.v
theories/SpecPrint.v
theories/PrintFacts.v
theories/PrintFigures.v
theories/PrintShow.v
theories/DemoPrint.v
theories/P_Print.v
theories/Props_Print.v
theories/SpecCall.v
theories/P_Call.v
theories/Props_Call.v
theories/CallFacts.v
theories/Port.v
theories/SpecPort.v
theories/PortFacts.v
theories/P_Port.v
theories/Props_Port.v
theories/SpecOrder.v
theories/OrderFacts.v
theories/P_Order.v
theories/Props_Order.v
theories/SpecCalm.v
theories/CalmFacts.v
theories/CalmTask.v
theories/P_Calm.v
theories/Props_Calm.v
theories/DemoCalm.v
theories/P_Sure.v
theories/Props_Sure.v
theories/Heap.v
theories/SpecHeap.v
theories/HeapFacts.v
theories/HeapTree.v
theories/HeapJson.v
theories/HeapCell.v
theories/HeapMach.v
theories/HeapEnd.v
theories/HeapInit.v
theories/HeapFull.v
theories/P_Heap.v
theories/Props_Heap.v
theories/SpecHist.v
theories/HistFacts.v
theories/TurnFacts.v
theories/P_Hist.v
theories/Props_Hist.v
theories/Suite.v
theories/Reader.v
theories/SpecReader.v
theories/ReaderFacts.v
theories/P_Reader.v
theories/Props_Reader.v
theories/Files.v
theories/SpecFiles.v
theories/P_Files.v
theories/Props_Files.v
theories/App.v
theories/SpecApp.v
theories/AppFacts.v
theories/AppEnd.v
theories/AppRun.v
theories/AppShip.v
theories/P_App.v
theories/DemoApp.v
theories/Props_App.v
theories/SpecStill.v
theories/StillFacts.v
theories/DriftFacts.v
theories/P_Still.v
theories/Props_Still.v
