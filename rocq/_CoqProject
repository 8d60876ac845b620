-Q theories Verif
theories/Base.v
theories/Endian.v
theories/Error.v
theories/Checksum.v
theories/Bytestuff.v
theories/Packet.v
theories/Time.v
theories/Bus.v
theories/Data.v
theories/Client.v
theories/Instructions.v
theories/Device.v
theories/Api.v
theories/StaticBuffer.v
theories/Cli.v
theories/Spec.v
theories/Lib.v
theories/ChecksumProofs.v
theories/CrcErrorProofs.v
theories/CrcSpec.v
theories/CrcExact.v
theories/P_Checksum.v
theories/StuffProofs.v
theories/WriteProofs.v
theories/ReadProofs.v
theories/StreamSpec.v
theories/CallSpec.v
theories/Demo.v
theories/ApiProofs.v
theories/StreamProofs.v
theories/MessageProofs.v
theories/SendProofs.v
theories/SendTheorems.v
theories/ReadTheorems.v
theories/StatusProofs.v
theories/DeviceSpec.v
theories/DeviceTheorems.v
theories/CorruptionTheorems.v
theories/DemoProofs.v
theories/InstructionSpec.v
theories/InstructionProofs.v
theories/TransferTheorems.v
theories/DataSpec.v
theories/DataTheorems.v
theories/GenericTheorems.v
theories/TimeSpec.v
theories/TimeTheorems.v
theories/IterProofs.v
theories/IterTheorems.v
theories/ResyncSpec.v
theories/ResyncTheorems.v
theories/SlotSpec.v
theories/SlotTheorems.v
theories/ScanTheorems.v
theories/UnderstoodTheorems.v
theories/UnderstoodExact.v
theories/SmallSpec.v
theories/SmallTheorems.v
theories/P_Stuff.v
theories/P_Write.v
theories/P_Bus.v
theories/CrcPacketTheorems.v
theories/P_Read.v
theories/P_Device.v
theories/P_Transfer.v
theories/P_Instr.v
theories/HintModel.v
theories/HintSpec.v
theories/HintTheorems.v
theories/P_Iter.v
theories/P_Slot.v
theories/P_Resync.v
theories/P_Data.v
theories/P_Time.v
theories/P_Small.v
theories/TwinSpec.v
theories/TwinProofs.v
theories/TwinTheorems.v
theories/ProfileSpec.v
theories/ProfileTheorems.v
theories/RoomSpec.v
theories/RoomTheorems.v
theories/BaudTheorems.v
theories/CliSpec.v
theories/CliTheorems.v
theories/P_Twin.v
theories/P_Baud.v
theories/P_Cli.v
theories/MockDevice.v
theories/RemoteSpec.v
theories/RemoteProofs.v
theories/RemoteTheorems.v
theories/RemoteExtra.v
theories/ShortSpec.v
theories/ShortTheorems.v
theories/TurnSpec.v
theories/TurnTheorems.v
theories/P_Remote.v
theories/P_Turn.v
theories/ConformSpec.v
theories/ConformTheorems.v
theories/P_Conform.v
theories/RepoTests.v
theories/SurviveSpec.v
theories/SurviveTheorems.v
theories/P_Survive.v
theories/ArrayMemory.v
theories/MemorySpec.v
theories/MemoryTheorems.v
theories/P_Memory.v
theories/DeadlineTheorems.v
theories/P_Deadline.v
theories/TypedSpec.v
theories/TypedTheorems.v
theories/P_Typed.v
theories/BulkSpec.v
theories/BulkTheorems.v
theories/P_Bulk.v
theories/EchoSpec.v
theories/EchoTheorems.v
theories/P_Echo.v
theories/LateSpec.v
theories/LateTheorems.v
theories/P_Late.v
theories/TestBus.v
theories/TestBusSpec.v
theories/TestBusTheorems.v
theories/P_TestBus.v
theories/FitTheorems.v
theories/ConcurrentSpec.v
theories/ConcurrentProofs.v
theories/ConcurrentTheorems.v
theories/ConcurrentResults.v
theories/ConcurrentExamples.v
theories/ConcurrentScan.v
theories/PatientSpec.v
theories/ConcurrentPatient.v
theories/PatientTheorems.v
theories/FaultyPort.v
theories/FaultySpec.v
theories/FaultyTheorems.v
theories/P_Concurrent.v
theories/ErrorFrom.v
theories/ErrorSpec.v
theories/ErrorTheorems.v
theories/P_Error.v
theories/P_Faulty.v
theories/Serial2.v
theories/ClockSpec.v
theories/ClockProofs.v
theories/ClockTheorems.v
theories/ClockIterTheorems.v
theories/P_Clock.v
theories/SyncLengthTheorems.v
theories/P_Profile.v
theories/P_Room.v
theories/Text.v
theories/TextSpec.v
theories/TextTheorems.v
theories/TextRoleSpec.v
theories/TextRoleTheorems.v
theories/P_Text.v
theories/SizeTheorems.v
theories/P_Size.v
theories/LogModel.v
theories/LogSpec.v
theories/LogTheorems.v
theories/CliOutput.v
theories/CliOutputSpec.v
theories/CliOutputTheorems.v
theories/P_Log.v
theories/P_CliOutput.v
theories/PanicSpec.v
theories/PanicTheorems.v
theories/PanicExactSpec.v
theories/PanicExactTheorems.v
theories/P_Panic.v
theories/P_PanicExact.v
theories/PanicDropSpec.v
theories/PanicDropTheorems.v
theories/P_PanicDrop.v
theories/ShortMoreTheorems.v
theories/P_ShortMore.v
theories/UnwindTheorems.v
theories/P_Unwind.v
theories/Completion.v
theories/CompletionSpec.v
theories/CompletionTheorems.v
theories/P_Completion.v
theories/CliRemoteSpec.v
theories/CliRemoteTheorems.v
theories/NumberSpec.v
theories/NumberTheorems.v
theories/P_CliRemote.v
theories/P_Number.v
theories/NoiseSpec.v
theories/NoiseTheorems.v
theories/P_Noise.v
theories/DisturbedSpec.v
theories/DisturbedTheorems.v
theories/DisturbedExample.v
theories/P_Disturbed.v
theories/BorrowModel.v
theories/BorrowSpec.v
theories/BorrowTheorems.v
theories/P_Borrow.v
theories/HandoverSpec.v
theories/HandoverTheorems.v
theories/P_Handover.v
theories/CostSpec.v
theories/CostTheorems.v
theories/P_Cost.v
theories/CostTyped.v
theories/P_CostTyped.v
theories/NumberManySpec.v
theories/NumberManyTheorems.v
theories/P_NumberMany.v
theories/CallerIter.v
theories/GivenSpec.v
theories/GivenTheorems.v
theories/GivenValues.v
theories/P_Given.v
theories/VerboseModel.v
theories/VerboseSpec.v
theories/VerboseTheorems.v
theories/VerboseScanTheorems.v
theories/P_Verbose.v
