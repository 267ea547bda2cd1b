-Q theories Verif

theories/CInt.v
theories/CUtil.v
theories/ChecksumModel.v
theories/ChecksumSpec.v
theories/ChecksumProofs.v
theories/ChecksumProps.v
theories/FramerModel.v
theories/FramerSpec.v
theories/FramerProofs.v
theories/FramerProofs2.v
theories/FramerProofs3.v
theories/FramerProofs4.v
theories/FramerProps.v
theories/HammingModel.v
theories/HammingProofs.v
theories/HammingProps.v
theories/RingModel.v
theories/RingSpec.v
theories/RingProofs.v
theories/RingProps.v
theories/CueModel.v
theories/CueSpec.v
theories/CueProofs.v
theories/CueProps.v
theories/FibonacciModel.v
theories/FibonacciSpec.v
theories/FibonacciProofs.v
theories/FibonacciProps.v
theories/BitsModel.v
theories/BitsSpec.v
theories/BitsProofs.v
theories/BitsProps.v
theories/MemoryModel.v
theories/MemorySpec.v
theories/MemoryProofs.v
theories/MemoryProps.v
theories/StringModel.v
theories/StringSpec.v
theories/StringProofs.v
theories/StringProps.v
theories/EscapeModel.v
theories/EscapeSpec.v
theories/EscapeProofs.v
theories/EscapeProps.v
theories/TimeModel.v
theories/TimeSpec.v
theories/TimeProofs.v
theories/TimeProps.v
theories/ThrottleModel.v
theories/ThrottleSpec.v
theories/ThrottleProofs.v
theories/ThrottleProps.v
theories/ControlModel.v
theories/ControlSpec.v
theories/ControlProofs.v
theories/ControlProofs2.v
theories/ControlProps.v
theories/FdModel.v
theories/FdSpec.v
theories/FdProofs.v
theories/FdProps.v
theories/ListModel.v
theories/ListSpec.v
theories/ListProofs.v
theories/ListProofs2.v
theories/ListProofs3.v
theories/ListProofs4.v
theories/ListProofs5.v
theories/ListProofs6.v
theories/ListProps.v
theories/IpModel.v
theories/IpSpec.v
theories/IpProofs.v
theories/IpProps.v
theories/BufferModel.v
theories/BufferSpec.v
theories/BufferProofs.v
theories/BufferProofs2.v
theories/BufferProofs3.v
theories/BufferProofs4.v
theories/BufferProps.v
theories/TreeModel.v
theories/TreeSpec.v
theories/TreeProofs.v
theories/TreeProofs2.v
theories/TreeProofs3.v
theories/TreeProofs4.v
theories/TreeProofs5.v
theories/TreeProofs6.v
theories/TreeProofs7.v
theories/TreeProofs8.v
theories/TreeProofs9.v
theories/TreeProps.v
theories/ReaderwriterModel.v
theories/ReaderwriterSpec.v
theories/ReaderwriterProofs.v
theories/ReaderwriterProofs2.v
theories/ReaderwriterProofs3.v
theories/ReaderwriterProofs4.v
theories/ReaderwriterProofs5.v
theories/ReaderwriterProps.v
theories/WellModel.v
theories/WellSpec.v
theories/WellProofs.v
theories/WellProofs2.v
theories/WellProps.v
theories/PoolModel.v
theories/PoolSpec.v
theories/PoolProofs.v
theories/PoolProofs2.v
theories/PoolProofs3.v
theories/PoolProps.v
theories/MuxModel.v
theories/MuxSpec.v
theories/MuxProofs.v
theories/MuxProofs2.v
theories/MuxProofs3.v
theories/MuxProofs4.v
theories/MuxProofs5.v
theories/MuxProps.v
theories/DiskModel.v
theories/LockModel.v
theories/LockSpec.v
theories/LockProofs.v
theories/LockProofs2.v
theories/LockProofs3.v
theories/LockProofs4.v
theories/LockProps.v
theories/ObservationModel.v
theories/ObservationSpec.v
theories/ObservationProofs.v
theories/ObservationProofs2.v
theories/ObservationProofs3.v
theories/ObservationProofs4.v
theories/ObservationProps.v
theories/EndpointModel.v
theories/EndpointSpec.v
theories/EndpointProofs.v
theories/EndpointProofs2.v
theories/EndpointProofs3.v
theories/EndpointProps.v
theories/PollModel.v
theories/PollSpec.v
theories/PollProofs.v
theories/PollProofs2.v
theories/PollProofs3.v
theories/PollProps.v
theories/ScattergatherModel.v
theories/ScattergatherSpec.v
theories/ScattergatherProofs.v
theories/ScattergatherProofs2.v
theories/ScattergatherProofs3.v
theories/ScattergatherProofs4.v
theories/ScattergatherProofs5.v
theories/ScattergatherProps.v
theories/ThreadModel.v
theories/ThreadSpec.v
theories/ThreadProofs.v
theories/ThreadProofs2.v
theories/ThreadProps.v
theories/TimerModel.v
theories/TimerSpec.v
theories/TimerProofs.v
theories/TimerProofs2.v
theories/TimerProps.v
theories/WalkModel.v
theories/WalkSpec.v
theories/WalkProofs.v
theories/WalkProofs2.v
theories/WalkProps.v
theories/FsModel.v
theories/FsSpec.v
theories/FsProofs.v
theories/FsProofs2.v
theories/FsProps.v
theories/NumberModel.v
theories/NumberSpec.v
theories/NumberProofs.v
theories/NumberProps.v
theories/LogModel.v
theories/LogSpec.v
theories/LogProofs.v
theories/LogProofs2.v
theories/LogProps.v
theories/PhexModel.v
theories/PhexSpec.v
theories/PhexProofs.v
theories/PhexProps.v
theories/DumpModel.v
theories/DumpSpec.v
theories/DumpProofs.v
theories/DumpProps.v
theories/MeterModel.v
theories/MeterSpec.v
theories/MeterProofs.v
theories/MeterProps.v
theories/SocketModel.v
theories/SocketSpec.v
theories/SocketProofs.v
theories/SocketProps.v
theories/DelayModel.v
theories/DelaySpec.v
theories/DelayProofs.v
theories/DelayProps.v
theories/DaemonModel.v
theories/DaemonSpec.v
theories/DaemonProofs.v
theories/DaemonProps.v
theories/SerialModel.v
theories/SerialSpec.v
theories/SerialProofs.v
theories/SerialProps.v
theories/MapModel.v
theories/MapSpec.v
theories/MapProps.v
theories/NetifModel.v
theories/NetifSpec.v
theories/NetifProofs.v
theories/NetifProps.v
theories/OptionModel.v
theories/OptionSpec.v
theories/OptionProofs.v
theories/OptionProps.v
theories/PingModel.v
theories/PingSpec.v
theories/PingProofs.v
theories/PingProps.v
theories/LineModel.v
theories/LineSpec.v
theories/LineProofs.v
theories/LineProps.v
theories/PinModel.v
theories/PinSpec.v
theories/PinProofs.v
theories/PinProps.v
theories/I2cModel.v
theories/I2cSpec.v
theories/I2cProofs.v
theories/I2cProps.v
theories/DriverModel.v
theories/DriverSpec.v
theories/DriverProofs.v
theories/DriverProps.v
theories/UbenvModel.v
theories/UbenvSpec.v
theories/UbenvProofs.v
theories/UbenvProps.v
theories/WipeModel.v
theories/WipeSpec.v
theories/WipeProofs.v
theories/WipeProps.v
theories/ShapeModel.v
theories/ShapeSpec.v
theories/ShapeProofs.v
theories/ShapeProps.v
theories/SectionModel.v
theories/SectionSpec.v
theories/SectionProofs.v
theories/SectionProps.v
theories/ApplyModel.v
theories/ApplySpec.v
theories/ApplyProofs.v
theories/ApplyProps.v
theories/TestifyModel.v
theories/TestifySpec.v
theories/TestifyProofs.v
theories/TestifyProps.v
theories/MacroModel.v
theories/MacroSpec.v
theories/MacroProofs.v
theories/MacroProps.v
theories/ModuleModel.v
theories/ModuleSpec.v
theories/ModuleProofs.v
theories/ModuleProps.v
theories/FramerendSpec.v
theories/FramerendProofs.v
theories/FramerendProps.v
theories/DecModel.v
theories/DecSpec.v
theories/DecProofs.v
theories/DecProps.v
theories/IpcalcModel.v
theories/IpcalcSpec.v
theories/IpcalcProofs.v
theories/IpcalcProps.v
theories/MemtoolModel.v
theories/MemtoolSpec.v
theories/MemtoolProofs.v
theories/MemtoolProps.v
theories/CollapseModel.v
theories/CollapseSpec.v
theories/CollapseProofs.v
theories/CollapseProps.v
theories/DumperModel.v
theories/DumperSpec.v
theories/DumperProofs.v
theories/DumperProps.v
theories/EnvironmentModel.v
theories/EnvironmentSpec.v
theories/EnvironmentProofs.v
theories/EnvironmentProps.v
theories/RenameModel.v
theories/RenameSpec.v
theories/RenameProofs.v
theories/RenameProps.v
theories/MmtoolModel.v
theories/MmtoolSpec.v
theories/MmtoolProofs.v
theories/MmtoolProps.v
theories/GpioModel.v
theories/GpioSpec.v
theories/GpioProofs.v
theories/GpioProps.v
theories/ClocktoolModel.v
theories/ClocktoolSpec.v
theories/ClocktoolProofs.v
theories/ClocktoolProps.v
theories/FramertoolModel.v
theories/FramertoolSpec.v
theories/FramertoolProofs.v
theories/FramertoolProps.v
theories/RealtimeModel.v
theories/RealtimeSpec.v
theories/RealtimeProofs.v
theories/RealtimeProps.v
theories/FramerlinkModel.v
theories/FramerlinkSpec.v
theories/FramerlinkProofs.v
theories/FramerlinkProps.v
