-Q theories Verif
theories/ArrayModel.v
theories/ArrayProofs.v
theories/ArrayProps.v
theories/ArraySpec.v
theories/AvgProofs.v
theories/AvgProps.v
theories/AvgSpec.v
theories/Base.v
theories/CalModel.v
theories/CalProofs.v
theories/CalProps.v
theories/CalSpec.v
theories/CatchModel.v
theories/CatchProofs.v
theories/CatchProps.v
theories/CatchSpec.v
theories/ConvModel.v
theories/ConvProofs.v
theories/ConvProps.v
theories/DataModel.v
theories/DataProps.v
theories/DateModel.v
theories/DateProofs.v
theories/DateProps.v
theories/DateSpec.v
theories/DayProofs.v
theories/DayProps.v
theories/DaySpec.v
theories/DequeProps.v
theories/DequeSpec.v
theories/EaseProofs.v
theories/EaseProps.v
theories/EaseSpec.v
theories/ElemProofs.v
theories/ElemProps.v
theories/ElemSpec.v
theories/EvModel.v
theories/EvProofs.v
theories/EvProps.v
theories/EvSpec.v
theories/EvThms.v
theories/EvTrace.v
theories/FilterModel.v
theories/FilterProofs.v
theories/FilterProps.v
theories/FilterSpec.v
theories/FlingModel.v
theories/FlingProofs.v
theories/FlingProps.v
theories/FlingSpec.v
theories/FloatFacts.v
theories/FloatModel.v
theories/FollowProofs.v
theories/FollowProps.v
theories/FollowSpec.v
theories/FpointModel.v
theories/FpointProofs.v
theories/FpointProps.v
theories/FpointSpec.v
theories/FreedProofs.v
theories/FreedProps.v
theories/FreedSpec.v
theories/GainProofs.v
theories/GainProps.v
theories/GainSpec.v
theories/GpioModel.v
theories/GpioProofs.v
theories/GpioProps.v
theories/GpioSpec.v
theories/GuardCtlProofs.v
theories/GuardProofs.v
theories/GuardProps.v
theories/HandlerModel.v
theories/HandlerProofs.v
theories/HandlerProps.v
theories/KTimeConv.v
theories/KTimeFloat.v
theories/KTimeFlocq.v
theories/KTimeModel.v
theories/KTimeProofs.v
theories/KTimeProps.v
theories/KTimeSpec.v
theories/LatchModel.v
theories/LatchProofs.v
theories/LatchProps.v
theories/LatchSpec.v
theories/LawProofs.v
theories/LawProps.v
theories/LawSpec.v
theories/LifeModel.v
theories/LifeProofs.v
theories/LifeProps.v
theories/LifeRing.v
theories/LifeSpec.v
theories/LineModel.v
theories/LineProofs.v
theories/LineProps.v
theories/LineSpec.v
theories/LinkModel.v
theories/LinkProofs.v
theories/LinkProps.v
theories/LinkSpec.v
theories/LogModel.v
theories/LogProofs.v
theories/LogProps.v
theories/LogSpec.v
theories/MoveModel.v
theories/MoveProofs.v
theories/MoveProps.v
theories/MoveSpec.v
theories/NumeralModel.v
theories/NumeralProofs.v
theories/NumeralProps.v
theories/NumeralSpec.v
theories/OrderProps.v
theories/PcopyModel.v
theories/PcopyProofs.v
theories/PcopyProps.v
theories/PcopySpec.v
theories/PeriodProofs.v
theories/PeriodProps.v
theories/PeriodSpec.v
theories/PidModel.v
theories/PidProofs.v
theories/PidProps.v
theories/PidSpec.v
theories/PlantProofs.v
theories/PlantProps.v
theories/PlantSpec.v
theories/PlatModel.v
theories/PlatProofs.v
theories/PlatProps.v
theories/PlatSpec.v
theories/PointModel.v
theories/PointProofs.v
theories/PointProps.v
theories/PoolModel.v
theories/PoolProofs.v
theories/PoolProps.v
theories/PoolSpec.v
theories/RaiseModel.v
theories/RaiseProofs.v
theories/RaiseProps.v
theories/RaiseSpec.v
theories/ReprModel.v
theories/ReprProofs.v
theories/ReprProps.v
theories/ReprSpec.v
theories/ResetProofs.v
theories/ResetProps.v
theories/ResultModel.v
theories/ResultProofs.v
theories/ResultProps.v
theories/ResultSpec.v
theories/RingModel.v
theories/RingOps.v
theories/RingProofs.v
theories/RingProps.v
theories/RingSpec.v
theories/RollModel.v
theories/RollProofs.v
theories/RollProps.v
theories/ScaleModel.v
theories/ScaleProofs.v
theories/ScaleProps.v
theories/ScaleSpec.v
theories/ScanModel.v
theories/ScanProofs.v
theories/ScanProps.v
theories/ScanSpec.v
theories/SchedModel.v
theories/SchedProofs.v
theories/SchedProps.v
theories/SchedSpec.v
theories/SelfModel.v
theories/SelfProofs.v
theories/SelfProps.v
theories/ServeModel.v
theories/ServeProofs.v
theories/ServeProps.v
theories/ServeSpec.v
theories/ShareInst.v
theories/ShareModel.v
theories/ShareProofs.v
theories/ShareProps.v
theories/ShareSpec.v
theories/ShareTwin.v
theories/SlotModel.v
theories/SlotProofs.v
theories/SlotProps.v
theories/SlotSpec.v
theories/SmoothProofs.v
theories/SmoothProps.v
theories/SmoothSpec.v
theories/SpanModel.v
theories/SpanProofs.v
theories/SpanProps.v
theories/SpanSpec.v
theories/StampModel.v
theories/StampProofs.v
theories/StampProps.v
theories/StampSpec.v
theories/SteadyProofs.v
theories/SteadyProps.v
theories/SteadySpec.v
theories/StrModel.v
theories/StrProofs.v
theories/StrProps.v
theories/StrSpec.v
theories/StreamModel.v
theories/StreamProofs.v
theories/StreamProps.v
theories/StreamSpec.v
theories/TextModel.v
theories/TextProps.v
theories/TickModel.v
theories/TickProofs.v
theories/TickProps.v
theories/TickSpec.v
theories/TimersModel.v
theories/TimersProofs.v
theories/TimersProps.v
theories/TimersSpec.v
theories/TunerModel.v
theories/TunerProofs.v
theories/TunerProps.v
theories/TunerSpec.v
theories/UartModel.v
theories/UartProps.v
theories/UnitArithProofs.v
theories/UnitArithProps.v
theories/UnitModel.v
theories/UnitProofs.v
theories/UnitProps.v
theories/UnitSpec.v
theories/VectorModel.v
theories/VectorProofs.v
theories/VectorProps.v
theories/VectorSpec.v
theories/WarmModel.v
theories/WarmProofs.v
theories/WarmProps.v
theories/WearProofs.v
theories/WearProps.v
theories/WearSpec.v
theories/WindProofs.v
theories/WindProps.v
theories/WindSpec.v
theories/WrapModel.v
theories/WrapProofs.v
theories/WrapProps.v
theories/WrapSpec.v
