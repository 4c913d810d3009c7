-Q theories Verif
theories/Base.v
theories/BaseFacts.v
theories/CoordModel.v
theories/CoordSpec.v
theories/CoordProofs.v
theories/CoordProofs2.v
theories/CoordProofs3.v
theories/CoordProofs4.v
theories/CoordProofs5.v
theories/ArgSort.v
theories/CoordProps.v
theories/ChunkModel.v
theories/ChunkSpec.v
theories/ChunkProofs.v
theories/ChunkProofs2.v
theories/ChunkProofs3.v
theories/ChunkProofs4.v
theories/ChunkProofs5.v
theories/ChunkProofs6.v
theories/ChunkProps.v
theories/FrameModel.v
theories/FrameSpec.v
theories/FrameProofs.v
theories/FrameProofs2.v
theories/FrameProofs3.v
theories/FrameProofs4.v
theories/FrameProofs5.v
theories/FrameProps.v
theories/IndexModel.v
theories/IndexSpec.v
theories/IndexProofs.v
theories/IndexProofs2.v
theories/IndexProps.v
theories/NdModel.v
theories/NdSpec.v
theories/NdProofs.v
theories/NdProofs2.v
theories/NdProofs3.v
theories/CmModel.v
theories/CmSpec.v
theories/CmProofs.v
theories/CmProofs2.v
theories/CmProofs3.v
theories/CmProofs4.v
theories/CmProofs5.v
theories/CmProofs6.v
theories/CmProofs7.v
theories/CmProofs8.v
theories/CmProofs9.v
theories/CmProofs10.v
theories/CmProofs11.v
theories/CmProofs12.v
theories/CmProofs13.v
theories/CmProofs14.v
theories/CmProofs15.v
theories/CmProofs16.v
theories/CmProofs17.v
theories/CmProofs18.v
theories/CmProofs19.v
theories/CmProofs20.v
theories/CmSpec2.v
theories/CmProofs21.v
theories/CmProps.v
theories/SpoolModel.v
theories/SpoolSpec.v
theories/SpoolProofs.v
theories/SpoolProofs2.v
theories/SpoolProofs3.v
theories/SpoolProofs4.v
theories/SpoolProofs5.v
theories/SpoolProofs6.v
theories/SpoolProofs7.v
theories/SpoolProps.v
theories/ProcModel.v
theories/ProcSpec.v
theories/ProcProofs.v
theories/ProcProofs2.v
theories/ProcProofs3.v
theories/ProcProofs4.v
theories/ProcProofs5.v
theories/ProcProofs6.v
theories/ProcProofs7.v
theories/ProcProps.v
theories/FourierModel.v
theories/FourierSpec.v
theories/FourierProofs.v
theories/FourierProofs2.v
theories/FourierProofs3.v
theories/FourierProofs4.v
theories/FourierProofs5.v
theories/FourierProofs6.v
theories/FourierProofs7.v
theories/FourierProofs8.v
theories/FourierProps.v
theories/RegistryModel.v
theories/RegistryShipped.v
theories/RegistrySpec.v
theories/RegistryProofs.v
theories/RegistryProofs2.v
theories/RegistryProofs3.v
theories/RegistryProofs4.v
theories/RegistryProofs5.v
theories/RegistryProofs6.v
theories/RegistryProofs7.v
theories/RegistryProofs8.v
theories/RegistryProps.v
theories/MapModel.v
theories/MapProofs.v
theories/MapProps.v
theories/MergeModel.v
theories/MergeSpec.v
theories/MergeProofs.v
theories/MergeProofs2.v
theories/MergeProofs3.v
theories/MergeProofs4.v
theories/MergeProofs5.v
theories/MergeProofs6.v
theories/MergeProofs7.v
theories/MergeProofs8.v
theories/MergeProps.v
theories/TimeModel.v
theories/TimeSpec.v
theories/TimeProofs.v
theories/TimeProofs2.v
theories/TimeProofs3.v
theories/TimeProofs4.v
theories/TimeProps.v
theories/AttrsModel.v
theories/AttrsSpec.v
theories/AttrsProofs.v
theories/AttrsProofs2.v
theories/AttrsProofs3.v
theories/AttrsProofs4.v
theories/AttrsProofs5.v
theories/AttrsProofs6.v
theories/AttrsProofs7.v
theories/AttrsProofs8.v
theories/AttrsProofs9.v
theories/AttrsProofs10.v
theories/AttrsProofs11.v
theories/AttrsProps.v
theories/AttrInfoProps.v
theories/HistoryModel.v
theories/HistorySpec.v
theories/HistoryProofs.v
theories/HistoryProofs2.v
theories/HistoryProofs3.v
theories/HistoryProofs4.v
theories/HistoryProofs5.v
theories/HistoryProofs6.v
theories/HistoryProps.v
theories/BinOpModel.v
theories/BinOpSpec.v
theories/BinOpProofs.v
theories/BinOpProofs2.v
theories/BinOpProofs3.v
theories/BinOpProofs4.v
theories/BinOpProofs5.v
theories/BinOpProofs6.v
theories/BinOpProofs7.v
theories/BinOpProps.v
theories/DasdaeModel.v
theories/DasdaeSpec.v
theories/DasdaeProofs.v
theories/DasdaeProofs2.v
theories/DasdaeProofs3.v
theories/DasdaeProofs4.v
theories/DasdaeProofs5.v
theories/DasdaeProofs6.v
theories/DasdaeProofs7.v
theories/DasdaeProps.v
theories/ConcatModel.v
theories/ConcatSpec.v
theories/ConcatProofs.v
theories/ConcatProofs2.v
theories/ConcatProofs3.v
theories/ConcatProofs4.v
theories/ConcatProofs5.v
theories/ConcatProps.v
theories/AggModel.v
theories/AggSpec.v
theories/AggProofs.v
theories/AggProofs2.v
theories/AggProofs3.v
theories/AggProofs4.v
theories/AggProofs5.v
theories/AggProps.v
theories/LoadModel.v
theories/LoadSpec.v
theories/LoadProofs.v
theories/LoadProofs2.v
theories/LoadProofs3.v
theories/LoadProofs4.v
theories/LoadProofs5.v
theories/LoadProofs6.v
theories/LoadProps.v
theories/TaperModel.v
theories/TaperSpec.v
theories/TaperProofs.v
theories/TaperProofs2.v
theories/TaperProofs3.v
theories/TaperProofs4.v
theories/TaperProps.v
theories/IoModel.v
theories/IoSpec.v
theories/IoProofs.v
theories/IoProofs2.v
theories/IoProofs3.v
theories/IoProofs4.v
theories/IoProps.v
theories/NaModel.v
theories/NaSpec.v
theories/NaProofs.v
theories/NaProofs2.v
theories/NaProps.v
theories/ReadModel.v
theories/ReadSpec.v
theories/ReadProofs.v
theories/ReadProofs2.v
theories/ReadProofs3.v
theories/ReadProofs4.v
theories/ReadProofs5.v
theories/ReadProofs6.v
theories/ReadProps.v
theories/UnitsModel.v
theories/UnitsSpec.v
theories/UnitsProofs.v
theories/UnitsProofs2.v
theories/UnitsProps.v
theories/MuteModel.v
theories/MuteSpec.v
theories/MuteProofs.v
theories/MuteProofs2.v
theories/MuteProofs3.v
theories/MuteProofs4.v
theories/MuteProps.v
theories/CalcModel.v
theories/CalcSpec.v
theories/CalcProofs.v
theories/CalcProofs2.v
theories/CalcProofs3.v
theories/CalcProofs4.v
theories/CalcProofs5.v
theories/CalcProps.v
theories/MoveModel.v
theories/MoveSpec.v
theories/MoveProofs.v
theories/MoveProofs2.v
theories/MoveProofs3.v
theories/MoveProofs4.v
theories/MoveProofs5.v
theories/MoveProofs6.v
theories/MoveProofs7.v
theories/MoveProps.v
theories/TrendModel.v
theories/TrendSpec.v
theories/TrendProofs.v
theories/TrendProofs2.v
theories/TrendProofs3.v
theories/TrendProofs4.v
theories/TrendProofs5.v
theories/TrendProps.v
theories/EdgeModel.v
theories/EdgeSpec.v
theories/EdgeProofs.v
theories/EdgeProofs2.v
theories/EdgeProofs3.v
theories/EdgeProofs4.v
theories/EdgeProps.v
theories/WaterModel.v
theories/WaterSpec.v
theories/WaterProofs.v
theories/WaterProofs2.v
theories/WaterProofs3.v
theories/WaterProps.v
theories/ScaleModel.v
theories/ScaleSpec.v
theories/ScaleProofs.v
theories/ScaleProps.v
theories/EqualModel.v
theories/EqualSpec.v
theories/EqualProofs.v
theories/EqualProps.v
theories/InterpModel.v
theories/InterpSpec.v
theories/InterpProofs.v
theories/InterpProofs2.v
theories/InterpProps.v
theories/JobModel.v
theories/JobSpec.v
theories/JobProofs.v
theories/JobProps.v
theories/TableModel.v
theories/TableSpec.v
theories/TableProofs.v
theories/TableProps.v
theories/NsModel.v
theories/NsSpec.v
theories/NsProofs.v
theories/NsProps.v
theories/AskModel.v
theories/AskSpec.v
theories/AskProofs.v
theories/AskProps.v
theories/DeepModel.v
theories/DeepSpec.v
theories/DeepProofs.v
theories/DeepProps.v
theories/StaModel.v
theories/StaSpec.v
theories/StaProofs.v
theories/StaProps.v
theories/XmlModel.v
theories/XmlSpec.v
theories/XmlProofs.v
theories/XmlProps.v
theories/OpAttrModel.v
theories/OpAttrSpec.v
theories/OpAttrProofs.v
theories/OpAttrProps.v
theories/PickModel.v
theories/PickSpec.v
theories/PickProofs.v
theories/PickProps.v
theories/WhitenModel.v
theories/WhitenSpec.v
theories/WhitenProofs.v
theories/WhitenProps.v
theories/SigmaModel.v
theories/SigmaSpec.v
theories/SigmaProofs.v
theories/SigmaProps.v
theories/StftModel.v
theories/StftSpec.v
theories/StftProofs.v
theories/StftProps.v
theories/StreamModel.v
theories/StreamSpec.v
theories/StreamProofs.v
theories/StreamProps.v
theories/FebusModel.v
theories/FebusSpec.v
theories/FebusProofs.v
theories/FebusProps.v
