-Q theories Verif
theories/Prelude.v
theories/DCModel.v
theories/DCSpec.v
theories/DCProofs.v
theories/DCProps.v
theories/TaskModel.v
theories/TaskSpec.v
theories/TaskProofs.v
theories/TaskProps.v
theories/GAModel.v
theories/GAProofs.v
theories/ParModel.v
theories/ParSpec.v
theories/ParProofs.v
theories/ParProofs2.v
theories/ParProofs3.v
theories/ParProps.v
theories/NetModel.v
theories/NetSpec.v
theories/NetProofs.v
theories/NetProofs2.v
theories/NetProofs3.v
theories/NetProofs4.v
theories/NetProps.v
theories/IdxModel.v
theories/IdxSpec.v
theories/IdxProofs.v
theories/IdxProofs2.v
theories/IdxProps.v
theories/MapModel.v
theories/MapSpec.v
theories/MapProofs.v
theories/MapProofs2.v
theories/MapProofs3.v
theories/MapProps.v
theories/GenModel.v
theories/GenSpec.v
theories/GenProofs.v
theories/GenProofs2.v
theories/GenProps.v
theories/StrModel.v
theories/StrSpec.v
theories/StrProofs.v
theories/StrProofs2.v
theories/StrProofs3.v
theories/StrProps.v
theories/RecModel.v
theories/RecSpec.v
theories/RecProofs.v
theories/RecProofs2.v
theories/RecProofs3.v
theories/RecProofs4.v
theories/RecProps.v
theories/StreamModel.v
theories/StreamProps.v
theories/IOModel.v
theories/IOSpec.v
theories/IOProofs.v
theories/IOProps.v
theories/ConfModel.v
theories/ConfSpec.v
theories/ConfProofs.v
theories/ConfProps.v
theories/StatModel.v
theories/StatSpec.v
theories/StatProofs.v
theories/StatProps.v
theories/AnaModel.v
theories/AnaSpec.v
theories/AnaProofs.v
theories/AnaProps.v
theories/TimerModel.v
theories/TimerSpec.v
theories/TimerProofs.v
theories/TimerProps.v
theories/NRModel.v
theories/NRSpec.v
theories/NRProofs.v
theories/NRProps.v
theories/EvModel.v
theories/EvSpec.v
theories/EvProofs.v
theories/EvProps.v
theories/CbModel.v
theories/CbSpec.v
theories/CbProofs.v
theories/CbProps.v
theories/DbModel.v
theories/DbSpec.v
theories/DbProofs.v
theories/DbProps.v
theories/YbModel.v
theories/YbSpec.v
theories/YbProofs.v
theories/YbProps.v
theories/PfModel.v
theories/PfSpec.v
theories/PfProofs.v
theories/PfProps.v
theories/PqModel.v
theories/PqSpec.v
theories/PqProofs.v
theories/PqProps.v
theories/FmModel.v
theories/FmSpec.v
theories/FmProofs.v
theories/FmProps.v
theories/HdModel.v
theories/HdSpec.v
theories/HdProofs.v
theories/HdProps.v
theories/XfModel.v
theories/XfSpec.v
theories/XfProofs.v
theories/XfProofs2.v
theories/XfProofs3.v
theories/XfProps.v
theories/CxModel.v
theories/CxSpec.v
theories/CxProofs.v
theories/CxProofs2.v
theories/CxProofs3.v
theories/CxProofs4.v
theories/CxProps.v
theories/LsModel.v
theories/LsSpec.v
theories/LsProofs.v
theories/LsProofs2.v
theories/LsProofs3.v
theories/LsProps.v
theories/SeModel.v
theories/SeSpec.v
theories/SeProofs.v
theories/SeProofs2.v
theories/SeProofs3.v
theories/SeProps.v
theories/XpModel.v
theories/XpSpec.v
theories/XpProofs.v
theories/XpProofs2.v
theories/XpProofs3.v
theories/XpProofs4.v
theories/XpProofs5.v
theories/XpProofs6.v
theories/XpProofs7.v
theories/XpProofs8.v
theories/XpProofs9.v
theories/XpProps.v
theories/DyModel.v
theories/DySpec.v
theories/DyProofs.v
theories/DyProofs2.v
theories/DyProofs3.v
theories/DyProofs4.v
theories/DyProofs5.v
theories/DyProofs6.v
theories/DyProofs7.v
theories/DyProps.v
theories/DvModel.v
theories/DvSpec.v
theories/DvProofs.v
theories/DvProofs2.v
theories/DvProofs3.v
theories/DvProofs4.v
theories/DvProps.v
theories/DrModel.v
theories/DrTables.v
theories/DrModel2.v
theories/DrSpec.v
theories/DrProofs.v
theories/DrProofs2.v
theories/DrProofs3.v
theories/DrProofs4.v
theories/DrProofs5.v
theories/DrProofs6.v
theories/DrProofs7.v
theories/DrProofs8.v
theories/DrProofs9.v
theories/DrProps.v
theories/CaModel.v
theories/CaSpec.v
theories/CaProofs.v
theories/CaProofs2.v
theories/CaProofs3.v
theories/CaProofs4.v
theories/CaProofs5.v
theories/CaProps.v
theories/RyModel.v
theories/RySpec.v
theories/RyProofs.v
theories/RyProofs2.v
theories/RyProofs3.v
theories/RyProofs4.v
theories/RyProofs5.v
theories/RyProofs6.v
theories/RyProofs7.v
theories/RyProps.v
theories/BtModel.v
theories/BtSpec.v
theories/BtProofs.v
theories/BtProofs2.v
theories/BtProofs3.v
theories/BtProps.v
theories/SmModel.v
theories/SmSpec.v
theories/SmProofs.v
theories/SmProofs2.v
theories/SmProps.v
theories/GsModel.v
theories/GsProofs.v
theories/GsProofs2.v
theories/GsProofs3.v
theories/GsProps.v
theories/XbModel.v
theories/XbSpec.v
theories/XbProofs.v
theories/XbProofs2.v
theories/XbProps.v
theories/ClnModel.v
theories/ClnSpec.v
theories/ClnProofs.v
theories/ClnProofs2.v
theories/ClnProps.v
theories/CmpModel.v
theories/CmpSpec.v
theories/CmpProofs.v
theories/CmpProofs2.v
theories/CmpProps.v
theories/RtModel.v
theories/RtSpec.v
theories/RtProofs.v
theories/RtProofs2.v
theories/RtProps.v
theories/RlModel.v
theories/RlSpec.v
theories/RlProofs.v
theories/RlProps.v
theories/WbModel.v
theories/WbSpec.v
theories/WbProofs.v
theories/WbProps.v
theories/RgModel.v
theories/RgSpec.v
theories/RgProofs.v
theories/RgProps.v
theories/LdModel.v
theories/LdSpec.v
theories/LdProofs.v
theories/LdProps.v
theories/WtModel.v
theories/WtSpec.v
theories/WtProofs.v
theories/WtProps.v
theories/WpModel.v
theories/WpSpec.v
theories/WpProofs.v
theories/WpProps.v
