-Q theories Verif
theories/AabbModel.v
theories/AabbProofs.v
theories/AabbProps.v
theories/AccModel.v
theories/AccProofs.v
theories/AccProps.v
theories/AngModel.v
theories/AngProofs.v
theories/AngProps.v
theories/BoxDist.v
theories/BoxModel.v
theories/BoxProofs.v
theories/BoxProps.v
theories/CacheModel.v
theories/CacheProofs.v
theories/CacheProps.v
theories/CondModel.v
theories/CondProofs.v
theories/CondProps.v
theories/CtrlModel.v
theories/CtrlProofs.v
theories/CtrlProps.v
theories/DatModel.v
theories/DatProofs.v
theories/DatProps.v
theories/DistModel.v
theories/DistProofs.v
theories/DistProps.v
theories/EntCondModel.v
theories/EntCondProofs.v
theories/EntCondProps.v
theories/EntModel.v
theories/EntProofs.v
theories/EntProps.v
theories/FiltProofs.v
theories/FiltProps.v
theories/GapModel.v
theories/GapProofs.v
theories/GapProps.v
theories/GeoModel.v
theories/GeoProofs.v
theories/GeoProps.v
theories/GhoModel.v
theories/GhoProofs.v
theories/GhoProps.v
theories/IdModel.v
theories/IdProofs.v
theories/IdProps.v
theories/KeepLatProps.v
theories/KeepModel.v
theories/KeepProofs.v
theories/KeepProps.v
theories/Lane2Proofs.v
theories/Lane3Proofs.v
theories/LaneModel.v
theories/LaneProofs.v
theories/LaneProps.v
theories/LaneSecProofs.v
theories/LatProofs.v
theories/LgtModel.v
theories/LgtProofs.v
theories/LgtProps.v
theories/MoveModel.v
theories/MoveProofs.v
theories/MoveProps.v
theories/NatModel.v
theories/NatProofs.v
theories/NatProps.v
theories/NetModel.v
theories/NetProofs.v
theories/NetProps.v
theories/OffModel.v
theories/OffProofs.v
theories/OffProps.v
theories/OptModel.v
theories/OptProofs.v
theories/OptProps.v
theories/OvrModel.v
theories/OvrProofs.v
theories/OvrProps.v
theories/ParamModel.v
theories/ParamProofs.v
theories/ParamProps.v
theories/PathModel.v
theories/PathProofs.v
theories/PathProps.v
theories/PolyModel.v
theories/PolyProofs.v
theories/PolyProps.v
theories/PoolModel.v
theories/PoolProofs.v
theories/PoolProps.v
theories/ProfModel.v
theories/ProfProofs.v
theories/ProfProps.v
theories/QAux.v
theories/Rec2Proofs.v
theories/RecModel.v
theories/RecProofs.v
theories/RecProps.v
theories/ReplayModel.v
theories/ReplayProofs.v
theories/ReplayProps.v
theories/RouteModel.v
theories/RouteProofs.v
theories/RouteProps.v
theories/RtrModel.v
theories/RtrProofs.v
theories/RtrProps.v
theories/SBModel.v
theories/SBProofs.v
theories/SBProofs2.v
theories/SBProps.v
theories/SenModel.v
theories/SenProofs.v
theories/SenProps.v
theories/SlopModel.v
theories/SlopProofs.v
theories/SlopProps.v
theories/SpeedProofs.v
theories/StrModel.v
theories/StrProofs.v
theories/StrProps.v
theories/SwmModel.v
theories/SwmProofs.v
theories/SwmProps.v
theories/SwpModel.v
theories/SwpProofs.v
theories/SwpProps.v
theories/SynModel.v
theories/SynProofs.v
theories/SynProps.v
theories/TrajProofs.v
theories/TrajProps.v
theories/TransModel.v
theories/TransProofs.v
theories/TransProps.v
theories/TriModel.v
theories/TriProofs.v
theories/TriProps.v
theories/TrjModel.v
theories/TrjProofs.v
theories/TrjProps.v
theories/UdpModel.v
theories/UdpProofs.v
theories/UdpProps.v
theories/VehModel.v
theories/VehProofs.v
theories/VehProps.v
