-Q theories Verif
theories/Base.v
theories/BaseProofs.v
theories/OptModel.v
theories/OptSpec.v
theories/OptProofs.v
theories/OptMoreProofs.v
theories/OptProps.v
theories/UtilModel.v
theories/UtilSpec.v
theories/UtilProofs.v
theories/UtilMoreProofs.v
theories/UtilProps.v
theories/ExprModel.v
theories/ExprProofs.v
theories/ExprProps.v
theories/NlpModel.v
theories/NlpSpec.v
theories/NlpProofs.v
theories/NlpProps.v
theories/SysModel.v
theories/SysSpec.v
theories/SysProofs.v
theories/SysEqProofs.v
theories/SysCtlProofs.v
theories/SysMergeProofs.v
theories/SysProps.v
theories/AlvModel.v
theories/AlvSpec.v
theories/AlvProofs.v
theories/AlvProps.v
theories/LagModel.v
theories/LagSpec.v
theories/LagProofs.v
theories/LagMoreProofs.v
theories/LagProps.v
theories/SimModel.v
theories/SimSpec.v
theories/SimProofs.v
theories/SimMoreProofs.v
theories/SimProps.v
theories/OcpModel.v
theories/OcpSpec.v
theories/OcpProofs.v
theories/OcpMoreProofs.v
theories/OcpProps.v
theories/CpyModel.v
theories/CpySpec.v
theories/CpyProofs.v
theories/CpyMoreProofs.v
theories/CpyExProofs.v
theories/CpyProps.v
theories/DataModel.v
theories/DataSpec.v
theories/DataProofs.v
theories/DataProps.v
theories/NetModel.v
theories/NetSpec.v
theories/NetProofs.v
theories/NetColorProofs.v
theories/NetInterProofs.v
theories/NetAssemblyProofs.v
theories/NetMoreProofs.v
theories/NetProps.v
theories/DiscModel.v
theories/ShoModel.v
theories/DiscSpec.v
theories/DiscProofs.v
theories/DiscProps.v
theories/ColSpec.v
theories/CnsSpec.v
theories/CnsProofs.v
theories/CnsProps.v
theories/ColPolyProofs.v
theories/ColEvalProofs.v
theories/ColProofs.v
theories/ColElementProofs.v
theories/ColIncludeProofs.v
theories/ColAssemblyProofs.v
theories/ColMainProofs.v
theories/ColTopProofs.v
theories/ColClosedProofs.v
theories/ShoSpec.v
theories/ShoShotProofs.v
theories/ShoProofs.v
theories/ShoTopProofs.v
theories/ShoMoreProofs.v
theories/ShoClosedProofs.v
theories/ShoProps.v
theories/GivModel.v
theories/GivSpec.v
theories/GivProofs.v
theories/GivMoreProofs.v
theories/GivReadProofs.v
theories/GivProps.v
theories/ColProps.v
theories/DirSpec.v
theories/DirProofs.v
theories/DirQuadProofs.v
theories/DirColProofs.v
theories/DirTopProofs.v
theories/DirExProofs.v
theories/DirProps.v
theories/DmsSpec.v
theories/DmsRkProofs.v
theories/DmsProofs.v
theories/DmsPlanProofs.v
theories/DmsCoreProofs.v
theories/DmsTopProofs.v
theories/DmsExProofs.v
theories/DmsProps.v
theories/GueModel.v
theories/GueSpec.v
theories/GueProofs.v
theories/GueFeasProofs.v
theories/GueProps.v
theories/ResModel.v
theories/ResSpec.v
theories/ResProofs.v
theories/ResAccessProofs.v
theories/ResProps.v
theories/PlantModel.v
theories/PlantSpec.v
theories/PlantProofs.v
theories/PlantTimeProofs.v
theories/PlantProps.v
theories/MpcModel.v
theories/MpcSpec.v
theories/MpcProofs.v
theories/MpcProps.v
theories/AugModel.v
theories/AugSpec.v
theories/AugUpdateProofs.v
theories/AugProofs.v
theories/AugLoopProofs.v
theories/AugRunProofs.v
theories/AugRelaxProofs.v
theories/AugMoreProofs.v
theories/AugPondProofs.v
theories/AugProps.v
theories/AlrModel.v
theories/AlrSpec.v
theories/AlrProofs.v
theories/AlrRunProofs.v
theories/AlrMoreProofs.v
theories/AlrProps.v
theories/PloModel.v
theories/PloSpec.v
theories/PloProofs.v
theories/PloTopProofs.v
theories/PloProps.v
theories/RlxModel.v
theories/RlxSpec.v
theories/RlxProofs.v
theories/RlxProps.v
theories/NamModel.v
theories/NamSpec.v
theories/NamProofs.v
theories/NamProps.v
theories/DshModel.v
theories/DshSpec.v
theories/DshProofs.v
theories/DshProps.v
theories/GrdModel.v
theories/GrdSpec.v
theories/GrdProofs.v
theories/GrdProps.v
theories/PcsModel.v
theories/PcsSpec.v
theories/PcsProofs.v
theories/PcsProps.v
theories/MulSpec.v
theories/MulProofs.v
theories/MulExProofs.v
theories/MulProps.v
theories/PasSpec.v
theories/PasProofs.v
theories/PasExProofs.v
theories/PasProps.v
theories/AlsSpec.v
theories/AlsRelaxProofs.v
theories/AlsProofs.v
theories/AlsMoveProofs.v
theories/AlsTopProofs.v
theories/AlsExProofs.v
theories/AlsProps.v
theories/StoModel.v
theories/StoSpec.v
theories/StoProofs.v
theories/StoBasisProofs.v
theories/StoProps.v
theories/ExmModel.v
theories/ExmSpec.v
theories/ExmProofs.v
theories/ExmProps.v
theories/FraModel.v
theories/FraSpec.v
theories/FraProofs.v
theories/FraProps.v
theories/DfrModel.v
theories/DfrSpec.v
theories/DfrProofs.v
theories/DfrProps.v
theories/IndModel.v
theories/IndSpec.v
theories/IndCalcProofs.v
theories/IndProofs.v
theories/IndQuadProofs.v
theories/IndPrepProofs.v
theories/IndWitnessProofs.v
theories/IndProps.v
theories/KalModel.v
theories/KalSpec.v
theories/KalProofs.v
theories/KalMoreProofs.v
theories/KalWitnessProofs.v
theories/KalProps.v
theories/EstModel.v
theories/EstProofs.v
theories/EstProps.v
theories/ImnModel.v
theories/ImnSpec.v
theories/ImnProofs.v
theories/ImnMoreProofs.v
theories/ImnProps.v
theories/DalModel.v
theories/DalSpec.v
theories/DalProofs.v
theories/DalLoopProofs.v
theories/DalUpdateProofs.v
theories/DalMoreProofs.v
theories/DalProps.v
theories/ExoModel.v
theories/ExoSpec.v
theories/ExoProofs.v
theories/ExoProps.v
theories/AgrSpec.v
theories/AgrProofs.v
theories/AgrOptProofs.v
theories/AgrExProofs.v
theories/AgrProps.v
theories/NodSpec.v
theories/NodProofs.v
theories/NodExProofs.v
theories/NodProps.v
theories/BipModel.v
theories/BipSpec.v
theories/BipProofs.v
theories/BipProps.v
