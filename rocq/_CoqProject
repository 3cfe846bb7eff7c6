-Q theories Verif
theories/Base.v
theories/Json.v
theories/WfTypes.v
theories/ConfigModel.v
theories/ConfigSpec.v
theories/ConfigProofs.v
theories/ConfigProps.v
theories/LocalApiModel.v
theories/LocalApiSpec.v
theories/LocalApiProofs.v
theories/LocalApiProps.v
theories/ExecStoreModel.v
theories/ExecStoreSpec.v
theories/ExecStoreProofs.v
theories/ExecStoreProps.v
theories/StateMachineModel.v
theories/StateMachineSpec.v
theories/StateMachineProofs.v
theories/StateMachineSeq.v
theories/StateMachineErr.v
theories/StateMachineMore.v
theories/StateMachineCases.v
theories/StateMachineProps.v
theories/RetryDelayModel.v
theories/RetryDelayProofs.v
theories/RetryDelayProps.v
theories/WaitModel.v
theories/WaitProofs.v
theories/WaitProps.v
theories/Text.v
theories/SigModel.v
theories/SigSpec.v
theories/SigProofs.v
theories/SigProps.v
theories/AckModel.v
theories/AckSpec.v
theories/AckProofs.v
theories/AckProps.v
theories/ClusterModel.v
theories/ClusterSpec.v
theories/ClusterTrans.v
theories/ClusterNode.v
theories/ClusterCalls.v
theories/ClusterSafety.v
theories/ClusterDeliver.v
theories/ClusterNet.v
theories/ClusterSettle.v
theories/ClusterProps.v
theories/Chars.v
theories/ScannerModel.v
theories/ScannerSpec.v
theories/ScannerProofs.v
theories/ScannerProps.v
theories/SubstModel.v
theories/SubstSpec.v
theories/SubstScan.v
theories/SubstProofs.v
theories/SubstSafe.v
theories/SubstProps.v
theories/ResolveModel.v
theories/ResolveSpec.v
theories/ResolveProofs.v
theories/ResolveDocs.v
theories/ResolveProps.v
theories/Yaml.v
theories/BlueprintModel.v
theories/BlueprintSpec.v
theories/BlueprintProofs.v
theories/BlueprintSame.v
theories/BlueprintKept.v
theories/BlueprintProps.v
theories/TemplateParserModel.v
theories/TemplateParserSpec.v
theories/TemplateParserProofs.v
theories/TemplateParserTerm.v
theories/TemplateParserProps.v
theories/Value.v
theories/Bytes.v
theories/TemplateFuncModel.v
theories/TemplateFuncSpec.v
theories/TemplateFuncProofs.v
theories/TemplateNumSpec.v
theories/TemplateNumProofs.v
theories/TemplateFuncProps.v
theories/PayloadModel.v
theories/PayloadSpec.v
theories/PayloadProofs.v
theories/PayloadProps.v
theories/SqsModel.v
theories/SqsSpec.v
theories/SqsProofs.v
theories/SqsProps.v
theories/WsModel.v
theories/WsSpec.v
theories/WsProofs.v
theories/WsProps.v
theories/ApiModel.v
theories/ApiSpec.v
theories/ApiProofs.v
theories/ApiProps.v
theories/CliModel.v
theories/CliSpec.v
theories/CliProofs.v
theories/CliProps.v
theories/EnvModel.v
theories/EnvSpec.v
theories/EnvProofs.v
theories/EnvProps.v
theories/RouteModel.v
theories/RouteSpec.v
theories/RouteProofs.v
theories/RouteProps.v
theories/SdkModel.v
theories/SdkSpec.v
theories/SdkProofs.v
theories/SdkProps.v
theories/XrayModel.v
theories/XraySpec.v
theories/XrayProofs.v
theories/XrayProps.v
theories/WfAppModel.v
theories/WfAppSpec.v
theories/WfAppProofs.v
theories/WfAppProps.v
theories/WfYamlModel.v
theories/WfYamlSpec.v
theories/WfYamlProofs.v
theories/WfYamlProps.v
theories/WfResolveModel.v
theories/WfResolveSpec.v
theories/WfResolveProofs.v
theories/WfResolveProps.v
theories/SpecYamlModel.v
theories/SpecYamlSpec.v
theories/SpecYamlProofs.v
theories/SpecYamlProps.v
theories/SpecResolveModel.v
theories/SpecResolveSpec.v
theories/SpecResolveProofs.v
theories/SpecResolveProps.v
theories/LoadModel.v
theories/LoadSpec.v
theories/LoadProofs.v
theories/LoadProps.v
theories/SpecJsonModel.v
theories/SpecJsonSpec.v
theories/SpecJsonProofs.v
theories/SpecJsonProps.v
theories/LoadJsonModel.v
theories/LoadJsonSpec.v
theories/LoadJsonProofs.v
theories/LoadJsonProps.v
theories/CmdModel.v
theories/CmdSpec.v
theories/CmdProofs.v
theories/CmdProps.v
theories/TuiModel.v
theories/TuiSpec.v
theories/TuiProps.v
theories/StateMachineFailSpec.v
theories/StateMachineFail.v
theories/StateMachineFailProps.v
theories/SetupModel.v
theories/SetupSpec.v
theories/SetupProofs.v
theories/SetupProps.v
theories/SigWhySpec.v
theories/SigWhyProps.v
theories/PayloadDrawSpec.v
theories/PayloadDrawProps.v
theories/PortableSpec.v
theories/PortableProofs.v
theories/PortableDocSpec.v
theories/PortableProps.v
theories/WaitSpec.v
theories/StateMachineAttemptSpec.v
theories/StateMachineAttemptProps.v
theories/WireModel.v
theories/WireSpec.v
theories/WireProofs.v
theories/WireProps.v
theories/LostModel.v
theories/LostSpec.v
theories/LostProofs.v
theories/LostProps.v
theories/NapiModel.v
theories/NapiSpec.v
theories/NapiProofs.v
theories/NapiProps.v
theories/StallModel.v
theories/StallSpec.v
theories/StallProofs.v
theories/StallProps.v
theories/FormatProofs.v
theories/FormatProps.v
theories/DeadSpec.v
theories/DeadProofs.v
theories/DeadProps.v
theories/PumpModel.v
theories/PumpSpec.v
theories/PumpProofs.v
theories/PumpJam.v
theories/PumpReach.v
theories/PumpProps.v
theories/RedisModel.v
theories/RedisSpec.v
theories/RedisProofs.v
theories/RedisProps.v
theories/IdModel.v
theories/IdSpec.v
theories/IdProps.v
theories/WfSysModel.v
theories/WfSysSpec.v
theories/WfSysProofs.v
theories/WfSysProps.v
theories/TraceModel.v
theories/TraceSpec.v
theories/TraceProps.v
theories/ExitModel.v
theories/ExitSpec.v
theories/ExitProps.v
theories/ServeModel.v
theories/ServeSpec.v
theories/ServeProps.v
theories/SigExactSpec.v
theories/SigExactProps.v
theories/StateMachineEndSpec.v
theories/StateMachineEndProps.v
theories/SigBase64Spec.v
theories/SigBase64Props.v
theories/NodeServeModel.v
theories/NodeServeSpec.v
theories/NodeServeProps.v
theories/StateMachineRecordProps.v
theories/WfSysSilentProps.v
theories/StateMachineBranchProps.v
theories/StateMachineTextProps.v
