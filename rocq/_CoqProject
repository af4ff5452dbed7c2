-Q theories Verif
theories/AclModel.v
theories/AclProofs.v
theories/AclProps.v
theories/AclSpec.v
theories/AnsModel.v
theories/AnsMoreProofs.v
theories/AnsProofs.v
theories/AnsProps.v
theories/AnsSpec.v
theories/AskModel.v
theories/AskProofs.v
theories/AskProps.v
theories/AskSpec.v
theories/AurModel.v
theories/AurProofs.v
theories/AurProps.v
theories/AurSpec.v
theories/AuthModel.v
theories/AuthProofs.v
theories/AuthProps.v
theories/AuthSpec.v
theories/BalHistProofs.v
theories/BalModel.v
theories/BalProofs.v
theories/BalProps.v
theories/BalSpec.v
theories/Bytes.v
theories/CctModel.v
theories/CctProofs.v
theories/CctProps.v
theories/CctSpec.v
theories/CfgModel.v
theories/CfgProofs.v
theories/CfgProps.v
theories/CfgSpec.v
theories/ClenModel.v
theories/ClenProofs.v
theories/ClenProps.v
theories/ClenSpec.v
theories/CnbModel.v
theories/CnbProofs.v
theories/CnbProps.v
theories/CnbSpec.v
theories/CondModel.v
theories/CondProofs.v
theories/CondProps.v
theories/CondSpec.v
theories/CrtModel.v
theories/CrtProofs.v
theories/CrtProps.v
theories/CrtSpec.v
theories/CtlEffectProofs.v
theories/CtlModel.v
theories/CtlProofs.v
theories/CtlProps.v
theories/CtlRouteProofs.v
theories/CtlSpec.v
theories/DirModel.v
theories/DirProofs.v
theories/DirProps.v
theories/DirSpec.v
theories/DispModel.v
theories/DispProofs.v
theories/DispProps.v
theories/DispSpec.v
theories/DnsModel.v
theories/DnsProofs.v
theories/DnsProps.v
theories/DnsSpec.v
theories/DwnModel.v
theories/DwnProofs.v
theories/DwnProps.v
theories/DwnSpec.v
theories/DynModel.v
theories/DynProofs.v
theories/DynProps.v
theories/DynSpec.v
theories/FailHistProofs.v
theories/FailModel.v
theories/FailProofs.v
theories/FailProps.v
theories/FailSpec.v
theories/FinModel.v
theories/FinProofs.v
theories/FinProps.v
theories/FinSpec.v
theories/FrameModel.v
theories/FrameProofs.v
theories/FrameProps.v
theories/FrameSpec.v
theories/FwdModel.v
theories/FwdProofs.v
theories/FwdProps.v
theories/FwdSpec.v
theories/HashModel.v
theories/HashProofs.v
theories/HashProps.v
theories/HashSpec.v
theories/HdrProofs.v
theories/HeadProofs.v
theories/HostModel.v
theories/HostProofs.v
theories/HostProps.v
theories/HostSpec.v
theories/JmModel.v
theories/JmProofs.v
theories/JmProps.v
theories/JmSpec.v
theories/JobModel.v
theories/JobProofs.v
theories/JobProps.v
theories/JobSpec.v
theories/JsonGramProofs.v
theories/JsonMeanProofs.v
theories/JsonModel.v
theories/JsonProofs.v
theories/JsonProps.v
theories/JsonSpec.v
theories/JsonTextProofs.v
theories/KeyModel.v
theories/KeyProofs.v
theories/KeyProps.v
theories/KeySpec.v
theories/LexModel.v
theories/LexProofs.v
theories/LexProps.v
theories/LexSpec.v
theories/ListModel.v
theories/ListProofs.v
theories/ListProps.v
theories/ListSpec.v
theories/LkModel.v
theories/LkProofs.v
theories/LkProps.v
theories/LkSpec.v
theories/LocModel.v
theories/LocProofs.v
theories/LocProps.v
theories/LocSpec.v
theories/LogModel.v
theories/LogProofs.v
theories/LogProps.v
theories/LogSpec.v
theories/LvlModel.v
theories/LvlProofs.v
theories/LvlProps.v
theories/LvlSpec.v
theories/MetModel.v
theories/MetProofs.v
theories/MetProps.v
theories/MetSpec.v
theories/NumModel.v
theories/NumProofs.v
theories/NumProps.v
theories/NumSpec.v
theories/PatModel.v
theories/PatProofs.v
theories/PatProps.v
theories/PatSpec.v
theories/PoolModel.v
theories/PoolProofs.v
theories/PoolProps.v
theories/PoolSpec.v
theories/PtlModel.v
theories/PtlProofs.v
theories/PtlProps.v
theories/PtlSetProofs.v
theories/PtlSpec.v
theories/RefModel.v
theories/RefProofs.v
theories/RefProps.v
theories/RefSpec.v
theories/ReplyFileProofs.v
theories/ReplyModel.v
theories/ReplyProofs.v
theories/ReplyProps.v
theories/ReplySpec.v
theories/ReqModel.v
theories/ReqProofs.v
theories/ReqProps.v
theories/ReqSpec.v
theories/RespConnProofs.v
theories/RespModel.v
theories/RespProofs.v
theories/RespProps.v
theories/RespSpec.v
theories/RngModel.v
theories/RngProofs.v
theories/RngProps.v
theories/RngSpec.v
theories/RulFormProofs.v
theories/RulModel.v
theories/RulProofs.v
theories/RulProps.v
theories/RulSpec.v
theories/SbufModel.v
theories/SbufProofs.v
theories/SbufProps.v
theories/SbufSpec.v
theories/SessModel.v
theories/SessProofs.v
theories/SessProps.v
theories/SessSpec.v
theories/ShowModel.v
theories/ShowProofs.v
theories/ShowProps.v
theories/ShowSpec.v
theories/SniModel.v
theories/SniProofs.v
theories/SniProps.v
theories/SniSpec.v
theories/StaModel.v
theories/StaProofs.v
theories/StaProps.v
theories/StaSpec.v
theories/StatModel.v
theories/StatProofs.v
theories/StatProps.v
theories/StatSpec.v
theories/StreamModel.v
theories/StreamProofs.v
theories/StreamProps.v
theories/StreamSpec.v
theories/SupModel.v
theories/SupProofs.v
theories/SupProps.v
theories/SupSpec.v
theories/TevEndProofs.v
theories/TevErrProofs.v
theories/TevFindProofs.v
theories/TevModel.v
theories/TevProofs.v
theories/TevProps.v
theories/TevRunProofs.v
theories/TevSpec.v
theories/TflModel.v
theories/TflMoreProofs.v
theories/TflProofs.v
theories/TflProps.v
theories/TflSpec.v
theories/TflTextProofs.v
theories/TfmFindProofs.v
theories/TfmModel.v
theories/TfmProofs.v
theories/TfmProps.v
theories/TfmRunProofs.v
theories/TfmSpec.v
theories/TokModel.v
theories/TokProofs.v
theories/TokProps.v
theories/TokSpec.v
theories/TplActProofs.v
theories/TplBadProofs.v
theories/TplBodyProofs.v
theories/TplFindProofs.v
theories/TplLexProofs.v
theories/TplModel.v
theories/TplPipeProofs.v
theories/TplProofs.v
theories/TplProps.v
theories/TplSpec.v
theories/TplTagProofs.v
theories/TunModel.v
theories/TunProofs.v
theories/TunProps.v
theories/TunSpec.v
theories/UrlModel.v
theories/UrlProofs.v
theories/UrlProps.v
theories/UrlSpec.v
theories/WdModel.v
theories/WdProofs.v
theories/WdProps.v
theories/WdSpec.v
theories/XpdModel.v
theories/XpdProofs.v
theories/XpdProps.v
theories/XpdSpec.v
