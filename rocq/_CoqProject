-Q theories Verif
theories/Base.v
theories/BaseLemmas.v
theories/WsModel.v
theories/WsSpec.v
theories/WsMaskProofs.v
theories/WsParseProofs.v
theories/WsSplitProofs.v
theories/WsSessionProofs.v
theories/WsMoreProofs.v
theories/WsProps.v
theories/WsCutSpec.v
theories/WsCutProofs.v
theories/WsCutProps.v
theories/UuidModel.v
theories/UuidSpec.v
theories/UuidProofs.v
theories/UuidProps.v
theories/AddrModel.v
theories/AddrSpec.v
theories/AddrProofs.v
theories/AddrProps.v
theories/UriModel.v
theories/UriSpec.v
theories/UriProofs.v
theories/UriProps.v
theories/Text.v
theories/SplitModel.v
theories/SplitSpec.v
theories/SplitProofs.v
theories/SplitProps.v
theories/NetrefModel.v
theories/NetrefSpec.v
theories/NetrefProofs.v
theories/AddrTextModel.v
theories/AddrTextSpec.v
theories/AddrTextProofs.v
theories/NetrefProps.v
theories/TimerModel.v
theories/TimerSpec.v
theories/TimerProofs.v
theories/TimerProps.v
theories/FiberModel.v
theories/FiberSpec.v
theories/FiberProofs.v
theories/FiberLive.v
theories/FiberProps.v
theories/FiberPrompt.v
theories/FutureModel.v
theories/FutureSpec.v
theories/FutureProps.v
theories/TaskModel.v
theories/TaskSpec.v
theories/TaskProofs.v
theories/TaskProps.v
theories/StackModel.v
theories/StackSpec.v
theories/StackProofs.v
theories/StackProps.v
theories/LogModel.v
theories/LogSpec.v
theories/LogProofs.v
theories/LogProps.v
theories/SockmapModel.v
theories/SockmapSpec.v
theories/SockmapProofs.v
theories/SockmapProps.v
theories/TcpModel.v
theories/TcpSpec.v
theories/TcpProofs.v
theories/TcpProps.v
theories/PoolModel.v
theories/PoolSpec.v
theories/PoolProofs.v
theories/PoolProps.v
theories/DateModel.v
theories/DateSpec.v
theories/DateProofs.v
theories/DateProps.v
theories/HvalModel.v
theories/HvalSpec.v
theories/HvalProofs.v
theories/HvalProps.v
theories/HnameModel.v
theories/HnameProps.v
theories/HdrModel.v
theories/HdrSpec.v
theories/HdrProofs.v
theories/HdrProps.v
theories/HoutModel.v
theories/HoutSpec.v
theories/HoutProofs.v
theories/HoutProps.v
theories/RedisModel.v
theories/RedisSpec.v
theories/RedisProofs.v
theories/RedisProps.v
theories/JsonModel.v
theories/JsonSpec.v
theories/JsonProofs.v
theories/JsonProps.v
theories/MongoModel.v
theories/MongoSpec.v
theories/MongoProofs.v
theories/MongoPrint.v
theories/MongoProps.v
theories/GeoModel.v
theories/GeoSpec.v
theories/GeoProps.v
theories/MysqlModel.v
theories/MysqlSpec.v
theories/MysqlProps.v
theories/ConfModel.v
theories/ConfSpec.v
theories/ConfProofs.v
theories/ConfProps.v
theories/FileModel.v
theories/FileSpec.v
theories/FileProps.v
theories/ApptModel.v
theories/ApptSpec.v
theories/ApptProps.v
theories/EasyModel.v
theories/EasySpec.v
theories/EasyProofs.v
theories/EasyProps.v
theories/EqueueModel.v
theories/EqueueSpec.v
theories/EqueueProps.v
theories/CktModel.v
theories/CktSpec.v
theories/CktProofs.v
theories/CktProps.v
theories/HreqModel.v
theories/HreqSpec.v
theories/HreqProofs.v
theories/HreqProps.v
theories/HrespModel.v
theories/HrespSpec.v
theories/HrespProofs.v
theories/HrespProps.v
theories/WshModel.v
theories/WshSpec.v
theories/WshProofs.v
theories/WshProps.v
theories/NetModel.v
theories/NetSpec.v
theories/NetProofs.v
theories/NetProps.v
theories/AccModel.v
theories/AccSpec.v
theories/AccProofs.v
theories/AccProps.v
theories/DeflModel.v
theories/DeflSpec.v
theories/DeflProofs.v
theories/DeflCodec.v
theories/DeflAbsProofs.v
theories/DeflWsProofs.v
theories/DeflProps.v
theories/EsModel.v
theories/EsSpec.v
theories/EsProofs.v
theories/EsHttpProofs.v
theories/EsWsProofs.v
theories/EsProps.v
theories/EsWsProps.v
theories/EsWsCutProps.v
theories/QryModel.v
theories/QrySpec.v
theories/QryProofs.v
theories/QryDrvProofs.v
theories/QryRmProofs.v
theories/QryUriProofs.v
theories/QryLeftProofs.v
theories/QryProps.v
theories/MainModel.v
theories/MainSpec.v
theories/MainProofs.v
theories/MainProps.v
theories/HtripSpec.v
theories/HtripTerms.v
theories/HtripProofs.v
theories/HtripProps.v
theories/SslModel.v
theories/SslSpec.v
theories/SslProofs.v
theories/SslProps.v
theories/ConnModel.v
theories/ConnSpec.v
theories/ConnProofs.v
theories/ConnProps.v
theories/HvnModel.v
theories/HvnSpec.v
theories/HvnProofs.v
theories/HvnProps.v
theories/RelModel.v
theories/RelSpec.v
theories/RelProofs.v
theories/RelProps.v
theories/NameModel.v
theories/NameSpec.v
theories/NameProofs.v
theories/NameProps.v
theories/LifeModel.v
theories/LifeSpec.v
theories/LifeProofs.v
theories/LifeProps.v
theories/ThrowModel.v
theories/ThrowSpec.v
theories/ThrowProps.v
theories/LogLineProps.v
theories/WsZipCutProps.v
theories/HwsPlainProps.v
theories/SqlModel.v
theories/SqlSpec.v
theories/SqlProps.v
theories/MongoLongProps.v
theories/VecModel.v
theories/VecProps.v
theories/UuidHashModel.v
theories/UuidHashProps.v
theories/LogColourProps.v
theories/HostModel.v
theories/HostProps.v
theories/VecUnitModel.v
theories/VecUnitProps.v
theories/DtorModel.v
theories/DtorProps.v
