-Q theories Verif
theories/Base.v
theories/Decimal.v
theories/Values.v
theories/FlusherModel.v
theories/FlusherSpec.v
theories/FlusherProofs.v
theories/FlusherProperties.v
theories/TimeModel.v
theories/TimeSpec.v
theories/TimeProofs.v
theories/TimeProperties.v
theories/RootModel.v
theories/RootSpec.v
theories/RootProofs.v
theories/RootProperties.v
theories/ScopeModel.v
theories/ScopeSpec.v
theories/ScopeProofs.v
theories/ScopeProperties.v
theories/FilterRaceModel.v
theories/FilterRaceSpec.v
theories/FilterRaceProofs.v
theories/FilterRaceProperties.v
theories/RecordBufModel.v
theories/RecordBufSpec.v
theories/RecordBufProofs.v
theories/RecordBufProperties.v
theories/AsyncModel.v
theories/AsyncSpec.v
theories/AsyncProofs.v
theories/AsyncProperties.v
theories/FileSinkModel.v
theories/FileSinkSpec.v
theories/FileSinkProofs.v
theories/FileSinkProperties.v
theories/TcpModel.v
theories/TcpSpec.v
theories/TcpProofs.v
theories/TcpProperties.v
theories/ConsoleModel.v
theories/ConsoleSpec.v
theories/ConsoleProofs.v
theories/ConsoleProperties.v
theories/DeliveryModel.v
theories/DeliverySpec.v
theories/DeliveryProofs.v
theories/DeliveryProperties.v
theories/StdMap.v
theories/TskvModel.v
theories/TskvSpec.v
theories/TskvProofs.v
theories/TskvProperties.v
theories/JsonFmtModel.v
theories/JsonFmtSpec.v
theories/JsonFmtProofs.v
theories/JsonFmtProperties.v
theories/JsonTextModel.v
theories/JsonTextSpec.v
theories/JsonTextProofs.v
theories/JsonTextProperties.v
theories/ParserModel.v
theories/ParserSpec.v
theories/ParserProofs.v
theories/ParserSubProofs.v
theories/ParserProperties.v
theories/FmtModel.v
theories/FmtSpec.v
theories/FmtProofs.v
theories/FmtSubProofs.v
theories/FmtProperties.v
theories/StrModel.v
theories/StrSpec.v
theories/StrProofs.v
theories/StrSubProofs.v
theories/StrProperties.v
theories/DateModel.v
theories/DateSpec.v
theories/DateProofs.v
theories/DateSubProofs.v
theories/DateProperties.v
theories/StringViewModel.v
theories/StringViewSpec.v
theories/StringViewProofs.v
theories/StringViewProperties.v
theories/AttributeModel.v
theories/AttributeSpec.v
theories/AttributeProofs.v
theories/AttributeProperties.v
theories/MetaFormatModel.v
theories/MetaFormatSpec.v
theories/MetaFormatProofs.v
theories/MetaFormatProperties.v
theories/ConfigModel.v
theories/ConfigSpec.v
theories/ConfigProofs.v
theories/ConfigProperties.v
theories/RegistryModel.v
theories/RegistrySpec.v
theories/RegistryProofs.v
theories/RegistryProperties.v
theories/FactoriesModel.v
theories/FactoriesSpec.v
theories/FactoriesProofs.v
theories/FactoriesProperties.v
theories/DevModel.v
theories/DevSpec.v
theories/DevProofs.v
theories/DevProperties.v
theories/AppleModel.v
theories/AppleSpec.v
theories/AppleProofs.v
theories/AppleProperties.v
theories/MembufModel.v
theories/MembufSpec.v
theories/MembufProofs.v
theories/MembufProperties.v
theories/SysErrModel.v
theories/SysErrSpec.v
theories/SysErrProofs.v
theories/SysErrProperties.v
theories/SystemModel.v
theories/SystemSpec.v
theories/SystemProofs.v
theories/SystemProperties.v
theories/ThreadsModel.v
theories/ThreadsSpec.v
theories/ThreadsProofs.v
theories/ThreadsProperties.v
theories/PrintfModel.v
theories/PrintfSpec.v
theories/PrintfProofs.v
theories/PrintfSubProofs.v
theories/PrintfMoreProofs.v
theories/PrintfProperties.v
theories/DoubleModel.v
theories/DoubleSpec.v
theories/DoubleProofs.v
theories/DoubleMoreProofs.v
theories/DoubleProperties.v
theories/QueuedModel.v
theories/QueuedSpec.v
theories/QueuedProofs.v
theories/QueuedSubProofs.v
theories/QueuedMoreProofs.v
theories/QueuedEndProofs.v
theories/QueuedWorldProofs.v
theories/QueuedDefinedProofs.v
theories/QueuedLivenessProofs.v
theories/QueuedProperties.v
theories/ReadbackSpec.v
theories/ReadbackProofs.v
theories/ReadbackMoreProofs.v
theories/ReadbackEndProofs.v
theories/ReadbackProperties.v
theories/BuildersModel.v
theories/BuildersSpec.v
theories/BuildersProofs.v
theories/BuildersMoreProofs.v
theories/BuildersEndProofs.v
theories/BuildersProperties.v
theories/NamedModel.v
theories/NamedSpec.v
theories/NamedProofs.v
theories/NamedParseProofs.v
theories/NamedEndProofs.v
theories/NamedSameProofs.v
theories/NamedProperties.v
theories/IdentModel.v
theories/IdentSpec.v
theories/IdentProofs.v
theories/IdentMoreProofs.v
theories/IdentProperties.v
theories/SayModel.v
theories/SaySpec.v
theories/SayProofs.v
theories/SayMoreProofs.v
theories/SayEndProofs.v
theories/SayProperties.v
theories/WrapperModel.v
theories/WrapperSpec.v
theories/WrapperProofs.v
theories/WrapperMoreProofs.v
theories/WrapperEndProofs.v
theories/WrapperProperties.v
theories/ChainModel.v
theories/ChainSpec.v
theories/ChainProofs.v
theories/ChainMoreProofs.v
theories/ChainProperties.v
theories/AssignModel.v
theories/AssignSpec.v
theories/AssignProofs.v
theories/AssignMoreProofs.v
theories/AssignProperties.v
theories/ReportModel.v
theories/ReportSpec.v
theories/ReportProofs.v
theories/ReportProperties.v
theories/ReenterModel.v
theories/ReenterSpec.v
theories/ReenterProofs.v
theories/ReenterMoreProofs.v
theories/ReenterProperties.v
theories/JamModel.v
theories/JamSpec.v
theories/JamProofs.v
theories/JamProperties.v
theories/EchoModel.v
theories/EchoSpec.v
theories/EchoProofs.v
theories/EchoProperties.v
theories/CrossModel.v
theories/CrossSpec.v
theories/CrossProofs.v
theories/CrossProperties.v
