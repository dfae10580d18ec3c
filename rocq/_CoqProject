-Q theories Verif
theories/Base.v
theories/BaseLemmas.v
theories/StorageModel.v
theories/StorageSpec.v
theories/StorageProofs.v
theories/StorageProofs2.v
theories/StorageProofs3.v
theories/StorageProofs4.v
theories/StorageProofs5.v
theories/StorageProofs6.v
theories/StorageProofs7.v
theories/Props_Storage.v
theories/KeyResolverModel.v
theories/KeyResolverSpec.v
theories/KeyResolverProofs.v
theories/Props_KeyResolver.v
theories/Base64Model.v
theories/Base64Proofs.v
theories/TextModel.v
theories/TextSpec.v
theories/TextProofs.v
theories/TextProofs2.v
theories/TextProofs3.v
theories/Props_Text.v
theories/StreamModel.v
theories/StreamSpec.v
theories/StreamProofs.v
theories/StreamProofs2.v
theories/StreamProofs3.v
theories/Props_Stream.v
theories/BinaryModel.v
theories/BinarySpec.v
theories/BinaryProofs.v
theories/BinaryProofs2.v
theories/Props_Binary.v
theories/ClusterModel.v
theories/ClusterSpec.v
theories/ClusterProofs.v
theories/ClusterProofs2.v
theories/ClusterProofs3.v
theories/ClusterProofs4.v
theories/ClusterProofs5.v
theories/ClusterProofs6.v
theories/ClusterProofs7.v
theories/ClusterProofs8.v
theories/ClusterProofs9.v
theories/ClusterProofs10.v
theories/Props_Cluster.v
theories/Props_Balance.v
theories/NodeModel.v
theories/NodeSpec.v
theories/NodeProofs.v
theories/NodeProofs2.v
theories/NamesModel.v
theories/NamesSpec.v
theories/NamesProofs.v
theories/Props_Node.v
theories/RoutingModel.v
theories/RoutingSpec.v
theories/RoutingProofs.v
theories/RoutingProofs2.v
theories/RoutingProofs3.v
theories/RoutingProofs4.v
theories/Props_Routing.v
theories/ProxyModel.v
theories/ProxySpec.v
theories/ProxyProofs.v
theories/Props_Proxy.v
theories/WatchModel.v
theories/WatchSpec.v
theories/WatchProofs.v
theories/LimitModel.v
theories/LimitSpec.v
theories/LimitProofs.v
theories/MonitorModel.v
theories/MonitorSpec.v
theories/MonitorProofs.v
theories/Props_Watch.v
theories/QueueModel.v
theories/QueueSpec.v
theories/QueueProofs.v
theories/QueueProofs2.v
theories/Props_Queue.v
theories/PoolModel.v
theories/PoolSpec.v
theories/PoolProofs.v
theories/Props_Pool.v
theories/FilesModel.v
theories/FilesProofs.v
theories/Props_Files.v
theories/ClientSpec.v
theories/TextProofs4.v
theories/SessionModel.v
theories/SessionProofs.v
theories/AmountSpec.v
theories/AmountProofs.v
theories/Props_Client.v
theories/ConcModel.v
theories/ConcSpec.v
theories/ConcProofs.v
theories/ConcProofs2.v
theories/Props_Conc.v
theories/DumpModel.v
theories/DumpSpec.v
theories/DumpProofs.v
theories/DumpProofs2.v
theories/Props_Dump.v
theories/ServerModel.v
theories/ServerProofs.v
theories/ServerProofs2.v
theories/ReplicaModel.v
theories/ReplicaSpec.v
theories/ReplicaProofs.v
theories/ReplicaProofs2.v
theories/ReplicaProofs3.v
theories/Props_Replica.v
theories/MemcachedSpec.v
theories/MemcachedProofs.v
theories/OtherProofs.v
theories/MemcachedProofs2.v
theories/MemcachedProofs3.v
theories/Props_Memcached.v
theories/GatewayModel.v
theories/GatewaySpec.v
theories/GatewayProofs.v
theories/GatewayProofs2.v
theories/Props_Gateway.v
theories/ReplicationModel.v
theories/ReplicationSpec.v
theories/ReplicationProofs.v
theories/ReplicationProofs2.v
theories/Props_Replication.v
theories/ConvergeSpec.v
theories/ConvergeProofs.v
theories/Props_Converge.v
theories/QueuedSpec.v
theories/QueuedProofs.v
theories/Props_Queued.v
theories/BinaryServerModel.v
theories/BinaryServerSpec.v
theories/BinaryServerProofs.v
theories/BinaryServerProofs2.v
theories/BinaryServerProofs3.v
theories/Props_BinaryServer.v
theories/EngineModel.v
theories/EngineSpec.v
theories/EngineProofs.v
theories/EngineProofs2.v
theories/Props_Engine.v
theories/LockModel.v
theories/LockSpec.v
theories/LockProofs.v
theories/LockProofs2.v
theories/LockProofs3.v
theories/LockProofs4.v
theories/Props_Lock.v
theories/IndexesModel.v
theories/IndexesSpec.v
theories/IndexesProofs.v
theories/IndexesProofs2.v
theories/IndexesProofs3.v
theories/IndexesProofs4.v
theories/Props_Indexes.v
theories/KeysModel.v
theories/KeysSpec.v
theories/KeysProofs.v
theories/KeysProofs2.v
theories/Props_Keys.v
theories/MysqlModel.v
theories/MysqlSpec.v
theories/MysqlProofs.v
theories/MysqlProofs2.v
theories/MysqlProofs3.v
theories/Props_Mysql.v
theories/StartupModel.v
theories/StartupSpec.v
theories/StartupProofs.v
theories/Props_Startup.v
theories/JoinModel.v
theories/JoinSpec.v
theories/JoinProofs.v
theories/JoinProofs2.v
theories/JoinProofs3.v
theories/Props_Join.v
theories/StatsModel.v
theories/StatsSpec.v
theories/StatsProofs.v
theories/StatsProofs2.v
theories/StatsProofs3.v
theories/Props_Stats.v
theories/ConfigModel.v
theories/ConfigSpec.v
theories/ConfigProofs.v
theories/ConfigProofs2.v
theories/ConfigProofs3.v
theories/ConfigProofs4.v
theories/Props_Config.v
theories/ThreadModel.v
theories/ThreadSpec.v
theories/ThreadProofs.v
theories/ThreadProofs2.v
theories/ThreadProofs3.v
theories/ThreadProofs4.v
theories/Props_Thread.v
theories/StopModel.v
theories/StopSpec.v
theories/StopProofs.v
theories/StopProofs2.v
theories/StopProofs3.v
theories/StopProofs4.v
theories/Props_Stop.v
theories/PowerModel.v
theories/PowerSpec.v
theories/PowerProofs.v
theories/Props_Power.v
theories/AcceptModel.v
theories/AcceptSpec.v
theories/AcceptProofs.v
theories/Props_Accept.v
theories/FanModel.v
theories/FanSpec.v
theories/FanProofs.v
theories/Props_Fan.v
theories/WindowModel.v
theories/WindowSpec.v
theories/WindowProofs.v
theories/Props_Window.v
theories/LibraryModel.v
theories/LibrarySpec.v
theories/LibraryProofs.v
theories/Props_Library.v
theories/BinaryGatewayModel.v
theories/BinaryGatewaySpec.v
theories/BinaryGatewayProofs.v
theories/BinaryGatewayProofs2.v
theories/Props_BinaryGateway.v
theories/RelayModel.v
theories/RelaySpec.v
theories/RelayProofs.v
theories/RelayProofs2.v
theories/Props_Relay.v
theories/SpreadModel.v
theories/SpreadSpec.v
theories/SpreadProofs.v
theories/SpreadProofs2.v
theories/Props_Spread.v
theories/AddressModel.v
theories/AddressSpec.v
theories/AddressProofs.v
theories/AddressProofs2.v
theories/Props_Address.v
theories/PidModel.v
theories/PidSpec.v
theories/PidProofs.v
theories/Props_Pid.v
theories/FailModel.v
theories/FailSpec.v
theories/FailProofs.v
theories/FailProofs2.v
theories/Props_Fail.v
theories/Props_Fine.v
theories/BlindModel.v
theories/Props_Blind.v
theories/BlindDumpModel.v
theories/Props_BlindDump.v
theories/ShowModel.v
theories/ShowSpec.v
theories/ShowProofs.v
theories/ShowProofs2.v
theories/Props_Show.v
theories/DoingModel.v
theories/DoingSpec.v
theories/Props_Doing.v
theories/LabourModel.v
theories/LabourSpec.v
theories/Props_Labour.v
theories/CopyingModel.v
theories/CopyingSpec.v
theories/Props_Copying.v
theories/StandingModel.v
theories/StandingSpec.v
theories/Props_Standing.v
theories/LaunchModel.v
theories/LaunchSpec.v
theories/LaunchProofs.v
theories/Props_Launch.v
