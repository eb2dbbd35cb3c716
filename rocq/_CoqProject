-Q theories Verif
theories/AbiResolve.v
theories/AbiResolveProps.v
theories/Access.v
theories/AccessProps.v
theories/Asm.v
theories/AsmProofs.v
theories/Auth.v
theories/AuthProofs.v
theories/AuthProps.v
theories/AuthSpec.v
theories/Backtrace.v
theories/BacktraceProps.v
theories/Base.v
theories/BaseLemmas.v
theories/BreakArgs.v
theories/BreakArgsProps.v
theories/Breakpoints.v
theories/BreakpointsProofs.v
theories/BreakpointsProps.v
theories/Build.v
theories/BuildProofs.v
theories/BuildProps.v
theories/BuildSpec.v
theories/CallServices.v
theories/CallServicesProps.v
theories/Client.v
theories/ClientAuth.v
theories/ClientAuthProps.v
theories/ClientProps.v
theories/ContainerStart.v
theories/ContainerStartProps.v
theories/Context.v
theories/ContextProofs.v
theories/ContextProps.v
theories/ContextSpec.v
theories/Cors.v
theories/CorsProps.v
theories/Creds.v
theories/CredsProps.v
theories/CredsSpec.v
theories/Daemon.v
theories/DaemonProps.v
theories/Download.v
theories/DownloadProps.v
theories/EventLog.v
theories/EventLogProps.v
theories/ExecRing.v
theories/ExecRingProps.v
theories/Executor.v
theories/ExecutorProps.v
theories/ExitStatus.v
theories/ExitStatusProps.v
theories/Extensions.v
theories/ExtensionsProps.v
theories/Fds.v
theories/FdsProps.v
theories/FileIo.v
theories/FileIoProps.v
theories/Groups.v
theories/GroupsProps.v
theories/Grpc.v
theories/GrpcConfig.v
theories/GrpcConfigProps.v
theories/GrpcProofs.v
theories/GrpcProps.v
theories/GrpcSpec.v
theories/GuestIoProofs.v
theories/GuestIoProps.v
theories/GuestLib.v
theories/GuestLibProofs.v
theories/GuestLibProps.v
theories/GuestLibSpec.v
theories/GuestMiscProofs.v
theories/GuestPollProofs.v
theories/GuestStopProps.v
theories/Headers.v
theories/HeadersProps.v
theories/ImageFiles.v
theories/ImageFilesProofs.v
theories/ImageFilesProps.v
theories/ImageFilesSpec.v
theories/ImportPipe.v
theories/ImportPipeProps.v
theories/IoLoop.v
theories/IoLoopProofs.v
theories/IoLoopProofs2.v
theories/IoLoopProofs3.v
theories/IoLoopProofs4.v
theories/IoLoopProofs5.v
theories/IoLoopProps.v
theories/IoLoopSpec.v
theories/Lifecycle.v
theories/LifecycleProofs.v
theories/LifecycleProps.v
theories/LifecycleSpec.v
theories/Limits.v
theories/LimitsProps.v
theories/ListLemmas.v
theories/LocalClient.v
theories/LocalClientProps.v
theories/Manifest.v
theories/ManifestProofs.v
theories/Monitor.v
theories/MonitorProps.v
theories/Origin.v
theories/OriginProofs.v
theories/OriginProofs2.v
theories/OriginProps.v
theories/Packet.v
theories/PacketProofs.v
theories/PacketProps.v
theories/PacketSpec.v
theories/Prepare.v
theories/PrepareProps.v
theories/Privs.v
theories/PrivsProps.v
theories/Query.v
theories/QueryProps.v
theories/ReadStream.v
theories/ReadStreamProofs.v
theories/ReadStreamProofs2.v
theories/ReadStreamProofs3.v
theories/ReadStreamProps.v
theories/Registry.v
theories/RegistryProofs.v
theories/RegistryProofs2.v
theories/RegistryProofs3.v
theories/RegistryProps.v
theories/RegistrySpec.v
theories/Repl.v
theories/ReplProps.v
theories/Routes.v
theories/RoutesProps.v
theories/RuntimeAsm.v
theories/RuntimeCheck.v
theories/RuntimeCheckProofs.v
theories/RuntimeDaemon.v
theories/RuntimeDaemonProps.v
theories/RuntimeDebugProofs.v
theories/RuntimeExitProofs.v
theories/RuntimeFun2Proofs.v
theories/RuntimeFunProofs.v
theories/RuntimeIo2Proofs.v
theories/RuntimeIoProofs.v
theories/RuntimeKernel.v
theories/RuntimeLinkProofs.v
theories/RuntimeLinkProps.v
theories/RuntimePollProofs.v
theories/RuntimeProps.v
theories/RuntimeProps2.v
theories/RuntimeProps3.v
theories/RuntimeSched.v
theories/RuntimeSigProofs.v
theories/RuntimeSignalProofs.v
theories/RuntimeSpec.v
theories/RuntimeSuspendProofs.v
theories/RuntimeTimeProofs.v
theories/Sandbox.v
theories/SandboxProps.v
theories/SandboxSpec.v
theories/Scope.v
theories/ScopeProps.v
theories/Server.v
theories/Server2Proofs.v
theories/ServerProofs.v
theories/ServerProps.v
theories/ServerSpec.v
theories/ServerStart.v
theories/ServerStartProps.v
theories/ServiceLife.v
theories/ServiceLifeProps.v
theories/ServiceLifeSpec.v
theories/Shard.v
theories/ShardProps.v
theories/SnapshotLayout.v
theories/SnapshotLayoutProofs.v
theories/SnapshotLayoutProps.v
theories/SnapshotLayoutSpec.v
theories/SnapshotProofs.v
theories/SnapshotProps.v
theories/SnapshotSections.v
theories/SnapshotSpec.v
theories/Stack.v
theories/StackProofs.v
theories/StackProps.v
theories/StackSpec.v
theories/Stopping.v
theories/StoppingProps.v
theories/Storage.v
theories/Storage2Proofs.v
theories/StorageProofs.v
theories/StorageProps.v
theories/StorageSpec.v
theories/StreamState.v
theories/StreamStateProofs.v
theories/StreamStateProps.v
theories/Upload.v
theories/UploadProps.v
theories/Varint.v
theories/VarintProofs.v
theories/VarintProps.v
theories/Vector.v
theories/VectorProps.v
theories/Wasm.v
theories/WebErrors.v
theories/WebErrorsProps.v
theories/Webmonitor.v
theories/WebmonitorProps.v
theories/Websocket.v
theories/WebsocketProps.v
theories/WebsocketSpec.v
theories/WriteStream.v
theories/WriteStreamProofs.v
theories/WriteStreamProofs2.v
theories/WriteStreamProofs3.v
theories/WriteStreamProofs4.v
theories/WriteStreamProofs5.v
theories/WriteStreamProps.v
