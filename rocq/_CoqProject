-Q theories Verif

theories/Base.v
theories/SysInfo.v
theories/Token.v
theories/Rule.v
theories/Policy.v
theories/PolicyExec.v
theories/FileSys.v
theories/Loader.v
theories/Admin.v
theories/SpecPolicy.v
theories/SpecRule.v
theories/SpecLoader.v
theories/SpecAdmin.v
theories/TokenProofs.v
theories/MatchProofs.v
theories/EvalProofs.v
theories/AskProofs.v
theories/ExecProofs.v
theories/SysInfoProofs.v
theories/RuleProofs.v
theories/RulePrint.v
theories/Props_Policy.v
theories/TextProofs.v
theories/LoaderProofs.v
theories/SelectProofs.v
theories/LoaderExt.v
theories/Props_Loader.v
theories/AdminProofs.v
theories/AdminLoad.v
theories/Props_Admin.v
theories/Sanitize.v
theories/PolicyDaemon.v
theories/DaemonPolicy.v
theories/DaemonAgent.v
theories/SpecDaemon.v
theories/SpecAgent.v
theories/SpecCall.v
theories/SanitizeProofs.v
theories/DaemonProofs.v
theories/EvalSvc.v
theories/AgentProofs.v
theories/CallProofs.v
theories/ExecTool.v
theories/Props_Daemon.v
theories/DaemonState.v
theories/SpecState.v
theories/StateProofs.v
theories/CallsProofs.v
theories/Props_State.v
theories/Io.v
theories/IoProofs.v
theories/Stream.v
theories/SpecStream.v
theories/StreamProofs.v
theories/RemoteProofs.v
theories/ProcessIo.v
theories/SpecPio.v
theories/ProcessIoProofs.v
theories/PioProofs.v
theories/Props_Stream.v
theories/Props_Pio.v
theories/Exec.v
theories/SpecExec.v
theories/SpecLookup.v
theories/ExecCProofs.v
theories/LookupProofs.v
theories/EnvProofs.v
theories/Props_Exec.v
theories/Toml.v
theories/SpecToml.v
theories/TomlProofs.v
theories/Props_Toml.v
theories/Agent.v
theories/SpecMain.v
theories/MainProofs.v
theories/TriggerProofs.v
theories/Props_Main.v
theories/SpecUtf8.v
theories/Utf8Proofs.v
theories/SpecNotify.v
theories/Props_Notify.v
theories/Props_More.v
theories/Props_Ends.v
theories/Props_Clients.v
theories/SpecPortEnd.v
theories/PortEnd.v
theories/ExecuteVm.v
theories/SpecVm.v
theories/Props_Vm.v
theories/SpecMeet.v
theories/Props_Meet.v
theories/Handshake.v
theories/Props_Handshake.v
theories/AdminAccept.v
theories/Props_Accept.v
theories/Cache.v
theories/Props_Cache.v
theories/Props_Watch.v
theories/RegisterArgument.v
theories/SpecRegister.v
theories/RegProofs.v
theories/Props_Register.v
theories/Props_Also.v
theories/Dialog.v
theories/SpecDialog.v
theories/DialogProofs.v
theories/Props_Dialog.v
theories/Graph.v
theories/SpecGraph.v
theories/GraphProofs.v
theories/LoadAll.v
theories/Props_Graph.v
theories/LineLoader.v
theories/Convert.v
theories/SpecConvert.v
theories/ConvertProofs.v
theories/ConvertText.v
theories/ConvertFs.v
theories/ConvertRun.v
theories/Props_Convert.v
theories/Props_ConvertEx.v
theories/Lint.v
theories/SpecLint.v
theories/LintProofs.v
theories/Props_Lint.v
theories/SpecPlace.v
theories/Props_Place.v
theories/Editor.v
theories/SpecEditor.v
theories/Props_Editor.v
theories/Props_Cli.v
theories/ClientTools.v
theories/SpecClient.v
theories/ClientProofs.v
theories/Props_Client.v
theories/Props_Options.v
theories/Spawn.v
theories/SpecSpawn.v
theories/SpawnProofs.v
theories/Props_Spawn.v
theories/Login.v
theories/SpecLogin.v
theories/Props_Login.v
theories/Json.v
theories/SpecJson.v
theories/JsonProofs.v
theories/Server.v
theories/SpecServer.v
theories/Props_Server.v
theories/VchanTimeout.v
theories/SpecTimeout.v
theories/Props_Timeout.v
theories/Qubesd.v
theories/SpecQubesd.v
theories/Props_Qubesd.v
theories/PyClient.v
theories/Props_PyClient.v
theories/SocketDir.v
theories/SpecSocketDir.v
theories/Props_SocketDir.v
theories/DaemonStart.v
theories/SpecDaemonStart.v
theories/Props_DaemonStart.v
theories/Fds.v
theories/SpecFds.v
theories/Props_Fds.v
theories/DaemonLoop.v
theories/SpecDaemonLoop.v
theories/Props_DaemonLoop.v
theories/AgentLoop.v
theories/SpecAgentLoop.v
theories/Props_AgentLoop.v
theories/SpecAnswer.v
theories/Props_Answer.v
theories/Props_Running.v
theories/Props_GraphEnds.v
theories/UnixSocket.v
theories/SpecSocket.v
theories/Props_Socket.v
theories/ShippedPolicy.v
theories/Props_Shipped.v
theories/AgentStart.v
theories/SpecAgentStart.v
theories/Props_AgentStart.v
theories/SpecEndToEnd.v
theories/Props_EndToEnd.v
theories/Props_WholeCall.v
theories/WaitSession.v
theories/Props_Session.v
theories/Dom0Call.v
theories/Props_Dom0Call.v
theories/GraphFile.v
theories/Props_GraphFile.v
