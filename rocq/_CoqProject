-Q theories Verif
theories/Model/Activation.v
theories/Model/AttachClient.v
theories/Model/Base.v
theories/Model/Chunk.v
theories/Model/Commands.v
theories/Model/Config.v
theories/Model/ConfigWatcher.v
theories/Model/Control.v
theories/Model/Daemonize.v
theories/Model/Dial.v
theories/Model/Doors.v
theories/Model/Duration.v
theories/Model/EndToEnd.v
theories/Model/EtcEnvironment.v
theories/Model/EventBus.v
theories/Model/EventsEnd.v
theories/Model/ExitLatch.v
theories/Model/Following.v
theories/Model/Forks.v
theories/Model/Handshake.v
theories/Model/Hooks.v
theories/Model/Input.v
theories/Model/Json.v
theories/Model/Keybindings.v
theories/Model/Launch.v
theories/Model/Logging.v
theories/Model/Main.v
theories/Model/Messages.v
theories/Model/Motd.v
theories/Model/Msgpack.v
theories/Model/Names.v
theories/Model/Pager.v
theories/Model/Pipe.v
theories/Model/Protocol.v
theories/Model/Reaper.v
theories/Model/Restore.v
theories/Model/Sentinel.v
theories/Model/Server.v
theories/Model/SessionFiles.v
theories/Model/ShellEnv.v
theories/Model/ShellToClient.v
theories/Model/Sleep.v
theories/Model/Spawn.v
theories/Model/Streaming.v
theories/Model/Template.v
theories/Model/Trie.v
theories/Model/Tty.v
theories/Model/UserInfo.v
theories/Model/Version.v
theories/Model/WholeCommand.v
theories/Model/Winch.v
theories/Model/Window.v
theories/Proofs/AttachClientProofs.v
theories/Proofs/BaseLemmas.v
theories/Proofs/ChunkProofs.v
theories/Proofs/CommandsProofs.v
theories/Proofs/ConfigProofs.v
theories/Proofs/ConfigWatcherProofs.v
theories/Proofs/ControlLive.v
theories/Proofs/ControlProofs.v
theories/Proofs/ControlStuck.v
theories/Proofs/DaemonizeProofs.v
theories/Proofs/DurationProofs.v
theories/Proofs/EndToEndProofs.v
theories/Proofs/EtcEnvironmentProofs.v
theories/Proofs/EventBusMore.v
theories/Proofs/EventBusProofs.v
theories/Proofs/ExitLatchProofs.v
theories/Proofs/FollowingProofs.v
theories/Proofs/ForksLocks.v
theories/Proofs/ForksMind.v
theories/Proofs/ForksMore.v
theories/Proofs/ForksProofs.v
theories/Proofs/FrameFilesProofs.v
theories/Proofs/FrameProofs.v
theories/Proofs/HandshakeProofs.v
theories/Proofs/HooksProofs.v
theories/Proofs/InStepProofs.v
theories/Proofs/InputProofs.v
theories/Proofs/JsonProofs.v
theories/Proofs/KeyErrorsProofs.v
theories/Proofs/KeybindingProofs.v
theories/Proofs/LaunchProofs.v
theories/Proofs/LoggingProofs.v
theories/Proofs/MessageTextProofs.v
theories/Proofs/MessagesProofs.v
theories/Proofs/MotdProofs.v
theories/Proofs/MsgpackProofs.v
theories/Proofs/NamesProofs.v
theories/Proofs/NumeralProofs.v
theories/Proofs/OutputProofs.v
theories/Proofs/PipeEnds.v
theories/Proofs/PipeProofs.v
theories/Proofs/ReaperThreadProofs.v
theories/Proofs/ReapingProofs.v
theories/Proofs/SentinelProofs.v
theories/Proofs/ServerCounts.v
theories/Proofs/ServerEvents.v
theories/Proofs/ServerGossip.v
theories/Proofs/ServerMoves.v
theories/Proofs/ServerProofs.v
theories/Proofs/ServerReaper.v
theories/Proofs/SessionFilesProofs.v
theories/Proofs/ShellEnvProofs.v
theories/Proofs/ShellToClientProofs.v
theories/Proofs/SleepProofs.v
theories/Proofs/SpawnProofs.v
theories/Proofs/StreamingProofs.v
theories/Proofs/TemplateProofs.v
theories/Proofs/TrieProofs.v
theories/Proofs/TtyProofs.v
theories/Proofs/TurnProofs.v
theories/Proofs/UserInfoProofs.v
theories/Proofs/VarsProofs.v
theories/Proofs/VersionProofs.v
theories/Proofs/WholeCommandProofs.v
theories/Proofs/WholeEnds.v
theories/Proofs/WholeServer.v
theories/Proofs/WholeServes.v
theories/Proofs/WinchProofs.v
theories/Proofs/WindowProofs.v
theories/Proofs/WireProofs.v
theories/Properties/C01_Framing.v
theories/Properties/C02_FramesFit.v
theories/Properties/C03_Version.v
theories/Properties/C04_Duration.v
theories/Properties/C05_Template.v
theories/Properties/C06_Trie.v
theories/Properties/C07_KeyLanguage.v
theories/Properties/C08_KeyRecognition.v
theories/Properties/C09_Input.v
theories/Properties/C10_Snip.v
theories/Properties/C11_Sentinel.v
theories/Properties/C12_Output.v
theories/Properties/C13_ExitFrame.v
theories/Properties/C14_WindowSize.v
theories/Properties/C15_OneClient.v
theories/Properties/C16_Refused.v
theories/Properties/C17_Outlive.v
theories/Properties/C18_Kill.v
theories/Properties/C19_List.v
theories/Properties/C20_Events.v
theories/Properties/C21_Pairing.v
theories/Properties/C22_Reaper.v
theories/Properties/C23_Cleanup.v
theories/Properties/C24_Creation.v
theories/Properties/C25_Control.v
theories/Properties/C26_Variables.v
theories/Properties/C27_Switching.v
theories/Properties/C28_Events.v
theories/Properties/C29_Names.v
theories/Properties/C30_ShellEnv.v
theories/Properties/C31_EtcEnvironment.v
theories/Properties/C32_Config.v
theories/Properties/C33_Watching.v
theories/Properties/C34_Motd.v
theories/Properties/C35_ForcedAttach.v
theories/Properties/C36_ExitCode.v
theories/Properties/C37_Targets.v
theories/Properties/C38_Launch.v
theories/Properties/C39_SecondDaemon.v
theories/Properties/C40_Kill.v
theories/Properties/C41_Sleep.v
theories/Properties/C42_Terminal.v
theories/Properties/C43_Skew.v
theories/Properties/C44_Restore.v
theories/Properties/C45_ExitLatch.v
theories/Properties/C46_DetachReply.v
theories/Properties/C47_Pager.v
theories/Properties/C48_Spawn.v
theories/Properties/C49_AttachRequest.v
theories/Properties/C50_Records.v
theories/Properties/C51_Prompt.v
theories/Properties/C52_EnvFile.v
theories/Properties/C53_Stop.v
theories/Properties/C54_Instances.v
theories/Properties/C55_Launched.v
theories/Properties/C56_ListOutput.v
theories/Properties/C57_VarOutput.v
theories/Properties/C58_Hooks.v
theories/Properties/C59_WindowReports.v
theories/Properties/C60_SocketActivation.v
theories/Properties/C61_Dialling.v
theories/Properties/C61_TooLate.v
theories/Properties/C62_EndToEnd.v
theories/Properties/C63_OutputThread.v
theories/Properties/C64_Attachment.v
theories/Properties/C65_AttachmentEnds.v
theories/Properties/C66_Json.v
theories/Properties/C67_Handshake.v
theories/Properties/C68_Daemonizing.v
theories/Properties/C69_FollowingConfig.v
theories/Properties/C70_Deadlines.v
theories/Properties/C71_WhereSessionsStart.v
theories/Properties/C72_SessionFiles.v
theories/Properties/C73_OtherUsers.v
theories/Properties/C74_Window.v
theories/Properties/C75_LetGo.v
theories/Properties/C76_InStep.v
theories/Properties/C77_Reaping.v
theories/Properties/C78_AttachmentAndDaemon.v
theories/Properties/C79_Following.v
theories/Properties/C80_WholeCommand.v
theories/Properties/C81_Logs.v
theories/Properties/C82_Main.v
theories/Properties/C83_EventsEnd.v
theories/Spec/ActivationSpec.v
theories/Spec/AttachmentEndSpec.v
theories/Spec/ClientSpec.v
theories/Spec/CommandsSpec.v
theories/Spec/ConfigSpec.v
theories/Spec/ConfigWatcherSpec.v
theories/Spec/ControlSpec.v
theories/Spec/DaemonizeSpec.v
theories/Spec/DoorsSpec.v
theories/Spec/EndToEndSpec.v
theories/Spec/EnvFileSpec.v
theories/Spec/EtcEnvironmentSpec.v
theories/Spec/EventBusSpec.v
theories/Spec/FollowingSpec.v
theories/Spec/ForksSpec.v
theories/Spec/HandshakeSpec.v
theories/Spec/HooksSpec.v
theories/Spec/InStepSpec.v
theories/Spec/InputSpec.v
theories/Spec/JsonSpec.v
theories/Spec/KeyErrorsSpec.v
theories/Spec/KeySpec.v
theories/Spec/LaunchSpec.v
theories/Spec/LoggingSpec.v
theories/Spec/MainSpec.v
theories/Spec/MessageSpec.v
theories/Spec/MessagesSpec.v
theories/Spec/MotdSpec.v
theories/Spec/Numerals.v
theories/Spec/OutputExamples.v
theories/Spec/OutputSpec.v
theories/Spec/PathSpec.v
theories/Spec/PipeSpec.v
theories/Spec/ReaperSpec.v
theories/Spec/ReaperThreadSpec.v
theories/Spec/ReapingSpec.v
theories/Spec/SentinelSpec.v
theories/Spec/ServerExamples.v
theories/Spec/ServerSpec.v
theories/Spec/SessionFilesSpec.v
theories/Spec/ShellEnvSpec.v
theories/Spec/SleepSpec.v
theories/Spec/SpawnSpec.v
theories/Spec/StreamingSpec.v
theories/Spec/TemplateSpec.v
theories/Spec/TrieSpec.v
theories/Spec/TtySpec.v
theories/Spec/TurnSpec.v
theories/Spec/UnicodeSpec.v
theories/Spec/UserInfoSpec.v
theories/Spec/WholeCommandSpec.v
theories/Spec/WinchSpec.v
theories/Spec/WindowSpec.v
theories/Spec/Wire.v
theories/Spec/WireSpec.v
