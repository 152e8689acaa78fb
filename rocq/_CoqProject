-Q theories Verif
theories/Base/Bytes.v
theories/Base/BytesFacts.v
theories/Model/Decoder.v
theories/Model/Encoder.v
theories/Model/CommandCodec.v
theories/Model/MacroStage.v
theories/Model/ReplyCodec.v
theories/Spec/FrameSpec.v
theories/Proofs/FramingProofs.v
theories/Proofs/FieldProofs.v
theories/Spec/CommandGrammar.v
theories/Proofs/CommandProofs.v
theories/Proofs/CommandStream.v
theories/Spec/ReplyGrammar.v
theories/Proofs/ReplyProofs.v
theories/Proofs/ReplyStream.v
theories/Proofs/ExampleOracles.v
theories/Proofs/CodecLemmas.v
theories/Props/P01_Stream.v
theories/Props/P02_Codec.v
theories/Model/Status.v
theories/Model/Option.v
theories/Spec/VerdictSpec.v
theories/Proofs/VerdictProofs.v
theories/Props/P03_Verdicts.v
theories/Model/Headers.v
theories/Model/Macros.v
theories/Spec/HeaderSpec.v
theories/Spec/MacroSpec.v
theories/Proofs/HeaderProofs.v
theories/Proofs/HeaderReport.v
theories/Props/P04_Headers.v
theories/Proofs/MacroProofs.v
theories/Props/P05_Macros.v
theories/Model/ReplyCode.v
theories/Model/Client.v
theories/Model/Server.v
theories/Spec/ReplyCodeSpec.v
theories/Spec/ClientSpec.v
theories/Spec/ServerSpec.v
theories/Proofs/ReplyCodeProofs.v
theories/Proofs/ClientProofs.v
theories/Proofs/ClientSession.v
theories/Proofs/ClientFacts.v
theories/Proofs/ServerInv.v
theories/Proofs/ServerFacts.v
theories/Proofs/ServerAnswers.v
theories/Proofs/ServerBody.v
theories/Proofs/ServerOnce.v
theories/Proofs/ServerRecipients.v
theories/Proofs/ServerTimer.v
theories/Props/P06_Client.v
theories/Props/P07_Server.v
theories/Model/FileMode.v
theories/Spec/ParseSpec.v
theories/Proofs/ParseProofs.v
theories/Model/Esmtp.v
theories/Spec/EsmtpSpec.v
theories/Proofs/EsmtpProofs.v
theories/Model/ConnectionSpec.v
theories/Spec/ConnectionSpecSpec.v
theories/Proofs/ConnectionSpecProofs.v
theories/Props/P08_Parsing.v
theories/Props/P09_Manager.v
theories/Props/P10_Message.v
theories/Props/P11_Negotiation.v
theories/Model/Children.v
theories/Model/Leader.v
theories/Model/Writer.v
theories/Spec/ManagerSpec.v
theories/Spec/LeaderSpec.v
theories/Spec/MessageSpec.v
theories/Spec/CourseSpec.v
theories/Spec/NegotiationSpec.v
theories/Spec/WriterSpec.v
theories/Proofs/ChildrenLemmas.v
theories/Proofs/ChildrenStage.v
theories/Proofs/ChildrenOut.v
theories/Proofs/LeaderProofs.v
theories/Proofs/MessageProofs.v
theories/Proofs/CourseProofs.v
theories/Proofs/NegotiationProofs.v
theories/Proofs/WriterProofs.v
theories/Props/P12_Writer.v
theories/Model/Reader.v
theories/Model/Signals.v
theories/Model/Egg.v
theories/Model/Configuration.v
theories/Model/Control.v
theories/Model/Launcher.v
theories/Model/Libmilter.v
theories/Spec/ReaderSpec.v
theories/Spec/ControlSpec.v
theories/Spec/LauncherSpec.v
theories/Spec/LibmilterSpec.v
theories/Spec/EggSpec.v
theories/Proofs/ReaderProofs.v
theories/Proofs/WireProofs.v
theories/Proofs/ControlProofs.v
theories/Proofs/LauncherProofs.v
theories/Proofs/LibmilterProofs.v
theories/Proofs/EggProofs.v
theories/Props/P13_Reader.v
theories/Props/P14_Control.v
theories/Props/P15_Launcher.v
theories/Props/P16_Egg.v
theories/Props/P17_Libmilter.v
theories/Model/Service.v
theories/Spec/ServiceSpec.v
theories/Proofs/ServiceProofs.v
theories/Props/P18_Service.v
theories/Model/Startup.v
theories/Spec/StartupSpec.v
theories/Proofs/StartupProofs.v
theories/Props/P19_Startup.v
theories/Model/Sessions.v
theories/Spec/SessionsSpec.v
theories/Proofs/SessionsProofs.v
theories/Props/P20_Sessions.v
theories/Model/Options.v
theories/Spec/OptionsSpec.v
theories/Proofs/OptionsProofs.v
theories/Props/P21_Options.v
theories/Model/EventLoop.v
theories/Spec/EventLoopSpec.v
theories/Proofs/EventLoopProofs.v
theories/Props/P22_EventLoop.v
theories/Props/P23_Course.v
theories/Props/P24_Timeouts.v
theories/Model/TestMessage.v
theories/Spec/MailSpec.v
theories/Proofs/MailProofs.v
theories/Proofs/MailRun.v
theories/Props/P25_TestMessage.v
theories/Model/TestReport.v
theories/Spec/ReportSpec.v
theories/Proofs/ReportProofs.v
theories/Props/P26_TestReport.v
theories/Model/TestServer.v
theories/Spec/ConversationSpec.v
theories/Proofs/ConversationProofs.v
theories/Proofs/ConversationRun.v
theories/Props/P27_TestServer.v
theories/Spec/MacroHistorySpec.v
theories/Proofs/ServerMacros.v
theories/Props/P28_MacroHistory.v
theories/Model/TestOptions.v
theories/Spec/TestOptionsSpec.v
theories/Props/P29_TestOptions.v
theories/Proofs/ServerCalls.v
theories/Proofs/TestMacros.v
theories/Spec/TestMacroSpec.v
theories/Props/P30_TestMacros.v
theories/Model/Logger.v
theories/Spec/LoggerSpec.v
theories/Proofs/LoggerProofs.v
theories/Props/P31_Logger.v
theories/Model/ConfigXml.v
theories/Spec/XmlSpec.v
theories/Proofs/XmlProofs.v
theories/Props/P32_ConfigXml.v
theories/Model/PostfixTable.v
theories/Spec/PostfixSpec.v
theories/Proofs/PostfixProofs.v
theories/Props/P33_Postfix.v
theories/Model/ConfigDump.v
theories/Spec/RubySpec.v
theories/Proofs/DumpProofs.v
theories/Proofs/DumpLoad.v
theories/Props/P34_ShowConfig.v
theories/Model/Conditions.v
theories/Model/SenderRules.v
theories/Spec/ConditionSpec.v
theories/Spec/ConditionLibrarySpec.v
theories/Proofs/ConditionProofs.v
theories/Proofs/SenderRuleProofs.v
theories/Proofs/ConditionLibrary.v
theories/Proofs/ConditionAccounts.v
theories/Props/P35_Conditions.v
theories/Props/P36_ConditionLibrary.v
theories/Model/RubySession.v
theories/Model/EnvelopeAddress.v
theories/Spec/RubySessionSpec.v
theories/Spec/EnvelopeAddressSpec.v
theories/Proofs/RubySessionProofs.v
theories/Proofs/RubyCompositeProofs.v
theories/Proofs/RubyMethodProofs.v
theories/Proofs/EnvelopeAddressProofs.v
theories/Props/P37_RubySessions.v
theories/Props/P38_EnvelopeAddress.v
theories/Model/Netstat.v
theories/Model/Breaker.v
theories/Spec/NetstatSpec.v
theories/Spec/BreakerSpec.v
theories/Proofs/NetstatProofs.v
theories/Proofs/BreakerProofs.v
theories/Props/P39_Netstat.v
theories/Props/P40_Breaker.v
theories/Spec/MessageReportSpec.v
theories/Proofs/MessageReportProofs.v
theories/Props/P41_MessageReport.v
theories/Model/Detect.v
theories/Spec/DetectSpec.v
theories/Proofs/DetectProofs.v
theories/Proofs/GreylistProofs.v
theories/Proofs/ShellProofs.v
theories/Proofs/UnitProofs.v
theories/Props/P42_Detect.v
theories/Spec/RecipientSpec.v
theories/Proofs/RecipientReport.v
theories/Props/P43_Recipients.v
theories/Model/RcDetect.v
theories/Spec/RcSpec.v
theories/Proofs/ScriptProofs.v
theories/Proofs/RcProofs.v
theories/Props/P44_RcScripts.v
theories/Model/InitDetect.v
theories/Spec/InitSpec.v
theories/Proofs/InitProofs.v
theories/Props/P45_InitScripts.v
theories/Spec/InfoSpec.v
theories/Proofs/InfoProofs.v
theories/Props/P46_Descriptions.v
theories/Model/PlatformDetect.v
theories/Spec/PlatformSpec.v
theories/Proofs/PlatformProofs.v
theories/Props/P47_Platforms.v
theories/Model/RspamdProxy.v
theories/Spec/RspamdSpec.v
theories/Props/P48_Rspamd.v
theories/Model/ClientConfig.v
theories/Spec/ClientConfigSpec.v
theories/Props/P49_ClientConfig.v
theories/Model/Shelf.v
theories/Spec/ShelfSpec.v
theories/Props/P50_Shelf.v
