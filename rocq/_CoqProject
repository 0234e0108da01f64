-Q theories Verif
theories/AnnounceModel.v
theories/AnnounceProps.v
theories/Asn1Grammar.v
theories/Asn1LocalProofs.v
theories/Asn1Model.v
theories/Asn1PartProps.v
theories/Asn1PrintProps.v
theories/Asn1Proofs.v
theories/Asn1Proofs2.v
theories/Asn1Proofs3.v
theories/Asn1Props.v
theories/Asn1Props2.v
theories/Asn1Spec.v
theories/Asn1ToolModel.v
theories/Asn1ToolProps.v
theories/Asn1Wrong.v
theories/Asn1WrongProofs.v
theories/Asn1WrongProps.v
theories/Base.v
theories/BaseProofs.v
theories/BencodeModel.v
theories/BencodePathModel.v
theories/BencodePathProps.v
theories/BencodeProofs.v
theories/BencodeProofs2.v
theories/BencodeProps.v
theories/BencodeSpec.v
theories/BinaryModel.v
theories/BinaryProofs.v
theories/BinaryProofs2.v
theories/BinaryProps.v
theories/BinarySpec.v
theories/BitswapLogModel.v
theories/BitswapLogProps.v
theories/BitswapModel.v
theories/BlockModel.v
theories/CaModel.v
theories/CaProps.v
theories/ChatModel.v
theories/ChatProps.v
theories/ChatProps2.v
theories/CheckProgModel.v
theories/CheckProgProps.v
theories/CidModel.v
theories/CidProofs.v
theories/CidProps.v
theories/CidSpec.v
theories/CidTextModel.v
theories/CidTextProofs.v
theories/CidTextSpec.v
theories/CliModel.v
theories/CliProps.v
theories/ConversationSpec.v
theories/DagPbModel.v
theories/DebugModel.v
theories/DebugProofs.v
theories/DebugProofs2.v
theories/DebugProps.v
theories/DebugSpec.v
theories/DemoModel.v
theories/DemoProps.v
theories/DownloadLogModel.v
theories/DownloadLogProps.v
theories/DownloadLogProps2.v
theories/DownloadMainModel.v
theories/DownloadMainProps.v
theories/DownloadModel.v
theories/DownloadProps.v
theories/DownloadProps2.v
theories/ExactTextProps.v
theories/FixedProps.v
theories/HandlerModel.v
theories/HandlerProps.v
theories/HexDumpModel.v
theories/HexDumpProps.v
theories/HoldProps.v
theories/IdModel.v
theories/IdProps.v
theories/IdentifyModel.v
theories/IpfsMainModel.v
theories/IpfsMainProps.v
theories/IpfsTextModel.v
theories/IpfsTextProps.v
theories/LpioModel.v
theories/LpioProofs.v
theories/LpioProps.v
theories/LpioSpec.v
theories/MessagePipeProps.v
theories/MessageProofs.v
theories/MessageProofs2.v
theories/MessageProofs3.v
theories/MessageProofs4.v
theories/MessageProps.v
theories/MessageSpec.v
theories/MplexLifeModel.v
theories/MplexLifeProofs.v
theories/MplexLifeProps.v
theories/MplexLogModel.v
theories/MplexLogProps.v
theories/MplexModel.v
theories/MplexPairProps.v
theories/MplexProofs.v
theories/MplexProofs2.v
theories/MplexProps.v
theories/MplexSendProps.v
theories/MplexStreamProofs.v
theories/MplexStreamProofs2.v
theories/MplexStreamProps.v
theories/MplexStreamSpec.v
theories/MultiaddrProofs.v
theories/MultibaseModel.v
theories/MultibaseProofs.v
theories/MultibaseProofs2.v
theories/MultibaseProofs3.v
theories/MultibaseProofs4.v
theories/MultibaseProps.v
theories/MultibaseSpec.v
theories/NamesModel.v
theories/NamesProps.v
theories/NodeLogModel.v
theories/NodeLogProps.v
theories/NodeLogProps2.v
theories/PeerExactProps.v
theories/PeerLogModel.v
theories/PeerLogProps.v
theories/PeerModel.v
theories/PeerProps.v
theories/PemErrorProps.v
theories/PemModel.v
theories/PemProps.v
theories/ProtobufModel.v
theories/ProtobufOps.v
theories/ProtobufProofs.v
theories/ProtobufProofs2.v
theories/ProtobufProps.v
theories/ProtobufSpec.v
theories/QuicCrashProps.v
theories/QuicModel.v
theories/QuicProofs.v
theories/QuicProofs2.v
theories/QuicProofs3.v
theories/QuicProofs4.v
theories/QuicProofs5.v
theories/QuicProofs6.v
theories/QuicProps.v
theories/QuicProps2.v
theories/QuicProps3.v
theories/QuicSpec.v
theories/QuicStreamProps.v
theories/QuicToolModel.v
theories/QuicToolProps.v
theories/RelayLogModel.v
theories/RelayLogProps.v
theories/RelayLogProps2.v
theories/RelayModel.v
theories/RelayProps.v
theories/RepoTests.v
theories/SecureMplexModel.v
theories/SecureMplexProps.v
theories/SecureMplexProps2.v
theories/SecureMplexSpec.v
theories/SeedProps.v
theories/SharperProps.v
theories/SimBothProps.v
theories/SimLogModel.v
theories/SimLogProps.v
theories/SimLogProps2.v
theories/SimModel.v
theories/SimProofs.v
theories/SimProofs2.v
theories/SimProps.v
theories/SimSpec.v
theories/SmallProps.v
theories/TemplateProps.v
theories/TemplateProps2.v
theories/TemplateProps3.v
theories/TemplateSpec.v
theories/TlsBlameModel.v
theories/TlsBlameProofs.v
theories/TlsBlameProps.v
theories/TlsClientModel.v
theories/TlsClientProofs.v
theories/TlsClientProofs2.v
theories/TlsClientProofs3.v
theories/TlsClientProofs4.v
theories/TlsClientProofs5.v
theories/TlsClientProofs6.v
theories/TlsClientProps.v
theories/TlsClientSpec.v
theories/TlsCodesModel.v
theories/TlsCrashProps.v
theories/TlsCrashProps2.v
theories/TlsExactProps.v
theories/TlsHonestProofs.v
theories/TlsHonestProofs2.v
theories/TlsHonestProofs3.v
theories/TlsHonestProps.v
theories/TlsHonestSpec.v
theories/TlsOpenProps.v
theories/TlsRecordModel.v
theories/TlsRecordProofs.v
theories/TlsRecordProps.v
theories/TlsRecordSpec.v
theories/TlsToolModel.v
theories/TlsToolProps.v
theories/TlsTypesModel.v
theories/TlsTypesProofs.v
theories/TlsTypesProofs2.v
theories/TlsTypesProofs3.v
theories/TlsTypesProofs4.v
theories/TlsTypesProps.v
theories/TlsTypesSpec.v
theories/TlsWakeModel.v
theories/TlsWakeProofs.v
theories/TlsWakeProps.v
theories/TlsWakeSpec.v
theories/ToolsModel.v
theories/ToolsProps.v
theories/TorrentExactProps.v
theories/TorrentExactSpec.v
theories/TorrentModel.v
theories/TorrentProps.v
theories/TorrentTextModel.v
theories/TorrentTextProps.v
theories/TrackerModel.v
theories/TrackerProps.v
theories/UnixfsModel.v
theories/UtilModel.v
theories/UtilProps.v
theories/VarintModel.v
theories/VarintProofs.v
theories/VarintProofs2.v
theories/VarintProps.v
theories/VarintSpec.v
theories/ViewProps.v
theories/WholeStackCase.v
theories/WholeStackProps.v
theories/X509ErrorModel.v
theories/X509ErrorProps.v
theories/X509ErrorProps2.v
theories/X509Model.v
theories/X509PrintModel.v
theories/X509PrintProps.v
theories/X509Proofs.v
theories/X509Props.v
theories/X509Props2.v
theories/X509Shape.v
theories/X509Spec.v
