-Q theories Verif
theories/Base.v
theories/BaseFacts.v
theories/TclModel.v
theories/TclSpec.v
theories/TclProofs.v
theories/TclProps.v
theories/EncoderModel.v
theories/EncoderProofs.v
theories/HexModel.v
theories/HexSpec.v
theories/HexProofs.v
theories/HexProps.v
theories/Base64Model.v
theories/Base64Spec.v
theories/Base64Proofs.v
theories/Base64Props.v
theories/Ctype.v
theories/CstrModel.v
theories/CstrSpec.v
theories/CstrProofs.v
theories/CstrProps.v
theories/UrlModel.v
theories/UrlSpec.v
theories/UrlProofs.v
theories/UrlProps.v
theories/BackslashModel.v
theories/BackslashSpec.v
theories/BackslashProofs.v
theories/BackslashProps.v
theories/CryptModel.v
theories/CryptSpec.v
theories/CryptProofs.v
theories/CryptProps.v
theories/BufModel.v
theories/BufSpec.v
theories/BufGeneric.v
theories/BufCirc.v
theories/BufDyn.v
theories/BufProofs.v
theories/BufProps.v
theories/MagicModel.v
theories/MagicSpec.v
theories/MagicProofs.v
theories/MagicProps.v
theories/ListModel.v
theories/ListSpec.v
theories/ListProofs.v
theories/ListProps.v
theories/HashModel.v
theories/HashSpec.v
theories/HashProofs.v
theories/HashProps.v
theories/ScatterModel.v
theories/ScatterSpec.v
theories/ScatterProofs.v
theories/ScatterProps.v
theories/DecSpec.v
theories/IntFmtModel.v
theories/IntFmtProofs.v
theories/IntFmtProps.v
theories/CowModel.v
theories/CowSpec.v
theories/CowProofs.v
theories/CowProps.v
theories/FormatModel.v
theories/FormatSpec.v
theories/FormatProofs.v
theories/FormatProps.v
theories/SplitModel.v
theories/SplitSpec.v
theories/SplitProofs.v
theories/SplitProps.v
theories/KeyModel.v
theories/KeySpec.v
theories/KeyProofs.v
theories/KeyProps.v
theories/KeyHeapModel.v
theories/KeyHeapSpec.v
theories/KeyHeapProofs.v
theories/KeyHeapProps.v
theories/TempModel.v
theories/TempSpec.v
theories/TreeProofs.v
theories/TempProofs.v
theories/TempProps.v
theories/DeltaModel.v
theories/DeltaSpec.v
theories/DeltaProofs.v
theories/DeltaProps.v
theories/TxnModel.v
theories/TxnSpec.v
theories/TxnProofs.v
theories/TxnProofs2.v
theories/TxnProofs3.v
theories/TxnProofs4.v
theories/TxnProps.v
theories/MountModel.v
theories/MountSpec.v
theories/MountProofs.v
theories/MountProps.v
theories/StrIntModel.v
theories/StrIntSpec.v
theories/StrIntProofs.v
theories/StrIntProps.v
theories/PermModel.v
theories/PermSpec.v
theories/PermProofs.v
theories/PermProps.v
theories/TimeModel.v
theories/TimeSpec.v
theories/TimeProofs.v
theories/TimeProps.v
theories/IpModel.v
theories/IpSpec.v
theories/IpProofs.v
theories/IpProps.v
theories/QueueModel.v
theories/QueueSpec.v
theories/QueueProofs.v
theories/QueueProofs2.v
theories/QueueProps.v
theories/LogModel.v
theories/LogSpec.v
theories/LogProofs.v
theories/LogProofs2.v
theories/LogProps.v
theories/StreamModel.v
theories/StreamSpec.v
theories/StreamProofs.v
theories/StreamProofs2.v
theories/StreamProofs3.v
theories/StreamProps.v
theories/FileModel.v
theories/FileSpec.v
theories/FileProofs.v
theories/FileProofs2.v
theories/FileProps.v
theories/IniModel.v
theories/IniSpec.v
theories/IniProofs.v
theories/IniProofs2.v
theories/IniProofs3.v
theories/IniProofs4.v
theories/IniProps.v
theories/RemoteModel.v
theories/RemoteSpec.v
theories/RemoteProofs.v
theories/RemoteProofs2.v
theories/RemoteProofs3.v
theories/RemoteProofs4.v
theories/RemoteProofs5.v
theories/RemoteProps.v
theories/WatchModel.v
theories/WatchSpec.v
theories/WatchProofs.v
theories/WatchProofs2.v
theories/WatchProps.v
theories/RefreshModel.v
theories/RefreshSpec.v
theories/RefreshProofs.v
theories/RefreshProps.v
theories/LayerModel.v
theories/LayerSpec.v
theories/LayerProofs.v
theories/LayerProps.v
theories/RecModel.v
theories/RecProofs.v
theories/RecProps.v
theories/FeedProofs.v
theories/CacheModel.v
theories/CacheProofs.v
theories/CacheProps.v
theories/FastModel.v
theories/FastProofs.v
theories/FastProps.v
theories/ReplModel.v
theories/ReplProofs.v
theories/ReplProps.v
theories/DefModel.v
theories/DefSpec.v
theories/DefProofs.v
theories/DefProps.v
theories/SerModel.v
theories/SerSpec.v
theories/SerProofs.v
theories/SerProps.v
theories/HrefModel.v
theories/HrefSpec.v
theories/HrefProofs.v
theories/HrefProps.v
theories/GlobModel.v
theories/GlobSpec.v
theories/GlobProofs.v
theories/GlobProps.v
theories/SlistModel.v
theories/SlistSpec.v
theories/SlistProofs.v
theories/SlistProps.v
theories/StrModel.v
theories/StrSpec.v
theories/StrProofs.v
theories/StrProps.v
theories/NumFmtModel.v
theories/NumFmtSpec.v
theories/NumFmtProofs.v
theories/NumFmtProps.v
theories/EStreamModel.v
theories/EStreamSpec.v
theories/EStreamProofs.v
theories/EStreamInst.v
theories/EStreamProps.v
theories/ConfModel.v
theories/ConfSpec.v
theories/ConfProofs.v
theories/ConfProofs2.v
theories/ConfProofs3.v
theories/ConfProps.v
theories/WrapModel.v
theories/WrapSpec.v
theories/WrapProofs.v
theories/WrapProofs2.v
theories/WrapProofs3.v
theories/WrapProps.v
theories/HttpModel.v
theories/HttpSpec.v
theories/HttpProofs.v
theories/HttpProofs2.v
theories/HttpProofs3.v
theories/HttpProps.v
theories/LockModel.v
theories/LockSpec.v
theories/LockProofs.v
theories/LockProofs2.v
theories/LockProofs3.v
theories/LockProps.v
theories/DbusServModel.v
theories/DbusServSpec.v
theories/DbusServProofs.v
theories/DbusServProps.v
theories/DbusConnModel.v
theories/DbusConnSpec.v
theories/DbusConnProofs.v
theories/DbusConnProps.v
theories/ContModel.v
theories/ContSpec.v
theories/ContProofs.v
theories/ContProps.v
theories/FtpModel.v
theories/FtpSpec.v
theories/FtpDates.v
theories/FtpProofs.v
theories/FtpTrips.v
theories/FtpUnix.v
theories/FtpOther.v
theories/FtpProps.v
theories/RetrySpec.v
theories/RetryModel.v
theories/RetryProofs.v
theories/RetryProps.v
theories/PoolModel.v
theories/PoolProofs.v
theories/PoolRuns.v
theories/PoolEnds.v
theories/PoolProps.v
theories/DailySpec.v
theories/DailyModel.v
theories/DailyProofs.v
theories/DailyProps.v
theories/RateSpec.v
theories/RateModel.v
theories/RateProofs.v
theories/RateProps.v
theories/AttrSpec.v
theories/AttrModel.v
theories/AttrProofs.v
theories/AttrProps.v
theories/AlarmSpec.v
theories/AlarmModel.v
theories/AlarmProofs.v
theories/AlarmProps.v
theories/TickSpec.v
theories/TickModel.v
theories/TickProofs.v
theories/TickProps.v
theories/MonikSpec.v
theories/MonikModel.v
theories/MonikProofs.v
theories/MonikProps.v
theories/ProtoSpec.v
theories/ProtoModel.v
theories/ProtoProofs.v
theories/ProtoProps.v
theories/MatrixSpec.v
theories/MatrixModel.v
theories/MatrixProofs.v
theories/MatrixProps.v
theories/UuidSpec.v
theories/UuidModel.v
theories/UuidProofs.v
theories/UuidProps.v
theories/ServSpec.v
theories/ServModel.v
theories/ServProofs.v
theories/ServProps.v
theories/HexdSpec.v
theories/HexdModel.v
theories/HexdProofs.v
theories/HexdProps.v
theories/RotSpec.v
theories/RotModel.v
theories/RotProofs.v
theories/RotProps.v
theories/CopySpec.v
theories/CopyModel.v
theories/CopyProofs.v
theories/CopyProps.v
theories/WverSpec.v
theories/WverModel.v
theories/WverProofs.v
theories/WverProps.v
theories/FsgSpec.v
theories/FsgModel.v
theories/FsgProofs.v
theories/FsgProps.v
theories/DiriSpec.v
theories/DiriModel.v
theories/DiriProofs.v
theories/DiriProps.v
theories/ScacModel.v
theories/ScacProofs.v
theories/ScacProps.v
theories/VerSpec.v
theories/VerModel.v
theories/VerProofs.v
theories/VerProps.v
theories/DigSpec.v
theories/DigModel.v
theories/DigProofs.v
theories/DigProps.v
theories/SortSpec.v
theories/SortModel.v
theories/SortProofs.v
theories/SortProps.v
theories/AlsSpec.v
theories/AlsModel.v
theories/AlsProofs.v
theories/AlsProps.v
theories/FwSpec.v
theories/FwModel.v
theories/FwProofs.v
theories/FwProps.v
theories/RouteSpec.v
theories/RouteModel.v
theories/RouteProofs.v
theories/RouteProps.v
theories/SubSpec.v
theories/SubModel.v
theories/SubProofs.v
theories/SubProps.v
