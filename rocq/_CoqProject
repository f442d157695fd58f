-Q theories Verif

theories/MeasureModel.v
theories/MeasureProofs.v
theories/MeasureTheorems.v
theories/TicketModel.v
theories/TicketProofs.v
theories/TicketTheorems.v
theories/AuthModel.v
theories/AuthProofs.v
theories/AuthTheorems.v
theories/BytesLib.v
theories/OpsModel.v
theories/OpsProofs.v
theories/OpsTheorems.v
theories/FileModel.v
theories/FileSpec.v
theories/FileProofs.v
theories/FileTheorems.v
theories/HeaderModel.v
theories/HeaderSpec.v
theories/HeaderProofs.v
theories/HeaderTheorems.v
theories/HttpModel.v
theories/HttpSpec.v
theories/HttpProofs.v
theories/HttpTheorems.v
theories/ImagesModel.v
theories/ImagesSpec.v
theories/ImagesProofs.v
theories/ImagesTheorems.v
theories/NbdModel.v
theories/NbdSpec.v
theories/NbdProofs.v
theories/NbdTheorems.v
theories/ExtentsModel.v
theories/ExtentsSpec.v
theories/ExtentsProofs.v
theories/ExtentsTheorems.v
theories/HttpBackendModel.v
theories/HttpBackendSpec.v
theories/HttpBackendProofs.v
theories/HttpBackendTheorems.v
theories/BlkhashModel.v
theories/BlkhashSpec.v
theories/BlkhashProofs.v
theories/BlkhashTheorems.v
theories/ClientIoModel.v
theories/ClientIoSpec.v
theories/ClientIoProofs.v
theories/ClientIoSched.v
theories/ClientIoLive.v
theories/ClientIoTerm.v
theories/ClientIoTheorems.v
theories/NbdCopyModel.v
theories/NbdCopySpec.v
theories/NbdCopyProofs.v
theories/NbdCopyTheorems.v
theories/MemoryModel.v
theories/MemorySpec.v
theories/MemoryTheorems.v
theories/NbdBackendModel.v
theories/NbdBackendSpec.v
theories/NbdBackendProofs.v
theories/NbdBackendTheorems.v
theories/UrlModel.v
theories/UrlSpec.v
theories/UrlTheorems.v
theories/ControlModel.v
theories/ControlSpec.v
theories/ControlTheorems.v
theories/AuthRaceModel.v
theories/AuthRaceSpec.v
theories/AuthRaceTheorems.v
theories/ConfigModel.v
theories/ConfigSpec.v
theories/ConfigProofs.v
theories/ConfigTheorems.v
theories/HandshakeModel.v
theories/HandshakeSpec.v
theories/HandshakeProofs.v
theories/HandshakeTheorems.v
theories/TransferModel.v
theories/TransferSpec.v
theories/TransferProofs.v
theories/TransferTheorems.v
theories/StorageModel.v
theories/StorageSpec.v
theories/StorageProofs.v
theories/StorageSolo.v
theories/StorageCut.v
theories/StorageTheorems.v
theories/OvirtModel.v
theories/OvirtSpec.v
theories/OvirtProofs.v
theories/OvirtTime.v
theories/OvirtTheorems.v
theories/ChecksumModel.v
theories/ChecksumSpec.v
theories/ChecksumProofs.v
theories/ChecksumTheorems.v
theories/ChainModel.v
theories/ChainSpec.v
theories/ChainTheorems.v
theories/DaemonModel.v
theories/DaemonSpec.v
theories/DaemonProofs.v
theories/DaemonTheorems.v
theories/QemuNbdModel.v
theories/QemuNbdSpec.v
theories/QemuNbdProofs.v
theories/QemuNbdTheorems.v
theories/ApiModel.v
theories/ApiSpec.v
theories/ApiProofs.v
theories/ApiTheorems.v
theories/FloatLib.v
theories/ProgressModel.v
theories/ProgressSpec.v
theories/ProgressProofs.v
theories/ProgressTheorems.v
theories/ClockModel.v
theories/ClockSpec.v
theories/ClockProofs.v
theories/ClockTheorems.v
theories/AdminModel.v
theories/AdminSpec.v
theories/AdminProofs.v
theories/AdminTheorems.v
theories/ReplyModel.v
theories/ReplySpec.v
theories/ReplyProofs.v
theories/ReplyTheorems.v
theories/ResourceModel.v
theories/ResourceSpec.v
theories/ResourceProofs.v
theories/ResourceTheorems.v
theories/StreamModel.v
theories/StreamSpec.v
theories/StreamProofs.v
theories/StreamTheorems.v
theories/LibvirtModel.v
theories/LibvirtSpec.v
theories/LibvirtProofs.v
theories/LibvirtTheorems.v
theories/SessionModel.v
theories/SessionSpec.v
theories/SessionProofs.v
theories/SessionTheorems.v
theories/GoModel.v
theories/GoSpec.v
theories/GoProofs.v
theories/GoTheorems.v
theories/GoHttpModel.v
theories/GoHttpSpec.v
theories/GoHttpProofs.v
theories/GoHttpTheorems.v
theories/JsonModel.v
theories/JsonSpec.v
theories/JsonProofs.v
theories/JsonTheorems.v
theories/TermModel.v
theories/TermSpec.v
theories/TermProofs.v
theories/TermTheorems.v
theories/IdleModel.v
theories/IdleSpec.v
theories/IdleProofs.v
theories/IdleTheorems.v
theories/SignalModel.v
theories/SignalSpec.v
theories/SignalProofs.v
theories/SignalTheorems.v
theories/ShowModel.v
theories/ShowSpec.v
theories/ShowProofs.v
theories/ShowTheorems.v
theories/QemuImgModel.v
theories/QemuImgSpec.v
theories/QemuImgProofs.v
theories/QemuImgTheorems.v
theories/ListenModel.v
theories/ListenSpec.v
theories/ListenProofs.v
theories/ListenTheorems.v
theories/OpenModel.v
theories/OpenSpec.v
theories/OpenProofs.v
theories/OpenTheorems.v
theories/UuidModel.v
theories/UuidSpec.v
theories/UuidProofs.v
theories/UuidTheorems.v
theories/GoOpenModel.v
theories/GoOpenSpec.v
theories/GoOpenProofs.v
theories/GoOpenTheorems.v
theories/VersionModel.v
theories/VersionSpec.v
theories/VersionProofs.v
theories/VersionTheorems.v
theories/FeedModel.v
theories/FeedSpec.v
theories/FeedProofs.v
theories/FeedTheorems.v
