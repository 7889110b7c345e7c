-Q theories Verif
theories/ListUtil.v
theories/Bytes.v
theories/NMap.v
theories/StreamModel.v
theories/StreamSpec.v
theories/StreamInProofs.v
theories/StreamProofs.v
theories/StreamOutProofs.v
theories/StreamSendProofs.v
theories/StreamProps.v
theories/PrimModel.v
theories/PrimSpec.v
theories/PrimProofs.v
theories/PrimProps.v
theories/I2npModel.v
theories/GarlicModel.v
theories/I2npSpec.v
theories/I2npProofs.v
theories/GarlicProofs.v
theories/I2npProps.v
theories/PacketModel.v
theories/PacketSpec.v
theories/PacketProofs.v
theories/PacketProps.v
theories/EncModel.v
theories/EncSpec.v
theories/EncProofs.v
theories/EncProps.v
theories/PendingModel.v
theories/PendingProps.v
theories/I2cpModel.v
theories/I2cpSpec.v
theories/I2cpProofs.v
theories/I2cpProps.v
theories/Ntcp2Model.v
theories/Ntcp2Spec.v
theories/Ntcp2Proofs.v
theories/Ntcp2Props.v
theories/SamModel.v
theories/SamSpec.v
theories/SamProofs.v
theories/SamProps.v
theories/ListenerModel.v
theories/ListenerSpec.v
theories/ListenerProps.v
theories/TunnelModel.v
theories/TunnelSpec.v
theories/TunnelProofs.v
theories/TunnelProofs2.v
theories/TunnelProofs3.v
theories/TunnelProps.v
theories/Ssu2Model.v
theories/Ssu2Spec.v
theories/Ssu2Proofs.v
theories/Ssu2Proofs2.v
theories/Ssu2Proofs3.v
theories/Ssu2Proofs4.v
theories/Ssu2Proofs5.v
theories/Ssu2Props.v
theories/KadModel.v
theories/KadSpec.v
theories/KadProofs.v
theories/KadProofs2.v
theories/KadProofs3.v
theories/KadProps.v
theories/NetdbModel.v
theories/NetdbSpec.v
theories/NetdbProofs.v
theories/NetdbProofs2.v
theories/NetdbProofs3.v
theories/NetdbProofs4.v
theories/NetdbProofs5.v
theories/NetdbProofs6.v
theories/NetdbProps.v
theories/RatchetModel.v
theories/RatchetSpec.v
theories/RatchetProofs.v
theories/RatchetProofs2.v
theories/RatchetProofs3.v
theories/RatchetProofs4.v
theories/RatchetProofs5.v
theories/RatchetProofs6.v
theories/RatchetToy.v
theories/RatchetProps.v
theories/RouteModel.v
theories/RouteSpec.v
theories/RouteProofs.v
theories/RouteProofs2.v
theories/RouteProps.v
theories/NoiseModel.v
theories/TransitModel.v
theories/TransitSpec.v
theories/TransitProofs.v
theories/TransitProofs2.v
theories/TransitProofs3.v
theories/NoiseToy.v
theories/TransitProps.v
theories/BuildModel.v
theories/BuildSpec.v
theories/BuildProofs.v
theories/BuildProofs2.v
theories/BuildProofs3.v
theories/BuildProps.v
theories/DialModel.v
theories/DialSpec.v
theories/DialProofs.v
theories/DialProps.v
theories/ProfileModel.v
theories/SelectModel.v
theories/ProfileSpec.v
theories/ProfileProofs.v
theories/ProfileProps.v
theories/SelectSpec.v
theories/SelectProofs.v
theories/SelectProofs2.v
theories/SelectProps.v
theories/PrimProps2.v
theories/HandshakeModel.v
theories/HandshakeSpec.v
theories/HandshakeProofs.v
theories/HandshakeProofs2.v
theories/HandshakeProps.v
theories/Ssu2HsModel.v
theories/Ssu2HsSpec.v
theories/Ssu2HsProofs.v
theories/Ssu2HsProofs2.v
theories/Ssu2HsProofs3.v
theories/Ssu2HsProofs4.v
theories/Ssu2HsProofs5.v
theories/Ssu2HsProps.v
theories/FloodModel.v
theories/FloodSpec.v
theories/FloodProofs.v
theories/FloodProofs2.v
theories/FloodProofs3.v
theories/FloodProofs4.v
theories/FloodProps.v
theories/RpathModel.v
theories/RpathSpec.v
theories/RpathProofs.v
theories/RpathProofs2.v
theories/RpathProofs3.v
theories/RpathProps.v
theories/DestModel.v
theories/DestSpec.v
theories/DestProofs.v
theories/DestProofs2.v
theories/DestProofs3.v
theories/DestProps.v
theories/LsmModel.v
theories/LsmSpec.v
theories/LsmProofs.v
theories/LsmProofs2.v
theories/LsmProofs3.v
theories/LsmProps.v
theories/PctxModel.v
theories/PctxSpec.v
theories/PctxProofs.v
theories/PctxProofs2.v
theories/PctxProps.v
theories/PoolModel.v
theories/PoolSpec.v
theories/PoolProofs.v
theories/PoolProofs2.v
theories/PoolProofs3.v
theories/PoolProofs4.v
theories/PoolProps.v
theories/PoolProps2.v
theories/PoolProps3.v
theories/DestHandleSpec.v
theories/DestHandleProofs.v
theories/DestHandleProps.v
theories/SamSrvModel.v
theories/SamSrvSpec.v
theories/SamSrvProofs.v
theories/SamSrvProofs2.v
theories/SamSrvProps.v
theories/SamSessModel.v
theories/SamSessSpec.v
theories/SamSessProofs.v
theories/SamSessProofs2.v
theories/SamSessProofs3.v
theories/SamSessProps.v
theories/I2cpSessModel.v
theories/I2cpSessSpec.v
theories/I2cpSessProofs.v
theories/I2cpSessProofs2.v
theories/I2cpSessProofs3.v
theories/I2cpSessProofs4.v
theories/I2cpSessProps.v
theories/BookModel.v
theories/BookSpec.v
theories/BookProofs.v
theories/BookProofs2.v
theories/BookProofs3.v
theories/BookProps.v
theories/HttpModel.v
theories/HttpSpec.v
theories/HttpProofs.v
theories/HttpProps.v
theories/ShutModel.v
theories/ShutSpec.v
theories/ShutProofs.v
theories/ShutProofs2.v
theories/ShutProofs3.v
theories/ShutProofs4.v
theories/ShutProps.v
theories/ReseedModel.v
theories/ReseedSpec.v
theories/ReseedProofs.v
theories/ReseedProps.v
theories/BootModel.v
theories/BootSpec.v
theories/BootProofs.v
theories/BootProofs2.v
theories/BootProofs3.v
theories/BootProofs4.v
theories/BootProofs5.v
theories/BootProps.v
theories/TotalModel.v
theories/TotalSpec.v
theories/TotalProofs.v
theories/TotalProofs2.v
theories/TotalProps.v
theories/PmapModel.v
theories/PmapSpec.v
theories/PmapProofs.v
theories/PmapProofs2.v
theories/PmapProps.v
theories/ConfModel.v
theories/ConfSpec.v
theories/ConfProps.v
theories/CliTunModel.v
theories/CliTunSpec.v
theories/CliTunProps.v
theories/PubModel.v
theories/PubSpec.v
theories/PubProps.v
theories/SockModel.v
theories/SockSpec.v
theories/SockProps.v
theories/AcptModel.v
theories/AcptSpec.v
theories/AcptProps.v
theories/EncProps2.v
theories/Ntcp2Props2.v
theories/Ssu2HsProps2.v
theories/Ssu2Props2.v
