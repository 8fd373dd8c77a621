-Q theories Verif
theories/Base.v
theories/BaseLemmas.v
theories/Serial.v
theories/SerialSpec.v
theories/SerialProofs.v
theories/SerialProps.v
theories/DArray.v
theories/DArraySpec.v
theories/DArrayProofs.v
theories/DArrayProps.v
theories/Types.v
theories/HashSet.v
theories/DbTable.v
theories/Vrps.v
theories/VrpsSpec.v
theories/VrpsProofs.v
theories/VrpsProofs2.v
theories/VrpsProps.v
theories/PduWire.v
theories/PduWireSpec.v
theories/PduWireProofs.v
theories/CString.v
theories/PduHandler.v
theories/PduHandlerSpec.v
theories/PduHandlerProofs.v
theories/PduWireProps.v
theories/PduHandlerProps.v
theories/PduStream.v
theories/PduStreamSpec.v
theories/PduStreamProofs.v
theories/PduStreamProps.v
theories/Address.v
theories/AddressSpec.v
theories/AddressProofs.v
theories/AddressProps.v
theories/SArray.v
theories/SArraySpec.v
theories/SArrayProofs.v
theories/SArrayProps.v
theories/Asn1.v
theories/Resources.v
theories/ResourcesSpec.v
theories/ResourcesProofs.v
theories/ResourcesProofs2.v
theories/ResourcesProofs3.v
theories/ResourcesProofs4.v
theories/ResourcesProps.v
theories/Roa.v
theories/RoaSpec.v
theories/RoaProofs.v
theories/RoaProps.v
theories/CLib.v
theories/Slurm.v
theories/SlurmSpec.v
theories/SlurmProofs.v
theories/SlurmProofs2.v
theories/SlurmProofs3.v
theories/SlurmProofs4.v
theories/SlurmProps.v
theories/PathBuilder.v
theories/PathSpec.v
theories/PathProofs.v
theories/PathProofs2.v
theories/PathProofs3.v
theories/PathProofs4.v
theories/PathProps.v
theories/Rrdp.v
theories/RrdpSpec.v
theories/RrdpProofs.v
theories/RrdpProofs2.v
theories/RrdpProofs3.v
theories/RrdpProps.v
theories/LocalCache.v
theories/LocalCacheSpec.v
theories/LocalCacheProofs.v
theories/LocalCacheProofs2.v
theories/LocalCacheProps.v
theories/ThreadPool.v
theories/ThreadPoolProofs.v
theories/ThreadPoolProps.v
theories/CertStack.v
theories/CertStackSpec.v
theories/CertStackProofs.v
theories/CertStackProps.v
theories/Manifest.v
theories/ManifestSpec.v
theories/ManifestProofs.v
theories/ManifestProps.v
theories/Tal.v
theories/TalSpec.v
theories/TalProofs.v
theories/TalProps.v
theories/Text.v
theories/TextSpec.v
theories/TextProps.v
theories/Ber.v
theories/BerSpec.v
theories/BerProofs.v
theories/BerProofs2.v
theories/BerProofs3.v
theories/BerProofs4.v
theories/BerProofs5.v
theories/BerProps.v
theories/Oid.v
theories/OidSpec.v
theories/OidProofs.v
theories/OidProps.v
theories/SignedData.v
theories/SignedDataSpec.v
theories/SignedDataProofs.v
theories/SignedDataProps.v
theories/Asn1Dec.v
theories/Asn1DecSpec.v
theories/Asn1Types.v
theories/Asn1DecProofs.v
theories/Asn1DecProofs2.v
theories/Asn1DecProofs3.v
theories/Asn1DecProofs4.v
theories/Asn1DecProofs5.v
theories/Asn1DecProofs6.v
theories/Asn1DecProofs7.v
theories/Asn1DecProofs8.v
theories/Asn1DecProofs9.v
theories/Asn1DecProps.v
theories/Asn1Check.v
theories/Asn1Constraints.v
theories/Asn1CheckSpec.v
theories/Asn1CheckProofs.v
theories/Asn1CheckProps.v
theories/Objects.v
theories/ObjectsSpec.v
theories/ObjectsProofs.v
theories/ObjectsProofs2.v
theories/ObjectsProofs3.v
theories/ObjectsProofs4.v
theories/ObjectsProofs5.v
theories/ObjectsProps.v
theories/RoaBytes.v
theories/RoaBytesProps.v
theories/CertBytes.v
theories/CertBytesProps.v
theories/SignedObject.v
theories/SignedObjectSpec.v
theories/SignedObjectProofs.v
theories/SignedObjectProofs2.v
theories/SignedObjectProofs3.v
theories/SignedObjectProps.v
theories/Extensions.v
theories/ExtensionsSpec.v
theories/ExtensionsProofs.v
theories/ExtensionsProofs2.v
theories/ExtensionsProofs3.v
theories/ExtensionsProofs4.v
theories/ExtensionsProps.v
theories/CertProfile.v
theories/CertProfileSpec.v
theories/CertProfileProofs.v
theories/CertProfileProps.v
theories/Tree.v
theories/TreeSpec.v
theories/TreeProofs.v
theories/TreeExample.v
theories/TreeTotal.v
theories/TreeCrash.v
theories/TreeProps.v
theories/ResourcesSim.v
theories/TreeAloneSpec.v
theories/TreeAlone.v
theories/TreeAlone2.v
theories/TreeAlone3.v
theories/TreeAloneProps.v
theories/Rtr.v
theories/RtrSpec.v
theories/RtrProofs.v
theories/RtrProps.v
theories/RtrRun.v
theories/RtrRunSpec.v
theories/RtrRunProofs.v
theories/RtrRunProps.v
theories/RtrNotify.v
theories/RtrNotifySpec.v
theories/RtrNotifyProofs.v
theories/RtrNotifyProps.v
theories/Ntop.v
theories/NtopSpec.v
theories/NtopProofs.v
theories/Output.v
theories/OutputSpec.v
theories/JsonProofs.v
theories/OutputProofs.v
theories/OutputProps.v
theories/Http.v
theories/HttpSpec.v
theories/HttpProofs.v
theories/HttpProps.v
theories/Rsync.v
theories/RsyncSpec.v
theories/RsyncProofs.v
theories/RsyncProps.v
theories/Dirs.v
theories/DirsSpec.v
theories/DirsProofs.v
theories/DirsProps.v
theories/Main.v
theories/MainSpec.v
theories/MainProofs.v
theories/MainProps.v
theories/Incidence.v
theories/IncidenceSpec.v
theories/IncidenceProps.v
theories/VCard.v
theories/VCardSpec.v
theories/VCardProofs.v
theories/VCardProps.v
theories/Cycle.v
theories/CycleSpec.v
theories/CycleProofs.v
theories/CycleProofs2.v
theories/CycleProps.v
theories/Config.v
theories/ConfigSpec.v
theories/ConfigProofs.v
theories/ConfigProofs2.v
theories/ConfigProofs3.v
theories/ConfigProofs4.v
theories/ConfigProofs5.v
theories/ConfigProps.v
theories/Listen.v
theories/ListenSpec.v
theories/ListenProps.v
theories/CacheDir.v
theories/CacheDirSpec.v
theories/CacheDirProofs.v
theories/CacheDirProps.v
theories/CacheDirProps2.v
theories/VrpsLock.v
theories/VrpsLockSpec.v
theories/VrpsLockProofs.v
theories/VrpsLockProofs2.v
theories/VrpsLockProps.v
theories/Refs.v
theories/RefsSpec.v
theories/RefsProofs.v
theories/RefsProofs2.v
theories/RefsProofs3.v
theories/RefsProofs4.v
theories/RefsProps.v
theories/ResourcesAcceptSpec.v
theories/ResourcesProofs5.v
theories/ResourcesProofs6.v
theories/ResourcesProps2.v
theories/Publish.v
theories/PublishSpec.v
theories/PublishProofs.v
theories/PublishProps.v
theories/Print.v
theories/PrintSpec.v
theories/PrintProps.v
theories/Log.v
theories/LogSpec.v
theories/LogProofs.v
theories/LogProps.v
theories/JsonEnc.v
theories/JsonEncSpec.v
theories/JsonEncProofs.v
theories/JsonEncProofs2.v
theories/JsonEncProofs3.v
theories/JsonEncProofs4.v
theories/JsonEncProofs5.v
theories/JsonEncProps.v
theories/JsonEncSpec2.v
theories/JsonEncProofs6.v
theories/JsonEncProofs7.v
theories/JsonEncProps2.v
theories/FileIO.v
theories/FileIOSpec.v
theories/FileIOProofs.v
theories/FileIOProps.v
theories/Chain.v
theories/ChainSpec.v
theories/ChainProofs.v
theories/ChainProps.v
theories/CertJsonTypes.v
theories/CertJson.v
theories/CertJsonSpec.v
theories/CertJsonProofs.v
theories/CertJsonProofs2.v
theories/CertJsonProps.v
theories/Daemon.v
theories/DaemonSpec.v
theories/DaemonProps.v
theories/Init.v
theories/InitSpec.v
theories/InitProofs.v
theories/InitProps.v
theories/HttpOpts.v
theories/HttpOptsSpec.v
theories/HttpOptsProps.v
theories/Calendar.v
theories/CalendarSpec.v
theories/CalendarProofs.v
theories/CalendarProofs2.v
theories/CalendarProps.v
theories/Shown.v
theories/ShownSpec.v
theories/ShownProps.v
theories/PduBuffer.v
theories/PduBufferSpec.v
theories/PduBufferProps.v
theories/TalKey.v
theories/TalKeyProps.v
theories/Week.v
theories/WeekProps.v
