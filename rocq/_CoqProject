-Q theories Verif
theories/Base.v
theories/BaseFacts.v
theories/Types.v
theories/Platform.v
theories/Bitfield.v
theories/Config.v
theories/Buf.v
theories/Parser.v
theories/Records.v
theories/Sample.v
theories/Record.v
theories/Attr.v
theories/Read.v
theories/Access.v
theories/Names.v
theories/Header.v
theories/OptStruct.v
theories/Owned.v
theories/Fmt.v
theories/Text.v
theories/Show.v
theories/Fuzz.v
theories/Bits.v
theories/Contract.v
theories/Flat.v
theories/Matter.v
theories/Refine.v
theories/Instances.v
theories/Prims.v
theories/Slices.v
theories/Views.v
theories/RefRecords.v
theories/RefFrame.v
theories/RefTop.v
theories/Client.v
theories/Safe.v
theories/Wire.v
theories/Accept.v
theories/ReadFacts.v
theories/AccessFacts.v
theories/FmtFacts.v
theories/TextFacts.v
theories/Layout.v
theories/ShowFacts.v
theories/ConfFacts.v
theories/Codec.v
theories/Roundtrip.v
theories/RtSample.v
theories/RtRecord.v
theories/RtFail.v
theories/Spec.v
theories/NoHint.v
theories/FrameFacts.v
theories/RoundFacts.v
theories/Fixed.v
theories/RecFacts.v
theories/Errs.v
theories/Keep.v
theories/PokeFacts.v
theories/ExactFacts.v
theories/CallFacts.v
theories/ExData.v
theories/WireAttr.v
theories/Faults.v
theories/WireBits.v
theories/AttrFacts.v
theories/SliceExact.v
theories/SliceRecord.v
theories/SameFacts.v
theories/Copied.v
theories/Placed.v
theories/AcceptFacts.v
theories/AcceptParts.v
theories/AcceptSample.v
theories/AcceptRecord.v
theories/AcceptAttr.v
theories/FaultFacts.v
theories/ClientFacts.v
theories/ClientSafe.v
theories/Twin.v
theories/Hosts.v
theories/Work.v
theories/WorkTop.v
theories/PropsFrame.v
theories/PropsPrim.v
theories/PropsSame.v
theories/PropsBorrow.v
theories/PropsAttr.v
theories/PropsSafe.v
theories/PropsHead.v
theories/PropsHint.v
theories/PropsWidth.v
theories/PropsRound.v
theories/PropsParts.v
theories/PropsConf.v
theories/PropsRead.v
theories/PropsAccess.v
theories/PropsShow.v
theories/PropsLine.v
theories/PropsPretty.v
theories/PropsBits.v
theories/PropsSession.v
theories/PropsExact.v
theories/PropsAccept.v
theories/PropsNames.v
theories/PropsFault.v
theories/PropsReader.v
theories/PropsFuzz.v
theories/PropsClient.v
theories/PropsWork.v
theories/PropsDepend.v
theories/PropsHost.v
theories/Falter.v
theories/FalterFacts.v
theories/PropsFalter.v
theories/Counter.v
theories/CounterFacts.v
theories/PropsCounter.v
theories/Picture.v
theories/PictureFacts.v
theories/PropsPicture.v
theories/Framing.v
theories/FramingFacts.v
theories/PropsFraming.v
theories/Tests.v
theories/Raw.v
theories/RawFacts.v
theories/PropsRaw.v
theories/Size.v
theories/SizeFacts.v
theories/SizeTop.v
theories/PropsSize.v
theories/Follow.v
theories/FollowFacts.v
theories/PropsFollow.v
theories/SpendFacts.v
theories/SpendTop.v
theories/PropsSpend.v
theories/Ring.v
theories/RingFacts.v
theories/PropsRing.v
theories/Rogue.v
theories/RogueFacts.v
theories/PropsRogue.v
theories/Endian.v
theories/EndianFacts.v
theories/EndianSafe.v
theories/PropsEndian.v
theories/ClientHosts.v
theories/PropsClientHosts.v
theories/ClientWork.v
theories/PropsClientWork.v
theories/Mixed.v
theories/MixedFacts.v
theories/PropsMixed.v
theories/PropsEdges.v
theories/Newer.v
theories/NewerFacts.v
theories/PropsNewer.v
theories/PropsHeadAlike.v
theories/PropsNewerAlike.v
theories/PropsShowAlike.v
theories/HostsAlike.v
theories/PropsHostAlike.v
theories/PropsEndianAlike.v
theories/PropsCause.v
