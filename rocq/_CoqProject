-Q theories Verif
theories/Base.v
theories/BaseProofs.v
theories/BufferIter.v
theories/BufferIterSpec.v
theories/BufferIterProofs.v
theories/BufferIterProps.v
theories/SeqNum.v
theories/SeqNumSpec.v
theories/SeqNumProofs.v
theories/SeqNumProps.v
theories/Event.v
theories/EventSpec.v
theories/EventProofs.v
theories/EventProps.v
theories/Endian.v
theories/EndianProofs.v
theories/EndianProps.v
theories/Lexical.v
theories/LexicalSpec.v
theories/LexicalProofs.v
theories/LexicalProps.v
theories/Random.v
theories/RandomSpec.v
theories/RandomProofs.v
theories/RandomProps.v
theories/Duration.v
theories/DurationSpec.v
theories/DurationProofs.v
theories/DurationProps.v
theories/Sim.v
theories/SimSpec.v
theories/SimProofs.v
theories/SimProps.v
theories/SimThrowProofs.v
theories/SimThrowProps.v
theories/Buffer.v
theories/BufferSpec.v
theories/BufferProofs.v
theories/BufferProps.v
theories/Address.v
theories/AddressSpec.v
theories/AddressProofs.v
theories/AddressBitProofs.v
theories/AddressByteProofs.v
theories/AddressProps.v
theories/TagList.v
theories/TagListSpec.v
theories/TagListProofs.v
theories/TagListProps.v
theories/Packet.v
theories/PacketSpec.v
theories/PacketParts.v
theories/PacketProofs.v
theories/PacketPieces.v
theories/PacketFill.v
theories/PacketProps.v
theories/Component.v
theories/ComponentSpec.v
theories/ComponentProofs.v
theories/ComponentOps.v
theories/ComponentSteps.v
theories/ComponentRuns.v
theories/ComponentProps.v
theories/Registry.v
theories/RegistrySpec.v
theories/RegistryProofs.v
theories/RegistryCreate.v
theories/RegistryProps.v
theories/BiContainer.v
theories/BiContainerSpec.v
theories/BiContainerMatrix.v
theories/BiContainerMemory.v
theories/BiContainerProofs.v
theories/BiContainerSteps.v
theories/BiContainerProps.v
theories/ZcIter.v
theories/ZcIterSpec.v
theories/ZcIterProofs.v
theories/ZcBuffer.v
theories/ZcIterProps.v
theories/ZcBufferSpec.v
theories/ZcBufferProofs.v
theories/ZcBufferProps.v
theories/Summary.v
theories/SummarySpec.v
theories/SummaryProofs.v
theories/SummaryProps.v
theories/Stat.v
theories/StatSpec.v
theories/StatProofs.v
theories/StatProps.v
theories/LogNet.v
theories/LogNetSpec.v
theories/LogNetProofs.v
theories/LogNetProps.v
theories/LogRecord.v
theories/LogRecordSpec.v
theories/LogRecordProofs.v
theories/LogRecordProps.v
theories/Log.v
theories/LogSpec.v
theories/LogProofs.v
theories/LogProps.v
theories/SinkLife.v
theories/SinkLifeSpec.v
theories/SinkLifeProofs.v
theories/SinkLifeProps.v
theories/Message.v
theories/MessageSpec.v
theories/MessageProofs.v
theories/MessageProps.v
theories/FixedBuffer.v
theories/FixedBufferSpec.v
theories/FixedBufferProofs.v
theories/FixedBufferProps.v
theories/PeriodPrime.v
theories/PeriodLinear.v
theories/PeriodData.v
theories/PeriodProofs.v
theories/PeriodCert.v
theories/PeriodSpec.v
theories/PeriodCount.v
theories/PeriodEngines.v
theories/PeriodProps.v
theories/Generator.v
theories/GeneratorSpec.v
theories/GeneratorProofs.v
theories/GeneratorProps.v
theories/Testing.v
theories/TestingSpec.v
theories/TestingProofs.v
theories/TestingProps.v
theories/Text.v
theories/TextSpec.v
theories/TextProofs.v
theories/TextProps.v
theories/Table.v
theories/TableSpec.v
theories/TableProofs.v
theories/TableProps.v
theories/LogSite.v
theories/LogSiteSpec.v
theories/LogSiteProofs.v
theories/LogSiteProps.v
theories/ZcPacket.v
theories/ZcPacketSpec.v
theories/ZcPacketProofs.v
theories/ZcPacketSteps.v
theories/ZcPacketRoom.v
theories/ZcPacketProps.v
theories/Wire.v
theories/WireSpec.v
theories/WireProofs.v
theories/WireProps.v
theories/Nested.v
theories/NestedSpec.v
theories/NestedProofs.v
theories/NestedProps.v
theories/ZcFillSpec.v
theories/ZcFillProofs.v
theories/ZcFillProps.v
theories/Clock64.v
theories/Clock64Spec.v
theories/Clock64Proofs.v
theories/Clock64Props.v
theories/HeapAlgo.v
theories/HeapAlgoProofs.v
theories/HeapAlgoProps.v
theories/ZcWire.v
theories/ZcWireSpec.v
theories/ZcWireProofs.v
theories/ZcWireProps.v
theories/TextOrderSpec.v
theories/TextOrderProofs.v
theories/TextOrderProps.v
