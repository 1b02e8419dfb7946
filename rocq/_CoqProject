-Q theories Verif
theories/Base.v
theories/BitIO.v
theories/BitSpec.v
theories/BitSpecProofs.v
theories/BitIOProofs.v
theories/BitIOTotalProofs.v
theories/WordProofs.v
theories/BitOps.v
theories/BitOpsProofs.v
theories/CursorProofs.v
theories/PropertiesBits.v
theories/Xor.v
theories/XorSpec.v
theories/XorProofs.v
theories/Gorilla.v
theories/GorillaProofs.v
theories/Chimp.v
theories/ChimpProofs.v
theories/ChimpN.v
theories/ChimpNProofs.v
theories/XorSummary.v
theories/PropertiesXor.v
theories/F64.v
theories/ElfXor.v
theories/ElfXorProofs.v
theories/Elf.v
theories/ElfProofs.v
theories/ElfSummary.v
theories/ElfFloatProofs.v
theories/ElfSpec.v
theories/ElfRangeSpec.v
theories/ElfArithProofs.v
theories/ElfEraseProofs.v
theories/ElfSmallProofs.v
theories/ElfRangeProofs.v
theories/ElfLargeProofs.v
theories/PropertiesElf.v
theories/ElfRangeSummary.v
theories/PropertiesElfExact.v
theories/RawSpec.v
theories/Rle.v
theories/RleProofs.v
theories/Uncompressed.v
theories/UncompressedProofs.v
theories/RawSummary.v
theories/PropertiesRaw.v
theories/Format.v
theories/FormatSpec.v
theories/FormatProofs.v
theories/FormatSummary.v
theories/PropertiesFormat.v
theories/File.v
theories/FileSpec.v
theories/FileProofs.v
theories/ByteCodec.v
theories/Query.v
theories/Sprintz.v
theories/Alp.v
theories/Codecs.v
theories/CodecSpec.v
theories/QuerySpec.v
theories/QueryProofs.v
theories/SprintzProofs.v
theories/SprintzQueryProofs.v
theories/CodecProofs.v
theories/FileSummary.v
theories/PropertiesFile.v
theories/F64Proofs.v
theories/F64SumProofs.v
theories/Readers.v
theories/QuerySummary.v
theories/SumSpec.v
theories/ExactSumProofs.v
theories/PropertiesSum.v
theories/PropertiesQuery.v
theories/F64BitsProofs.v
theories/F64Flocq.v
theories/SprintzFloatProofs.v
theories/SprintzSpec.v
theories/SprintzOrderProofs.v
theories/Buff.v
theories/BuffBitsProofs.v
theories/BuffFixedProofs.v
theories/BuffChunkProofs.v
theories/BuffReadProofs.v
theories/BuffScanProofs.v
theories/BuffFilterProofs.v
theories/BuffFoldProofs.v
theories/BuffFloatProofs.v
theories/BuffSpec.v
theories/BuffCodec.v
theories/BuffSimdProofs.v
theories/BuffQueryProofs.v
theories/SprintzSummary.v
theories/BuffSummary.v
theories/BuffFileSummary.v
theories/BuffSizeProofs.v
theories/PropertiesBuff.v
theories/PropertiesSprintz.v
theories/Expr.v
theories/ExprSpec.v
theories/ExprProofs.v
theories/AggregateProofs.v
theories/VectorProofs.v
theories/ExprSummary.v
theories/PropertiesExpr.v
theories/ElfSizeProofs.v
theories/XorTotalProofs.v
theories/CodecSummary.v
theories/PropertiesCodec.v
theories/DecimalSpec.v
theories/DecimalProofs.v
theories/DecimalFloatProofs.v
theories/DecimalSummary.v
theories/PropertiesDecimal.v
theories/RelErrorProofs.v
theories/Tpch.v
theories/TpchSpec.v
theories/TpchExtractProofs.v
theories/TpchGridProofs.v
theories/TpchColumnProofs.v
theories/TpchQueryProofs.v
theories/TpchTruncProofs.v
theories/TpchBuffProofs.v
theories/TpchSummary.v
theories/PropertiesTpch.v
theories/Text.v
theories/TextSpec.v
theories/TextProofs.v
theories/PrecisionProofs.v
theories/CsvProofs.v
theories/PipelineProofs.v
theories/LoaderProofs.v
theories/StatsProofs.v
theories/TextSummary.v
theories/PropertiesText.v
theories/Harness.v
theories/HarnessSpec.v
theories/HarnessProofs.v
theories/HarnessFilterProofs.v
theories/HarnessFileProofs.v
theories/HarnessSummary.v
theories/HarnessMeanSpec.v
theories/HarnessMeanProofs.v
theories/HarnessGuardProofs.v
theories/HarnessMeanSummary.v
theories/PropertiesHarness.v
theories/Ucr.v
theories/UcrSpec.v
theories/UcrDistanceProofs.v
theories/UcrColumnProofs.v
theories/UcrProofs.v
theories/UcrDecimalProofs.v
theories/UcrElfProofs.v
theories/UcrMatrixProofs.v
theories/UcrSummary.v
theories/PropertiesUcr.v
theories/Report.v
theories/ReportSpec.v
theories/ReportProofs.v
theories/ReportSummary.v
theories/PropertiesReport.v
theories/Iter.v
theories/IterSpec.v
theories/IterProofs.v
theories/IterSummary.v
theories/PropertiesIter.v
theories/Cuda.v
theories/CudaSpec.v
theories/CudaProofs.v
theories/CudaSummary.v
theories/PropertiesCuda.v
theories/CudaMatrix.v
theories/CudaMatrixSpec.v
theories/CudaMatrixSummary.v
theories/PropertiesCudaMatrix.v
