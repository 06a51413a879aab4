{"id": "C01", "title": "Lossless JPEG encode/decode round trip", "statement": "Encoding a sample buffer with the LJPEG compressor (point transform 0) and decoding the produced byte stream with the LJPEG decompressor, asking for the full frame, returns exactly the original samples of the encoded width x height area, row by row, and neither side panics or returns an error.", "quantifier": "every image size 1..65535, 1 to 4 components, predictor 1 to 7, bit depth 10 to 16, row padding, and every u16 sample content that fits the bit depth", "why_tests_cant": "The state space is all images; Huffman tables are data dependent (skewed histograms produce 16-bit and length-limited codes) and 0xFF stuffing depends on bit alignment, so no finite set of images covers it.", "anchors": ["rawler/src/ljpeg92.rs:LjpegCompressor::new,encode,scan_frequency,write_header,write_body,write_post,ljpeg92_diff", "rawler/src/decompressors/ljpeg/mod.rs:LjpegDecompressor::new,decode", "rawler/src/decompressors/ljpeg/decompressors.rs:decode_ljpeg", "rawler/src/decompressors/ljpeg/huffman.rs:HuffTable", "rawler/src/pumps.rs:BitPumpJPEG"]}
{"id": "C02", "title": "LJPEG point transform and cropped decoding", "statement": "With point transform t the decoder returns every sample shifted right by t; and when a caller asks the decoder for fewer columns or rows than the frame contains, or places the output at a column offset with a wider stride, it gets exactly the top-left part of the image and no other output cell changes.", "quantifier": "every accepted image, point transform below the bit depth, requested width (multiple of the component count) and height not exceeding the frame, every output offset and stride", "why_tests_cant": "Cropping changes how many differences are skipped per row; an off-by-one desynchronises the bit stream only for particular widths.", "anchors": ["rawler/src/decompressors/ljpeg/decompressors.rs:decode_ljpeg", "rawler/src/ljpeg92.rs:ljpeg92_diff"]}
{"id": "C03", "title": "Huffman tables built from any histogram are usable", "statement": "For every histogram with at least one non-zero class the table builder terminates and gives each class that occurs a non-empty code of at most 16 bits; the codes are prefix free, none consists only of 1 bits, and the code lengths satisfy Kraft's inequality strictly.", "quantifier": "every histogram of 17 class counts whose total fits in 64 bits", "why_tests_cant": "Depth-17 trees need near-Fibonacci histograms; random tests practically never reach the length-limiting branch.", "anchors": ["rawler/src/ljpeg92.rs:HuffTableBuilder::gen_codesizes,count_bits,adjust_bits,sort_input,gen_size_table,gen_code_table,build"]}
{"id": "C04", "title": "LJPEG output is a well formed marker stream", "statement": "The encoder output starts with SOI, ends with EOI, its segment length fields match the segment contents, and inside the entropy coded segment every 0xFF byte is followed by 0x00, so no marker can appear inside image data.", "quantifier": "every accepted image and parameter set", "why_tests_cant": "Whether a 0xFF byte arises depends on bit alignment of the whole preceding stream.", "anchors": ["rawler/src/ljpeg92.rs:BitstreamJPEG,write_header,write_body,write_post"]}
{"id": "C05", "title": "Bit pumps deliver exactly the bits of the buffer", "statement": "Reading from a bit pump (LSB, MSB, MSB32, JPEG) in any sequence of peeks and reads of widths up to 32 that stays inside the buffer returns the successive bit fields of the documented bit string of the buffer; peeking never changes what is read next; the JPEG pump removes stuffing and delivers zero bits after the first marker or end of buffer. For MSB32 the buffer is a whole number of 32-bit words, for JPEG it does not end in a lone 0xFF; both conditions are necessary (shown by counterexample).", "quantifier": "every buffer and every sequence of read widths", "why_tests_cant": "Refill boundaries depend on the history of widths; the number of schedules is unbounded.", "anchors": ["rawler/src/pumps.rs:BitPumpLSB,BitPumpMSB,BitPumpMSB32,BitPumpJPEG,BitPump::get_bits"]}
{"id": "C06", "title": "Packed pixel formats decode to the specified bit fields", "statement": "Each packed decoder (8, 10, 12, 14 and 16 bit variants, big/little endian, MSB16/MSB32/LSB16, with control bytes, interlaced) returns for pixel (row, column) the value of the bit field which the format assigns to that pixel, and decoding from a later start row gives the same pixels as decoding everything and dropping rows.", "quantifier": "every height, every start row, every buffer of sufficient size, and every width whose rows fill whole packing groups (rows starting on a byte boundary for PackedDecompressor); formats with a row stride or control bytes take every width and leave the samples after the last whole group zero", "why_tests_cant": "Bit field positions depend on width modulo the packing period; tests check a few camera sizes.", "anchors": ["rawler/src/decompressors/packed.rs:PackedDecompressor,decompress_*"]}
{"id": "C07", "title": "Image tiler covers the image exactly", "statement": "Splitting an image into tiles yields ceil(w/tw)*ceil(h/th) tiles of tw*th*cpp samples; the tile sample at a position inside the image equals the image sample there, and cells outside the image hold replicated edge data; reassembling the tiles and cropping gives back the image.", "quantifier": "every image size >= 1, tile size >= 1, samples per pixel >= 1 and content", "why_tests_cant": "The interesting cases are the residues of width and height modulo the tile size.", "anchors": ["rawler/src/tiles.rs:ImageTiler::new,build_tile,next"]}
{"id": "C08", "title": "Mutable tiles are in bounds, disjoint and covering", "statement": "The tiles handed out for parallel writing never reach outside the buffer, no buffer cell belongs to two different tile lines, and together they cover the whole buffer; writing tiles in any order gives the same buffer.", "quantifier": "every buffer whose width and height are whole numbers of tiles, every tile size, samples per pixel, and every order of writes", "why_tests_cant": "The implementation uses raw pointers and unsafe Send; aliasing is a property of all index pairs, not of a run.", "anchors": ["rawler/src/tiles.rs:IntoTilesIter::next,TileIterMut::next,into_tiles_iter_mut"]}
{"id": "C09", "title": "DNG lossless compressed image survives write and read", "statement": "Writing a raw image as tiled lossless JPEG into a DNG and decoding the tiles again gives the same image, for CFA, linear RGB and monochrome layouts and every predictor.", "quantifier": "every image size >= 1, samples per pixel 1..4 for linear data and 1 otherwise, predictor 1..7, bit depth 10..16, all sample contents and every schedule of the tile decoding loop", "why_tests_cant": "Combines tiling, row realignment, data dependent Huffman coding, parallel decode and cropping; all residues and contents matter.", "anchors": ["rawler/src/dng/writer.rs:dng_put_raw_ljpeg", "rawler/src/decoders/mod.rs:decode_tiles", "rawler/src/tiles.rs", "rawler/src/decompressors/ljpeg/mod.rs:LJpegDecompressor::decompress"]}
{"id": "C10", "title": "TIFF directory write/read round trip", "statement": "Whatever data blocks and directories are written in any order and whatever root directory closes the file, every block is found at the (word aligned) offset that was returned, every directory parses back with the same tags, types, counts and values, whether inline or out of line, the root is found through the header, and a tag holding offsets of written directories yields those directories. A directory laid out according to the TIFF specification in either byte order is read as it is. Ascii values of several strings, inline floats and inline signed values with a negative element before the last are not preserved.", "quantifier": "every sequence of write operations and every set of tags with non-empty values of all field types, within a 4 GiB file and 4096 tags per directory; every conforming directory, byte order, base and offset correction", "why_tests_cant": "Offsets and inline packing depend on the sizes of all other entries.", "anchors": ["rawler/src/formats/tiff/writer.rs:TiffWriter,DirectoryWriter", "rawler/src/formats/tiff/entry.rs:Entry::parse", "rawler/src/formats/tiff/ifd.rs:IFD::new", "rawler/src/formats/tiff/value.rs"]}
{"id": "C11", "title": "Inline TIFF values agree with the out-of-line encoding", "statement": "The 4-byte inline field of a small value holds the same bytes as the out-of-line serialisation of the value, zero padded. This fails for negative signed elements and for floats.", "quantifier": "every non-empty value of at most 4 bytes of every field type except floats and negative SBYTE/SSHORT elements", "why_tests_cant": "Signed and float element types only differ for particular bit patterns.", "anchors": ["rawler/src/formats/tiff/value.rs:Value::as_embedded,Value::write"]}
{"id": "C12", "title": "TIFF parsing terminates and stays in bounds on chains", "statement": "Parsing a TIFF file with a limit on chained directories terminates and returns between 1 and limit+1 directories, each with at most 4096 entries whose values are bytes of the file at the recorded offset; the only panic is an empty pointer tag of unknown type; without a limit a cyclic chain is never left.", "quantifier": "every file content including cyclic next-IFD pointers (panic freedom: files below 4 GiB read without a base offset)", "why_tests_cant": "Adversarial offset graphs form an unbounded set.", "anchors": ["rawler/src/formats/tiff/reader.rs:GenericTiffReader::parse_file", "rawler/src/formats/tiff/ifd.rs:IFD::new"]}
{"id": "C13", "title": "Embedded original raw file can be restored", "statement": "Compressing an original file into the DNG OriginalRawFileData structure, writing it, reading it back and decompressing yields the original bytes and passes the digest check.", "quantifier": "every file content and size below 4 GiB, any block compressor with a correct inverse that accepts every block, compressed structure below 4 GiB", "why_tests_cant": "Block boundaries (sizes that are multiples of 64 KiB, empty file) and index arithmetic depend on the size.", "anchors": ["rawler/src/dng/original.rs:OriginalCompressed::new,compress,write_to_stream,decompress"]}
{"id": "C14", "title": "CFA pattern shifting", "statement": "Shifting a CFA pattern by (x,y) gives the pattern seen from that origin: the colour at (r,c) of the shifted pattern is the colour at (r+y,c+x) of the original; shifts compose additively and are periodic in the pattern size; the pattern written to a DNG and read back gives the colours of the original sensor positions.", "quantifier": "every valid pattern, every shift and every coordinate; the DNG round trip for active area offsets that are multiples of half the pattern size (all offsets of 2x2 patterns)", "why_tests_cant": "Periodicity involves all coordinates; only 2x2 and 6x6 cases with specific offsets are tested.", "anchors": ["rawler/src/cfa.rs:CFA::new,color_at,shift", "rawler/src/decoders/dng.rs:get_cfa", "rawler/src/dng/writer.rs:write_rawimage"]}
{"id": "C15", "title": "Crop and rotation laws of pixel arrays", "statement": "Cropping returns exactly the samples of the requested rectangle; rotating by 90, 180 and 270 degrees moves each pixel to the geometric position, four quarter turns are the identity, and 270 inverts 90.", "quantifier": "every image size, samples per pixel and rectangle inside the image", "why_tests_cant": "Index arithmetic over all sizes.", "anchors": ["rawler/src/pixarray.rs:PixU16,Pix2D,into_crop", "rawler/src/imgop/mod.rs:crop"]}
{"id": "C16", "title": "Widening small floats preserves value", "statement": "Converting 16-bit and 24-bit floating point samples to 32-bit never fails and yields a pattern of the same sign denoting the same real value (subnormals included); infinities stay infinities and NaNs stay NaNs with their payload. 32-bit samples going through the same routine are kept unless subnormal (subnormals are not kept: refuted).", "quantifier": "every 16-bit and 24-bit pattern; every 32-bit pattern that is not subnormal", "why_tests_cant": "24-bit and subnormal inputs are rarely present in sample files.", "anchors": ["rawler/src/bits.rs:extend_binary_floating_point", "rawler/src/decompressors/packed.rs"]}
{"id": "C17", "title": "Rational comparison and conversion", "statement": "Comparison of TIFF rationals is consistent with the order of the numbers they denote.", "quantifier": "every pair of 32-bit numerators and denominators; positive denominators for the numeric order, anything but 0/0 for the order laws of unsigned rationals (0/0 and negative denominators are refuted)", "why_tests_cant": "Overflow of the cross product and zero denominators are corner cases in a 128-bit input space.", "anchors": ["rawler/src/formats/tiff/value.rs:Rational,SRational"]}
{"id": "C18", "title": "FTP server requires login", "statement": "No FTP command that reads, lists, creates, changes or deletes anything in the served directory takes effect in a session unless the commands before it log a user in: a USER command that selects a configured account (or the anonymous user when allowed), not replaced by a later such USER, followed by an accepted PASS or naming an account without a password. On a server without anonymous access a PASS is accepted only if the configuration pairs it with that user.", "quantifier": "every sequence of commands of a session and every server configuration", "why_tests_cant": "Sessions are unbounded sequences; a single forgotten check is only visible in particular orders.", "anchors": ["embedftp/src/client.rs:Client::handle_cmd,is_logged"]}
{"id": "C19", "title": "FTP clients stay inside the served directory", "statement": "Whatever path strings a client sends in whatever order, every file-system object that is read, listed, created or removed on its behalf lies inside the server root directory, nothing outside it changes, and every byte sent to the client is content of a file inside it.", "quantifier": "every absolute server root without links on its path and without the extension of a raw file in its name, every file system whose links in the served tree do not lead out of it (also when others change it between commands), every path and command sequence", "why_tests_cant": "Path traversal is adversarial; the combinations of .., absolute paths and cwd state are unbounded.", "anchors": ["embedftp/src/client.rs:complete_path,cwd,mkd,rmd,dele,retr,stor,put_file,invalid_path,nlst"]}
{"id": "C20", "title": "FTP command framing does not depend on packetisation", "statement": "The sequence of commands recognised from a byte stream is the same for every way the network splits the stream into chunks, and equals the CRLF separated lines.", "quantifier": "every byte stream and every segmentation", "why_tests_cant": "Segmentations are exponentially many.", "anchors": ["embedftp/src/codec.rs:FtpCodec::decode", "embedftp/src/command.rs:Command::new"]}
{"id": "C21", "title": "Batch conversion never maps two images to one output", "statement": "Planning a conversion of a set of inputs assigns pairwise different output names to all produced images, plans every wanted image once, always ends, keeps each output in the directory its input maps to and adds a number only when the smaller ones are taken. Planning a development run does so when the inputs' stems differ.", "quantifier": "every list of input files with at least one image each, every frame count, every way names are turned into text", "why_tests_cant": "Collisions need specific combinations of stems, extensions and suffix counters.", "anchors": ["bin/dnglab/dnglab-lib/src/convert.rs:generate_job"]}
{"id": "C22", "title": "Conversion job never clobbers and cleans up", "statement": "At every point of a conversion job every entry other than the output, and without override every entry that existed, is unchanged, so an existing output is never clobbered and the input survives unless it is reached through the output of an overriding job. A job reporting success leaves the complete conversion in the output; one reporting an existing output left it alone; one reporting a conversion error has removed its output unless the removal failed. Not guaranteed, with witnesses: with override the old output is already gone when the conversion fails; input equal to output with override deletes the input; failures of lock, flush or time stamp and panics leave the partial output; development jobs race on a shared output.", "quantifier": "every initial file system with links, every fault pattern of the file operations, every crash point, every conversion behaviour; also interference-free development and extraction jobs", "why_tests_cant": "Failures and crashes at each step with each file system state cannot be enumerated by runs.", "anchors": ["bin/dnglab/dnglab-lib/src/jobs/raw2dng.rs:Raw2DngJob::internal_exec"]}
{"id": "C23", "title": "Parallel line, strip and chunk decoding is deterministic", "statement": "Decoding lines, strips or chunks in parallel gives the same image, or an error in the same cases, as sequential decoding, for every schedule; each worker sees the right row index and slice.", "quantifier": "every image size, strip size, worker function and schedule", "why_tests_cant": "Thread schedules are not controllable in tests.", "anchors": ["rawler/src/decompressors/mod.rs:decompress_lines,decompress_lines_fn,decompress_strips,decompress_strips_fn,decompress_chunked_fn"]}
{"id": "C24", "title": "Sub views of a source file are exact and padded", "statement": "A view of offset and size returns exactly those bytes or an error when out of range; the padded variants return the same bytes followed by at least 16 readable bytes.", "quantifier": "every file content below 2^63 bytes, every offset and size whose sum fits u64 (larger sums panic, refuted separately)", "why_tests_cant": "Boundary positions relative to the file end and integer overflow.", "anchors": ["rawler/src/rawsource.rs:subview,subview_padded,subview_until_eof,subview_until_eof_padded", "rawler/src/buffer.rs:PaddedBuf"]}
{"id": "C25", "title": "Rectangle conversions are mutually inverse", "statement": "Constructing a rectangle from points, borders, or DNG active area values and converting it back to LTRB/TLBR or offset form denotes the same pixel set, and adapting a crop to another origin keeps the absolute position.", "quantifier": "every image dimension and rectangle", "why_tests_cant": "Arithmetic over all coordinates including empty rectangles.", "anchors": ["rawler/src/imgop/mod.rs:Rect,Dim2,Point"]}
{"id": "C26", "title": "2x2 deinterleave is a permutation", "statement": "Deinterleaving a 2x2 interleaved image places every sample at the documented position and loses none.", "quantifier": "every image size with even dimensions and any content", "why_tests_cant": "Index arithmetic over all sizes.", "anchors": ["rawler/src/pixarray.rs:deinterleave2x2", "rawler/src/decoders/mod.rs"]}
{"id": "C27", "title": "LJPEG decoder behaviour on corrupt input", "statement": "On any byte string the LJPEG header parser ends within a bounded number of rounds; if it returns, every parameter is in range, every Huffman table is either absent or built from a DHT segment whose code fits the code space, and the scan data is a suffix of the input. Whatever the scan data, a scan decoder that returns keeps the buffer length, leaves every sample outside the frame (rounded up to whole pixels) alone and yields 16 bit samples. If every component has a table with categories up to 16, the point transform is below the precision and the data does not end in a lone 0xFF, it does return, and every sample is the predictor value plus the difference coded by the symbol with the same number in the data, zero bits following its end. Truncated headers, missing tables, categories above 16, oversubscribed codes, large point transforms, a lone trailing 0xFF and repeated SOF segments panic instead of reporting an error.", "quantifier": "every byte string; every buffer, offset, stride, width and height for which the decoder returns", "why_tests_cant": "The claim is about all corrupt files: every header byte, every table and every scan content; tests try a few truncations.", "anchors": ["rawler/src/decompressors/ljpeg/mod.rs:new_full,parse_sof,parse_sos,parse_dht", "rawler/src/decompressors/ljpeg/decompressors.rs:decode_ljpeg", "rawler/src/decompressors/ljpeg/huffman.rs:initialize"]}
{"id": "C28", "title": "Lookup tables and dithering stay within table bounds", "statement": "Building a lookup table and applying it with dithering to a row never fails, stays in 16 bits, and differs from the table entry by at most a quarter (rounded) of the distance between the neighbouring entries (half for entries equal to zero); a table padded to a bit width maps every sample of that width, past the end to its last entry. Sample clamping returns the nearest value of the bit range and log2ceil the least sufficient width.", "quantifier": "every table whose entries are not below a quarter of their local step and do not exceed 65535 with it, every row of samples below the table length and every 32-bit random state (monotone tables outside of this are refused or wrap: refuted)", "why_tests_cant": "Rounding and end-of-table cases.", "anchors": ["rawler/src/pixarray.rs", "rawler/src/decompressors", "rawler/src/bits.rs:LookupTable"]}
{"id": "C29", "title": "Maker note decryption is an involution", "statement": "The Nikon maker note cipher applied twice with the same serial number, shutter count and offset is the identity and keeps the length; the same holds for the Sony word cipher on word-aligned buffers.", "quantifier": "every buffer, key and offset for which the first decryption completes (always so for up to 4000 bytes)", "why_tests_cant": "Key space and buffer space.", "anchors": ["rawler/src/decoders/nef/decrypt.rs:nef_decrypt", "rawler/src/decoders/arw.rs:sony_decrypt"]}
{"id": "C30", "title": "Uncompressed DNG strips survive write and read", "statement": "Writing a raw image as uncompressed strips and decoding the strips again gives the same image, whether or not the strips are contiguous in the file.", "quantifier": "every non-empty image of 16 bit samples, every positive strip height and content, every finished file below 4 GiB", "why_tests_cant": "Last strip height and row skip arithmetic depend on residues.", "anchors": ["rawler/src/dng/writer.rs:dng_put_raw_uncompressed", "rawler/src/decoders/mod.rs:decode_strips", "rawler/src/decompressors/packed.rs"]}
{"id": "C31", "title": "Black level pattern shifting", "statement": "Shifting a black level pattern by an active-area origin gives at each position the level which the original pattern assigns to the absolute position.", "quantifier": "every pattern size, samples per pixel, shift and position", "why_tests_cant": "All residues matter.", "anchors": ["rawler/src/rawimage.rs:BlackLevel::shift"]}
{"id": "C32", "title": "Deflate float predictor inverse", "statement": "The horizontal delta and byte-plane reordering used for floating-point TIFF data is inverted exactly by the decoder: encoded rows decode to the widened samples.", "quantifier": "every list of rows, width, prediction distance >= 1 and sample size 16, 24, 32 (32-bit samples not subnormal)", "why_tests_cant": "Wrapping byte arithmetic along a row.", "anchors": ["rawler/src/decompressors/deflate.rs:decode_delta_bytes,decode_fp_delta_row"]}
{"id": "C33", "title": "DNG geometry tags survive write and read", "statement": "The active area and the default crop written to a DNG are the areas found when the DNG is decoded again, for each crop mode; without crop mode the whole image is the active area and there is no crop.", "quantifier": "every image with sides below 65536, every active area inside it and every crop area inside it that starts within the active area", "why_tests_cant": "Three coordinate systems (points, borders, sizes relative to the active area) are converted into each other; tests use one camera.", "anchors": ["rawler/src/dng/writer.rs:write_rawimage", "rawler/src/dng/mod.rs:rect_to_dng_area", "rawler/src/decoders/dng.rs:make_camera,get_active_area,get_crop", "rawler/src/rawimage.rs:new_with_data"]}
{"id": "C34", "title": "FTP command lines are parsed faithfully", "statement": "Every FTP verb is recognised in any letter case, its argument is passed on unchanged, path arguments are split into proper components, and a PORT command never yields a port outside 1025..65535.", "quantifier": "every command line", "why_tests_cant": "Arguments and letter cases are unbounded; a wrong comparison only shows for particular bytes.", "anchors": ["embedftp/src/command.rs:Command::new"]}
{"id": "C35", "title": "FTP replies are framed as RFC 959 demands", "statement": "Every reply is a sequence of CRLF lines that a conforming client reads exactly to its end: no line inside a multi-line reply can be taken for the final line.", "quantifier": "every three digit code, every message and every list of lines without CRLF", "why_tests_cant": "Message texts and lines come from clients and file names; only particular texts break framing.", "anchors": ["embedftp/src/codec.rs:FtpCodec::encode"]}
{"id": "C36", "title": "Directory scan finds every file once", "statement": "Scanning a source directory yields exactly the files the filter accepts (in all subdirectories when recursive, else directly in the directory), each once, mapped to the same relative place under the destination; it fails only if something cannot be inspected.", "quantifier": "every directory tree, filter and mode", "why_tests_cant": "Trees have any depth and width; a missed branch or a wrong relative path only shows on particular shapes.", "anchors": ["bin/dnglab/dnglab-lib/src/filemap.rs:read_filtered_dir,DirMap::file_list,make_mapping"]}
{"id": "C37", "title": "Extraction writes into the output directory", "statement": "Extracting the embedded original writes it under its original name into the chosen output directory (or next to the mapped destination).", "quantifier": "every destination and every embedded name that is a plain file name", "why_tests_cant": "The embedded name comes from an untrusted file; all strings have to be considered.", "anchors": ["bin/dnglab/dnglab-lib/src/extract.rs:generate_job,get_original_name"]}
{"id": "C38", "title": "Concurrent conversion jobs do not interfere", "statement": "Conversion jobs with pairwise different outputs, run concurrently: at every moment everything that is not an output (or an output that existed, of a job without override) is unchanged; every finished job reports the truth about its own output, with the content computed from its own input; when no operation fails each outcome equals the outcome of the job run alone; all jobs can always finish; the command reports success exactly if every job succeeded.", "quantifier": "every number of jobs, every interleaving of their file operations, every fault pattern, every file system", "why_tests_cant": "The interleavings of file operations of a batch cannot be enumerated by running it.", "anchors": ["bin/dnglab/dnglab-lib/src/convert.rs:convert", "bin/dnglab/dnglab-lib/src/jobs/raw2dng.rs:Raw2DngJob::internal_exec"]}
{"id": "C39", "title": "PPG demosaicing computes the published formulas", "statement": "Demosaicing a Bayer region with the default (PPG) algorithm keeps every measured sample, gives every missing channel the patterned pixel grouping formula (least-gradient green, hue transit, diagonal gradient; averages of the neighbours on the three pixel border), uses nothing outside the region, gives the same result for every interleaving of its parallel row tasks, and keeps a flat image flat. It works for regions at least 6 x 6 (and any width at height 6); it never ends for width 4 or 5 at height above 6 and panics for the other sizes.", "quantifier": "every Bayer pattern, image, region, arithmetic and interleaving", "why_tests_cant": "The passes read and write one shared buffer from many threads, so every interleaving counts; the border cases depend on the size and phase of the region.", "anchors": ["rawler/src/imgop/sensor/bayer/ppg.rs:demosaic,expand_bayer_rgb,ppg", "rawler/src/pixarray.rs:Color2DPtr"]}
{"id": "C40", "title": "Four colour bilinear demosaicing averages the nearest samples", "statement": "Each plane of each pixel is the mean of the nearest samples of its colour (the sample itself, two or four neighbours; fewer at the edges), for every interleaving of the parallel rows; regions of one row or column are refused.", "quantifier": "every pattern of four different colours, every plane order, image, region of at least 2 x 2, arithmetic and interleaving", "why_tests_cant": "Corners, edges and interior are separate code; a wrong neighbour only shows at particular phases.", "anchors": ["rawler/src/imgop/sensor/bayer/bilinear.rs:Bilinear4Channel::demosaic"]}
{"id": "C41", "title": "Superpixel demosaicing takes one pixel from each block", "statement": "The half size image has, per 2 x 2 block of the region, the sample of each colour (mean of the two greens for three channels); an odd last row or column is dropped. Patterns other than the four Bayer ones are never demosaiced.", "quantifier": "every pattern, image and region", "why_tests_cant": "The block layout depends on the phase of the region and the pattern.", "anchors": ["rawler/src/imgop/sensor/bayer/superpixel.rs:Superpixel3Channel::demosaic,Superpixel4Channel::demosaic"]}
{"id": "C42", "title": "X-Trans bilinear demosaicing averages the 5 x 5 neighbourhood", "statement": "Each channel of each pixel is the mean of all samples of that colour in the 5 x 5 square around the pixel, clipped to the region.", "quantifier": "every RGB pattern, image, region and arithmetic", "why_tests_cant": "Borders and pattern phases are too many to enumerate.", "anchors": ["rawler/src/imgop/sensor/xtrans/bilinear.rs:XTransBilinearDemosaic::demosaic"]}
{"id": "C43", "title": "Level scaling maps every sample to the usable range", "statement": "Scaling a raw image maps every sample s of a mosaic image to max(s - black, 0) / (white - black) with the levels of its place in the 2 x 2 tile (of its channel for images with several samples per pixel), sets the stored levels to 0 and 1, keeps the geometry, and applied again changes nothing. Known exceptions: the last row and column of odd sizes stay unscaled, differing level counts skip the scaling, monochrome images panic.", "quantifier": "every image size, data, level list, arithmetic and interleaving of the parallel line pairs", "why_tests_cant": "The loop works on pairs of lines in parallel; sizes, tile positions, levels and schedules are unbounded", "anchors": ["rawler/src/rawimage.rs:apply_scaling", "rawler/src/imgop/raw.rs:correct_blacklevel_cfa", "rawler/src/imgop/raw.rs:correct_blacklevel"]}
{"id": "C44", "title": "Black levels come from the configuration, the file, the masked area, or zero", "statement": "When a raw image is created its black level is the one of the camera configuration, else the one of the decoder unless marked invalid, else per place of the 2 x 2 tile the mean of the samples in the masked row and column bands, else zero. Masked bands that miss a place of the tile and tiles other than 2 x 2 panic.", "quantifier": "every configuration, image, active area, masked band and arithmetic", "why_tests_cant": "The estimate sums over arbitrary areas; precedence involves all combinations of optional inputs", "anchors": ["rawler/src/rawimage.rs:calc_black_levels", "rawler/src/rawimage.rs:RawImage::new", "rawler/src/decoders/camera.rs:make_blacklevel"]}
{"id": "C45", "title": "Colour conversion inverts the camera response and keeps neutrals neutral", "statement": "The conversion matrix is a left inverse of the normalised camera matrix, so a colour whose camera response was recorded is recovered exactly (in exact arithmetic), a pixel whose white balanced channels agree becomes grey of that value, no output sample is negative and in-range colours are not changed by clipping.  The matrix used is the D65 one when present, else the first of a fixed list adapted with the Bradford transform, which maps the source white to the D65 white; with none it is the identity.  Refuted: clipping does not bound samples by one, and the adapted matrix is not the camera's response under D65 (the adaption is applied in the wrong direction).", "quantifier": "all camera matrices with independent columns, all pixels, all white balance coefficients, all sets of available matrices", "why_tests_cant": "matrices and pixels range over infinite domains; a test sees a handful of cameras, where a wrong inverse shows up only as a slight colour cast", "anchors": ["rawler/src/imgop/matrix.rs:normalize,pseudo_inverse", "rawler/src/imgop/chromatic_adaption.rs:adapt_bradford", "rawler/src/imgop/raw.rs:map_3ch_to_rgb,map_4ch_to_rgb,clip_euclidean_norm_avg", "rawler/src/imgop/develop.rs:develop_intermediate"]}
{"id": "C46", "title": "Development puts every pixel through scaling, demosaicing, colour, crop and tone curve at its own place", "statement": "With the default steps the developed image of a Bayer sensor has the size of the crop area (else the active area, else the sensor) and its pixel at (y, x) is the tone curve of the colour conversion of the demosaiced, level scaled samples at the crop origin plus (y, x), for every schedule of the parallel loops; a white balanced grey card becomes a uniform grey.  For images with three samples per pixel the crop is placed relative to the active area although the image was not cut to it (refuted: the wrong pixels are developed).  Monochrome images and rotated Fuji sensors with an active area panic.", "quantifier": "all image sizes, sample values, active and crop areas, patterns, matrices, white balance values, schedules and arithmetics", "why_tests_cant": "a test develops a few files and compares with a stored result; it cannot show that no pixel of any image is taken from a wrong place", "anchors": ["rawler/src/imgop/develop.rs:RawDevelop::develop_intermediate,ProcessingStep", "rawler/src/imgop/raw.rs:map_3ch_to_rgb", "rawler/src/rawimage.rs:apply_scaling"]}
{"id": "C47", "title": "CRX (Canon CR3) band coding inverts the band encoder", "statement": "Decoding the coded lines of a CRX sub-band returns exactly the samples the format's encoder (T.87 run lengths, adaptive Golomb-Rice codes with a 21 bit escape, median edge prediction in the LL band, parameter prediction from the line above in the others) coded, line by line, and consumes exactly the coded bits.", "quantifier": "All widths and heights from 1, all samples in [-2^19, 2^19), both kinds of bands, any bytes after the code; rounding mask not positive.", "why_tests_cant": "The run index, Golomb parameter and the parameters of the previous line are carried across all samples; only an induction over columns and lines covers every interaction of runs, escapes, line ends and parameter adaptation.", "anchors": ["rawler/src/decompressors/crx/decoder.rs:decode_line", "rawler/src/decompressors/crx/rice.rs:adaptive_rice_decode", "rawler/src/decompressors/crx/runlength.rs:symbol_run_count"]}
{"id": "C48", "title": "CRX wavelet planes are reconstructed exactly", "statement": "When a Canon CR3 plane is stored as wavelet bands (reversible 5/3 transform, any number of levels), the decoder returns exactly the samples whose bands are stored: every row and column, for odd and even sizes of at least three samples per level, at the image border (mirrored) and next to a left or right neighbour tile (where the bands carry extra coefficients of the neighbour). A tile that has another tile below it is refused at every input rather than decoded wrongly.", "quantifier": "all plane sizes with at least 3 rows and columns at every level, all numbers of levels >= 1, all sample values within the i32 head-room, both settings of left and right neighbour, every source of band lines", "why_tests_cant": "The transform keeps a ring of five lines per level and refills levels lazily; errors show only for particular parities, level interactions and border positions, and an image test covers one size.", "anchors": ["rawler/src/decompressors/crx/idwt.rs:idwt_53_filter_init", "rawler/src/decompressors/crx/idwt.rs:idwt_53_filter_transform", "rawler/src/decompressors/crx/idwt.rs:idwt_53_filter_decode", "rawler/src/decompressors/crx/decoder.rs:decode_plane_line"]}
{"id": "C49", "title": "CRX (Canon CR3) images decode to the stored picture", "statement": "Decoding the image data of a CR3 file gives, at every row and column of the frame, the picture its planes describe: header records (old and new form) locate every tile, plane and band, QP tables and quantization steps restore the coefficients, the wavelet levels restore the planes, and the four planes of each tile are converted (shifted to mid range, or colour transformed), clamped to the bit depth and put at their place in the frame. Every picture whose coefficients are codable has lossless image data that decodes to it.", "quantifier": "all frame sizes and tile widths with up to 255 tiles in one row of tiles, 0 to 3 wavelet levels with planes larger than 2^levels, bit depths 1 to 16, both encodings, old and new records, with and without QP tables, all samples up to 2^18, any bytes after the header and the data", "why_tests_cant": "Offsets, extra columns at tile borders, parities of every level and step tables interact; a sample file exercises one camera's sizes and settings.", "anchors": ["rawler/src/decompressors/crx/mod.rs:decompress_crx_image", "rawler/src/decompressors/crx/mod.rs:process_tiles", "rawler/src/decompressors/crx/mdat.rs:parse_header", "rawler/src/decompressors/crx/iquant.rs:generate_qstep_table", "rawler/src/decompressors/crx/iquant.rs:decode_line_with_iquantization", "rawler/src/decompressors/crx/decoder.rs:decode_full_plane", "rawler/src/decompressors/crx/decoder.rs:convert_plane_line", "rawler/src/decompressors/crx/decoder.rs:integrate_cfa"]}
{"id": "C50", "title": "Pentax PEF images decode to the stored picture", "statement": "Decoding Pentax PEF image data gives, for any data, the two-lane running sums of the differences which the canonical Huffman code of the maker note entry (either byte order), or the built-in code if there is none, finds in the data; a picture encoded with such a code decodes to exactly itself, and every 12 bit picture can be encoded with the built-in code. Data of odd width is never decoded.", "quantifier": "all even widths and heights with width + height <= 65000, all canonical tables of 1 to 15 symbols and lengths up to 12, all data with 32 bits of look-ahead, all pictures with codable differences, any bytes after the data", "why_tests_cant": "The running sums carry every earlier sample into a later one, the Huffman table is data of the file, and the sum of the two lanes is wrapped to 16 bits; a sample file has one table and one size.", "anchors": ["rawler/src/decoders/pef.rs:PefDecoder::do_decode", "rawler/src/decoders/pef.rs:PefDecoder::decode_compressed", "rawler/src/decompressors/ljpeg/huffman.rs:HuffTable::initialize", "rawler/src/decompressors/ljpeg/huffman.rs:HuffTable::huff_decode"]}
{"id": "C51", "title": "Nikon NEF images decode to the stored picture", "statement": "Decoding Nikon NEF compressed data gives, for any data, the two-lane running sums of the differences which the Nikon code selected by the file's version and bit depth (and by the split row) finds in the data, cut to the bit depth, looked up in the curve of the maker note (given in full, by interpolation points, or the identity) and dithered; a dithered value is within a quarter of the neighbour distance of the curve entry. A picture stored as code symbols, or encoded without a split row, decodes to its developed samples. A lossless file decodes each sample to itself or to one less; exactly which is given by the noise sequence seeded from the first 24 bits. Odd widths and curves without points never decode.", "quantifier": "all maker notes accepted by the decoder in either byte order, all even widths and heights with width + height <= 65000, all data with 32 bits of look-ahead, all pictures with codable differences, any bytes after the data", "why_tests_cant": "The curve, start values and code come from the file, every sample depends on all earlier ones in its lane, and the dithering noise depends on the position of every sample; a sample file fixes all of them.", "anchors": ["rawler/src/decoders/nef.rs:NefDecoder::do_decode", "rawler/src/decoders/nef.rs:NefDecoder::create_hufftable", "rawler/src/decoders/nef.rs:NIKON_TREE", "rawler/src/bits.rs:LookupTable", "rawler/src/bits.rs:clampbits", "rawler/src/decompressors/ljpeg/huffman.rs:HuffTable::huff_decode"]}
{"id": "C52", "title": "Sony ARW images decode to the stored picture", "statement": "Decoding the first Sony format gives, for any data, the running sums of the differences found in it, written column by column from the last to the first, even rows before odd rows; a picture of even height encoded with its code decodes exactly, and an image of odd height never gets its odd rows. Decoding the second format gives, for any data whose blocks have their extremes in order, the block samples (16 alternate columns per block, 7 bits each scaled by the range of the block) put through the curve of the file and dithered; a picture encoded in blocks decodes to the curve of its quantized samples, which are exact for the extremes and for blocks of small range and otherwise less than a 64th of the range too small. The curve has slopes 1, 2, 4, 8, 16 between the four knots of the tag. Columns after the last whole stretch of 32 stay 0, a block whose maximum is below its minimum stops the program, and so does a curve with all its knots at 1.", "quantifier": "all data, widths and heights; all pictures of 16 bit (first format) or 11 bit samples (second format); all knots in order from 4 on; any bytes after the data", "why_tests_cant": "Each sample of the first format depends on all the earlier ones of the image; the value, length and shift of each block of the second depend on the data of the block; sample files fix all of them.", "anchors": ["rawler/src/decoders/arw.rs:ArwDecoder::decode_arw1", "rawler/src/decoders/arw.rs:ArwDecoder::decode_arw2", "rawler/src/decoders/arw.rs:ArwDecoder::get_curve", "rawler/src/decoders/arw.rs:ArwDecoder::calculate_curve", "rawler/src/pumps.rs:BitPumpLSB", "rawler/src/bits.rs:LookupTable"]}
{"id": "C53", "title": "Samsung SRW images decode to the stored picture", "statement": "Decoding the first Samsung format gives, for any rows wherever the offset table puts them, the picture that follows from the stored corrections, with red and blue exchanged: every group of 16 columns is predicted from the rows above or from the end of the group before, and its corrections have the lengths the group keeps, changes or gives. A picture of even width and height written in any such form, and every picture of 14 bit samples has one, decodes exactly; an image of odd height never decodes, and a length taken below zero stops the program. Decoding the second format gives, for any data, the sums of the differences in each of the four lanes (row and column parity), and every picture of 13 bit samples written with its code decodes exactly, whatever its size.", "quantifier": "all forms, data, widths from 16 (first format) or any widths (second format), heights, pictures; any bytes after the data", "why_tests_cant": "The lengths and predictors of every group depend on the groups before it and each sample on earlier ones; sample files use one camera's choices.", "anchors": ["rawler/src/decoders/srw.rs:SrwDecoder::decode_srw1", "rawler/src/decoders/srw.rs:SrwDecoder::decode_srw2", "rawler/src/decoders/srw.rs:SrwDecoder::srw2_diff", "rawler/src/pumps.rs:BitPumpMSB32"]}
{"id": "C54", "title": "Panasonic RW2 images decode to the stored picture", "statement": "Decoding the Panasonic formats 4, 5, 6 and 7 gives, for any data that is long enough, the samples that each packet of 16 bytes stands for, whatever the number of rows decoded in parallel: packed 12 or 14 bit samples (5 and 7), differences with scales and a direct value for the first non-zero sample of each parity (4 and 6), in the plain or the split order of the file. Pictures written in the format decode exactly. Known defects are exact too: in the split order of format 4 one packet of 1024 takes foreign bits, dark samples of format 6 come out nearly white, and 12 bit images never decode in format 7.", "quantifier": "all buffers, widths that are whole packets, heights, pictures; any bytes after the data", "why_tests_cant": "Each sample depends on the others of its packet and on a place computed from all before it; the wrong packet occurs once in 16 KiB.", "anchors": ["rawler/src/decoders/rw2/v4decompressor.rs:decode_panasonic_v4", "rawler/src/decoders/rw2/v5decompressor.rs:decode_panasonic_v5", "rawler/src/decoders/rw2/v6decompressor.rs:decode_panasonic_v6", "rawler/src/decoders/rw2/v7decompressor.rs:decode_panasonic_v7", "rawler/src/pumps.rs:BitPumpPanasonic"]}
{"id": "C55", "title": "Kodak DCR images decode to the stored picture", "statement": "Decoding a Kodak DCR image gives, for any data that is long enough, the curve and dithering applied to the samples that the data stands for: each row is cut into segments of 256 samples, each segment gives the lengths of its differences and then the differences in 16 bit words, and a sample is the sum of the differences of its parity in the segment, never below zero. Every segment uses exactly its bytes, so the next one starts where the encoder put it. A picture of 15 bit samples written in this form decodes to the same samples.", "quantifier": "all buffers, widths, heights, curves without overflow, pictures; any bytes after the data", "why_tests_cant": "Where a segment starts depends on all lengths before it, and the number of words on the width modulo 8.", "anchors": ["rawler/src/decoders/dcr.rs:DcrDecoder::decode_kodak65000", "rawler/src/decoders/dcr.rs:DcrDecoder::decode_segment", "rawler/src/bits.rs:LookupTable::dither"]}
{"id": "C56", "title": "Olympus ORF compressed images decode to the stored picture", "statement": "Decoding Olympus compressed data gives, for any data that is long enough, the picture whose samples are the prediction from the samples two to the left and two above plus the coded value; the number of bits of a value depends on the values before it in the same row and column parity. The header before the data is 8 bytes for 14 bit files and 7 bytes otherwise. A picture of 15 bit samples of even width, written in this form, decodes to the same samples; with an odd width the last column is black. For full 16 bit samples the decoder can fail.", "quantifier": "all buffers, widths, heights, 15 bit pictures; any header and any bytes after the data", "why_tests_cant": "The length of every code depends on all values before it in its row, so a wrong width shifts everything after it; tests see a handful of camera files.", "anchors": ["rawler/src/decoders/orf.rs:OrfDecoder::decode_compressed", "rawler/src/pumps.rs:BitPumpMSB"]}
{"id": "C57", "title": "Chroma-subsampled, Hasselblad and Leaf LJPEG data decode to the stored picture", "statement": "Decoding lossless JPEG data with 4:2:2 or 4:2:0 chroma subsampling gives, for any scan data, the interleaved Y, Cb, Cr picture in which every luma sample is its predecessor in the block order plus the next difference of the data, every chroma sample is the left (in the first column: upper) chroma sample plus its difference, and the two or four pixels of a block share one chroma pair; the Sony variant predicts the two luma lines of a block separately. Pictures written in these forms come back unchanged. Hasselblad data (predictor 8) give two running sums per row, restarting at 32768. Leaf files consist of strips of eight rows separated by markers, each predicted on its own, with the rows optionally stored even rows first and odd rows from the bottom; a wrong number of strips is an error.", "quantifier": "all tables, scan data, picture sizes, sample values below 65536, output buffers; any number of strips and any marker codes between them", "why_tests_cant": "Each sample depends on all differences before it and on the order of blocks, tables and rows; a wrong predecessor shows only in some pictures, and tests see a few camera files.", "anchors": ["rawler/src/decompressors/ljpeg/decompressors.rs:decode_ljpeg_420,decode_sony_ljpeg_420,decode_ljpeg_422,decode_hasselblad,decode_leaf_strip", "rawler/src/decompressors/ljpeg/mod.rs:LjpegDecompressor::decode,decode_sony,decode_leaf", "rawler/src/decoders/mos.rs:MosDecoder::do_decode"]}
{"id": "C58", "title": "Canon CR2 frames become the picture: fields, chroma, sRAW colours", "statement": "A sensor picture cut into vertical fields and stored field by field in the frame of a CR2 file comes back whole, for frames of image size and for frames with two image lines per line. For sRAW files every sample of the frame lands at its row and column (with two lines per block the fields are read in pairs of rows), chroma of odd columns becomes the rounded mean of its neighbours, chroma of the middle row of every three becomes the mean of the rows around it, and R, G and B are the clamped products of white balance factor and the sum of luma and the chroma terms of the camera generation. Fields wider than the image and odd heights with two lines per block panic; without white balance values the picture is black. Linearized samples stay within a quarter step of the curve.", "quantifier": "all pictures with 15 bit samples, all numbers and widths of fields, heights, white balance factors up to 32, camera generations, model ids and firmware versions; all 16 bit pictures for chroma; all curves that fit", "why_tests_cant": "The place of a sample depends on all field widths and the height together and chroma on the position modulo two and three; tests see the few layouts of sample files.", "anchors": ["rawler/src/decoders/cr2.rs:Cr2Decoder::raw_image,convert_to_rgb,interpolate_yuv"]}
{"id": "C59", "title": "A picture converted to DNG is read back from the bytes of the file", "statement": "For every integer picture with a colour filter array or demosaiced planes, every compression, predictor, crop mode, preview and thumbnail choice and every set of writable metadata, the conversion succeeds; if the file is smaller than 4 GiB, the TIFF reader accepts it, the DNG decoder finds the raw image among the directories whatever the iteration order of its hash map, decodes it without error under every schedule of the parallel loop, and the result has the same size, samples, colour filter array, white levels, active area and crop, with black levels as stored relative to the active area. Monochrome pictures are written but always rejected by the decoder; demosaiced pictures with two or four planes panic.", "quantifier": "all sizes up to 65535, all 16 bit samples, all patterns that line up with the active area, all black and white levels, areas, metadata tags outside the layout tags (up to 3900), preview and thumbnail data, orders of sub directories and schedules", "why_tests_cant": "The file is built by about thirty steps that add tags to shared directories and move offsets; whether some combination of metadata, preview and layout hides or damages the raw image cannot be sampled, nor can the orders of hash map and threads.", "anchors": ["rawler/src/dng/convert.rs:internal_convert", "rawler/src/dng/writer.rs:DngWriter,SubFrameWriter", "rawler/src/decoders/dng.rs:DngDecoder::raw_image,get_raw_ifd"]}
{"id": "C60", "title": "The boxes of a CR3 file are found and lead to the raw picture", "statement": "Every file made of well formed boxes (ISO base media with the Canon boxes) is parsed into exactly its tree of boxes. For sample tables with one or two runs of chunks the place and size of every sample are found, and the bytes of the chosen sample of the track named for the full picture go to the decompressor with the parameters of its CMP1 box; a losslessly coded picture is read back from the bytes of the file. With three runs a sample is taken from the wrong chunk or a correct file stops the reader. The reader ends on every file without a box of size 0; a file of 16 bytes with one makes it run for ever.", "quantifier": "all trees of boxes of the shapes of the format, all sizes, brands, tables, numbers of tracks and further boxes, all positions of the picture data; all byte strings for termination", "why_tests_cant": "Sample files of cameras hold few box orders and one run of chunks; whether a loop over boxes ends on every file cannot be sampled.", "anchors": ["rawler/src/formats/bmff/mod.rs:FileBox::parse,BoxHeader::parse", "rawler/src/formats/bmff/stbl.rs:get_sample_offset", "rawler/src/formats/bmff/stsc.rs:StscBox", "rawler/src/decoders/cr3.rs:raw_image"]}
{"id": "C61", "title": "JPEG segments are found, and reading them ends", "statement": "Every JPEG file made of well formed JFIF, Exif, XMP, other and scan segments is split into exactly these segments with their places, whatever follows the end marker; the Exif directory and the XMP packet are those of the first such segment. The reader ends on every file without APP1 marker, and the Exif directory reader always ends. It never ends on a file that is cut off at the start of an APP1 segment. A fill byte before the end marker, a JFIF extension segment and a thumbnail of 10 by 10 pixels make correct files fail, a short XMP segment panics, and segments after a damaged Exif segment are lost.", "quantifier": "all sequences and contents of segments, all positions, all byte strings for termination, all cut points in an APP1 header", "why_tests_cant": "Sample files end properly and hold one or two segment orders; that the loop ends cannot be shown by running it.", "anchors": ["rawler/src/formats/jfif.rs:Jfif::parse,App1::read_segment,App0::read_segment,SOS::read_segment"]}
{"id": "C62", "title": "Every file is given to the decoder it is for", "statement": "Every file the converter writes (below 1 GiB) is given to the DNG decoder. Files with the signatures of MRW, RAF, ARI, QTK, CIFF and X3F go to their decoders. A TIFF file below 1 GiB in either byte order goes to the DNG decoder exactly by its DNGVersion tag, else by model and by the name of the maker, whatever Unicode white space follows the name; an unknown maker is an error and a file without hints is judged by its size. CR3 files are found by the brand of the ftyp box at the start, Konica Minolta raw files by the Exif data in the JPEG file. The choice does not end on a 16-byte box file and on a cyclic TIFF file, and a correct big-endian DNG file with its root directory at 0x4845 is taken for a CIFF file.", "quantifier": "all files of the named kinds, all contents, all chains of directories, all texts and all white space, all converted pictures, settings and metadata", "why_tests_cant": "The tests name the decoder by camera; that no content of a converted file is mistaken for another format, and that no white space or directory order changes the choice, cannot be sampled.", "anchors": ["rawler/src/decoders/mod.rs:RawLoader::get_decoder", "rawler/src/formats/ciff/mod.rs:is_ciff", "rawler/src/decoders/mrw.rs:is_mrw", "rawler/src/formats/tiff/reader.rs:get_entry"]}
{"id": "C63", "title": "MRW files give the picture their blocks describe", "statement": "For a Minolta MRW file of any blocks in any order followed by the samples, where the last block has more than 12 bytes, the last PRD block gives height, width and packing, the last WBG block the white balance, the last TTW block the place of the TIFF data, and the raw picture has exactly the samples after the blocks: packed 12 bit samples when the data size is 12, else the low 12 bits of big-endian words. The search for blocks ends on every file. A white balance block in the last place is ignored although it is complete, and cut files and lengths near 2^32 panic.", "quantifier": "all lists of blocks, all contents, all sample data, all widths and heights, all schedules of the row loop; all files for the end of the search", "why_tests_cant": "The tests hold a few MRW files with one order of blocks; that the order does not matter and the loop ends on every file is beyond samples.", "anchors": ["rawler/src/decoders/mrw.rs:new_mrw", "rawler/src/decoders/mrw.rs:raw_image", "rawler/src/bits.rs:BEu32"]}
{"id": "C64", "title": "CIFF files give the values of their tree of heaps", "statement": "For every file that holds a tree of CIFF heaps of depth up to 10, with the values, directories and sub heaps at any addresses, the reader finds for every tag exactly the value the tree gives: the last one in the heap itself, else the first one in its sub heaps in order; every heap is read once. A record at an unknown place is an error for the file, and makes a sub heap a plain value. In every file whatsoever an entry that is found has the tag asked for, the type in the tag and the bytes of the file at its address. Every such tree can be written as a CRW file, is read back and is given to the CRW decoder. The limit of the depth does not limit the work: a file of 10 k + 20 bytes makes k^9 directories. Values below depth 10 are lost without an error, and damaged files panic.", "quantifier": "all files, all trees of heaps up to depth 10, all values and tags; all k below 65536", "why_tests_cant": "The tests hold a few CRW files; the addresses in a heap are arbitrary, so a tree can be laid out in unboundedly many ways, and files that refer to themselves never occur in test sets.", "anchors": ["rawler/src/formats/ciff/mod.rs:CiffIFD::new", "rawler/src/formats/ciff/mod.rs:CiffIFD::new_file", "rawler/src/formats/ciff/mod.rs:CiffEntry::new", "rawler/src/formats/ciff/mod.rs:find_entry"]}
{"id": "C65", "title": "The CRW decompressor gives back the coded picture", "statement": "Let a picture of whole blocks of 64 pixels be coded as CRW cameras do: differences to the pixel two to the left in the line (512 at the start), the first difference of a block as the change against the block before, zeros as runs, single zeros or an end of block. When the symbol reader delivers this code, with whatever tables, the decompressor gives exactly the picture, for every width and any mixture of runs; with low bits every pixel also gets its two bits from byte 26 on. For the width 2672 exactly 2 is added to values below 512. Pixels after the last whole block are not decoded: pictures of less than 64 pixels are black.", "quantifier": "all pictures of 16 bit pixels, all widths, all codes of each block, all symbol readers", "why_tests_cant": "Camera files only show some runs and widths; the choice between runs, single zeros and end of block makes very many codes of one picture.", "anchors": ["rawler/src/decoders/crw.rs:do_decode"]}
