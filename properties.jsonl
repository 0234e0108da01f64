{"id": "C01", "title": "Varint encoding round-trips and is minimal", "statement": "Encoding any u64 with the varint encoder and decoding the produced bytes with the slice decoder returns the same number; the encoding is between 1 and 10 bytes and is the shortest varint with that value.", "quantifier": "every u64 value", "why_tests_cant": "2^64 values; the interesting ones sit at every 7-bit boundary and the shift/overflow checks interact", "anchors": [{"file": "src/formats/protobuf/varint.rs", "symbols": ["encode_u64", "decode_u64", "encode_usize"]}]}
{"id": "C02", "title": "Varint decoding returns exactly the base-128 value or an error", "statement": "Decoding an arbitrary byte string succeeds exactly when the string is a non-empty sequence of continuation bytes (top bit set) followed by one final byte, is at most ten bytes long, and its little-endian base-128 value fits 64 bits; then the returned number is that value. Every other input yields one of the documented errors (missing final byte, misplaced final byte, overflow), never a wrong number.", "quantifier": "every byte string of every length", "why_tests_cant": "unbounded input length; wrong-value bugs hide behind the shift limit", "anchors": [{"file": "src/formats/protobuf/varint.rs", "symbols": ["decode_u64", "DecodeError"]}]}
{"id": "C03", "title": "The incremental varint decoder agrees with the slice decoder", "statement": "Feeding the bytes of any varint one at a time to the incremental decoder yields Pending for every byte but the last and then the same result as the slice decoder. (Refuted for over-long encodings whose tenth byte carries bits above 2^64: the incremental decoder silently drops them and returns a wrong number where the slice decoder reports overflow.)", "quantifier": "every byte string", "why_tests_cant": "Two implementations must agree on every byte string, including over-long and truncated encodings; a test compares them on a handful of samples.", "anchors": [{"file": "src/formats/protobuf/varint.rs", "symbols": ["U64Decoder", "decode_u64"]}]}
{"id": "C04", "title": "Varints are self-delimiting", "statement": "Reading a varint from the front of a buffer consumes exactly the bytes of the encoding and leaves whatever follows untouched, so concatenated encodings are read back as the same sequence of numbers.", "quantifier": "every list of u64 values and every trailing byte string", "why_tests_cant": "The claim is about arbitrary concatenations followed by arbitrary bytes; tests only try particular neighbours.", "anchors": [{"file": "src/formats/protobuf/protobuf.rs", "symbols": ["VarInt::read_from"]}, {"file": "src/formats/protobuf/varint.rs", "symbols": ["encode_u64"]}]}
{"id": "C05", "title": "Signed, zig-zag and boolean protobuf scalars round-trip", "statement": "Every i32/i64 written with the int32/int64 writers, every u32/u64 and every bool written with the corresponding writer is returned unchanged by the matching accessor of the field that is read back; the sint32/sint64 accessors invert the standard zig-zag map on every value (the writer has no sint methods).", "quantifier": "every value of every integer width", "why_tests_cant": "sign extension, truncation and zig-zag are bit tricks whose edge cases are the extremes of each type", "anchors": [{"file": "src/formats/protobuf/protobuf.rs", "symbols": ["VarInt", "FieldData", "PBufWriter"]}]}
{"id": "C06", "title": "A protobuf message reads back as the fields that were written", "statement": "For any sequence of varint, string and bytes writes, reading the produced bytes yields exactly the same fields, in the same order, with the same numbers and payloads, and nothing else.", "quantifier": "every list of field writes", "why_tests_cant": "unbounded message shapes; framing errors show up only for particular length/number combinations", "anchors": [{"file": "src/formats/protobuf/protobuf.rs", "symbols": ["PBufWriter", "PBufReader::read_field"]}]}
{"id": "C07", "title": "Protobuf reading never runs past its input and always terminates", "statement": "Reading fields from an arbitrary byte string never panics, always makes progress, terminates with end-of-message or an error, and every payload returned is a sub-slice of the input lying after its tag; on success the fields tile the input.", "quantifier": "every byte string", "why_tests_cant": "A hostile peer chooses the lengths and nesting; one missed bound check at one length is enough, and no set of samples covers all inputs.", "anchors": [{"file": "src/formats/protobuf/protobuf.rs", "symbols": ["PBufReader"]}]}
{"id": "C08", "title": "Fixed-width protobuf fields", "statement": "A fixed64/fixed32 value written by the protobuf writer is read back unchanged by the matching accessor. (Refuted: fixed64 is written big-endian but read little-endian; every fixed32/sfixed32/float write panics on the tag assertion.)", "quantifier": "every u64 / u32 value", "why_tests_cant": "needs all values; the bug is invisible for palindromic values such as 0", "anchors": [{"file": "src/formats/protobuf/protobuf.rs", "symbols": ["write_fixed64", "write_fixed32", "write_tag", "to_fixed64"]}]}
{"id": "C09", "title": "DAG-PB nodes round-trip", "statement": "Encoding a DAG-PB link or node and decoding it returns the same links (hash, name, size), in the same order, and the same data bytes.", "quantifier": "every node: any number of links, any names, sizes and data", "why_tests_cant": "Links, names and data are unbounded and nested length prefixes change width at 2^7, 2^14, ...; samples miss the combinations.", "anchors": [{"file": "src/ipfs/dagpb.rs", "symbols": ["PBLink", "PBNode"]}]}
{"id": "C10", "title": "libp2p keys and Identify messages round-trip", "statement": "Encoding a public key or an Identify message and decoding it returns the same key, versions, protocols, addresses and signed record.", "quantifier": "every Identify message", "why_tests_cant": "Any number of repeated and optional fields, in every combination of presence and length-prefix width.", "anchors": [{"file": "src/libp2p/identify.rs", "symbols": ["Identify"]}, {"file": "src/libp2p/peer_id.rs", "symbols": ["PublicKey", "PrivateKey"]}]}
{"id": "C11", "title": "Bitswap messages round-trip", "statement": "Encoding a bitswap want list and decoding it returns the same entries in the same order (block, priority including negative priorities, cancel, want type, send-dont-have) and the same full flag; likewise for legacy block payloads carried by the message type. Fields of the message that the encoder drops are identified.", "quantifier": "every message", "why_tests_cant": "Unbounded lists, signed priorities and fields whose default value is not written; the combinations are too many to sample.", "anchors": [{"file": "src/ipfs/bitswap/message.rs", "symbols": ["Entry", "WantList", "Block", "Message"]}]}
{"id": "C12", "title": "A parsed directory has distinct non-empty names in link order", "statement": "Whenever parsing a UnixFS directory block succeeds, the directory has one entry per link, in link order, with that link's name, size and CID, all names are non-empty and pairwise distinct; and otherwise parsing fails with an error describing the first offending link (its index for a missing name or size, the name for a duplicate).", "quantifier": "every directory block", "why_tests_cant": "The claim quantifies over all lists of links, including duplicate and empty names at any two positions.", "anchors": [{"file": "src/ipfs/fs.rs", "symbols": ["Directory::from_dagpb", "Node::from_dagpb_data"]}]}
{"id": "C13", "title": "UnixFS metadata parsing is faithful to the wire message", "statement": "Parsing the protobuf encoding of UnixFS metadata returns precisely the type, data, file size, block sizes, hash type, fan-out, mode and mtime that were encoded, in order; duplicates of singular fields and a missing type are rejected.", "quantifier": "every metadata record", "why_tests_cant": "Many optional fields and any number of block sizes; a test fixes a few combinations.", "anchors": [{"file": "src/ipfs/unixfs.rs", "symbols": ["Data", "DataType", "UnixTime"]}]}
{"id": "C14", "title": "Unknown protobuf fields are ignored", "statement": "Inserting fields with numbers a message type does not define, at any position, does not change the result of decoding a DAG-PB link, DAG-PB node, public key, Identify, bitswap entry, want list or message.", "quantifier": "every field list and every insertion position", "why_tests_cant": "A relation between two inputs: any unknown field inserted at any position of any message.", "anchors": [{"file": "src/ipfs/dagpb.rs", "symbols": ["PBLink::from_pb", "PBNode::from_pb"]}, {"file": "src/libp2p/identify.rs", "symbols": ["Identify::from_pb"]}, {"file": "src/ipfs/bitswap/message.rs", "symbols": ["Entry::from_pb", "WantList::from_pb", "Message::from_pb"]}]}
{"id": "C15", "title": "Binary reader stays in bounds", "statement": "Whatever sequence of reads is performed on whatever bytes, the reader never panics, its offset never passes the end, it never moves backwards, a failed primitive read leaves the offset where it was, and the bytes returned are exactly the input bytes between the old and the new offset.", "quantifier": "every input and every sequence of read operations", "why_tests_cant": "sequences of operations with attacker-controlled lengths, including lengths that overflow usize", "anchors": [{"file": "src/util/binary.rs", "symbols": ["BinaryReader"]}]}
{"id": "C16", "title": "Binary writer/reader round-trip", "statement": "Everything written with the fixed-width, length-prefixed and list writers is read back unchanged by the matching readers, consuming exactly the bytes written, for any sequence of writes; length overflow is reported as an error.", "quantifier": "every sequence of writes and every payload", "why_tests_cant": "Unbounded sequences of writes; mistakes sit at the boundaries 2^8, 2^16 and 2^24 of nested lengths.", "anchors": [{"file": "src/util/binary.rs", "symbols": ["BinaryWriter", "BinaryReader"]}]}
{"id": "C17", "title": "QUIC varints round-trip", "statement": "Every value below 2^62 written as a QUIC varint reads back unchanged, uses the shortest of the four forms and consumes exactly the bytes written. (Refuted for values of 2^62 and above, which the writer accepts and mangles.)", "quantifier": "every u64 value", "why_tests_cant": "2^64 values with three form boundaries; no test enumerates them, and the values that cannot be encoded at all must be characterised.", "anchors": [{"file": "src/util/binary.rs", "symbols": ["write_quic_varint", "read_quic_varint"]}]}
{"id": "C18", "title": "Failed length-prefixed writes leave the buffer unchanged", "statement": "If a length-prefixed write fails (payload too long, or the element encoder fails) the writer holds exactly the bytes it held before the call; if it succeeds the previous contents are a prefix of the new contents and the length prefix equals the payload length. (Refuted for the 16-bit nested writer, which succeeds with a wrapped length for bodies of 65536 bytes or more.)", "quantifier": "every prior buffer content, every payload, every failing element position", "why_tests_cant": "The failure may come at any element of an unbounded list, after any earlier buffer content.", "anchors": [{"file": "src/util/binary.rs", "symbols": ["write_len8_bytes", "write_len16_list", "write_u16_nested"]}]}
{"id": "C19", "title": "Hex text round-trips", "statement": "Formatting any bytes as hex text and parsing it back returns the same bytes; parsing accepts exactly the even-length strings over 0-9a-fA-F and is case-insensitive; formatting a parsed string gives its lower-case form.", "quantifier": "every byte string and every text", "why_tests_cant": "All strings, in both directions: tests check samples and cannot show that no other text is accepted.", "anchors": [{"file": "src/util/util.rs", "symbols": ["BinaryData", "from_hex"]}]}
{"id": "C20", "title": "Multibase text round-trips in every supported base", "statement": "For every supported base and every byte string, decoding the encoded text returns those bytes, with and without the prefix character, and the text is the one the base's definition (RFC 4648, base-58 draft) prescribes.", "quantifier": "every byte string, every base", "why_tests_cant": "arbitrary lengths (all residues mod 3 and 5) and, for base 58, arbitrary magnitude and leading zeros", "anchors": [{"file": "src/ipfs/types/multibase.rs", "symbols": ["encode", "decode", "encode_noprefix", "decode_noprefix"]}]}
{"id": "C21", "title": "Base-58 text is canonical", "statement": "Any text the base-58 decoder accepts is exactly the text the encoder produces for the decoded bytes, so two different base-58 texts never denote the same bytes.", "quantifier": "every accepted text", "why_tests_cant": "Canonicity says no second text decodes to the same bytes; a test cannot search all texts for one.", "anchors": [{"file": "src/ipfs/types/multibase.rs", "symbols": ["encode_base58", "decode_base58"]}]}
{"id": "C22", "title": "Base-16/32/64 decoding is canonical", "statement": "Two different texts never decode to the same bytes. (Refuted: non-zero trailing bits, an odd hex digit, missing padding and any junk after a padding character are accepted; the precise set of accepted texts and the exact result are characterised.)", "quantifier": "every text", "why_tests_cant": "Canonicity (or the exact set of exceptions) is about all pairs of texts, which no sampling can exhaust.", "anchors": [{"file": "src/ipfs/types/multibase.rs", "symbols": ["decode_basen"]}]}
{"id": "C23", "title": "Multibase decoding is total and rejects foreign characters", "statement": "Decoding any text returns bytes or an error and never panics; a character outside the alphabet (before any padding) is always rejected; the unknown prefixes are always rejected.", "quantifier": "every text", "why_tests_cant": "Adversarial text of any length with any character at any position.", "anchors": [{"file": "src/ipfs/types/multibase.rs", "symbols": ["decode", "decode_basen", "decode_base58"]}]}
{"id": "C24", "title": "CID bytes round-trip", "statement": "Serialising a CID to bytes and parsing the bytes returns the same CID, for every version-1 CID and every version-0 CID in standard form (SHA2-256, DAG-PB).", "quantifier": "every CID: any codec, hash function and digest", "why_tests_cant": "Codec, hash function and digest are varint-coded fields of arbitrary size; widths interact with the total length.", "anchors": [{"file": "src/ipfs/types/cid.rs", "symbols": ["CID::to_bytes", "CID::from_bytes"]}]}
{"id": "C25", "title": "CID text round-trips", "statement": "Printing any standard CID (v0 in base 58, v1 in base 32) and parsing the text returns the same CID; in particular every v0 text is 46 characters starting with Qm and every v1 text is not mistaken for a v0 text.", "quantifier": "every digest, codec and hash function", "why_tests_cant": "all 2^256 digests: whether the text is 46 characters starting with Qm is a numeric range fact", "anchors": [{"file": "src/ipfs/types/cid.rs", "symbols": ["CID::from_string", "Display for CID"]}]}
{"id": "C26", "title": "CID parsing is total and never confuses two CIDs", "statement": "Parsing any bytes or any text as a CID never panics; two byte strings that parse to the same CID differ only by non-minimal varint encodings, and distinct CIDs have distinct byte encodings.", "quantifier": "every byte string, every pair of CIDs", "why_tests_cant": "Absence of confusion is about all pairs of values and all byte strings, not about samples.", "anchors": [{"file": "src/ipfs/types/cid.rs", "symbols": ["CID::from_bytes", "CID::from_string", "CIDPrefix::from_bytes"]}]}
{"id": "C27", "title": "A received block is addressed by the hash of its contents", "statement": "The CID computed for a received block carries the prefix's version and codec and the digest, under the prefix's hash function, of exactly the block's bytes; other hash functions are rejected. Hence a block can satisfy a request only if its content hashes to the requested digest.", "quantifier": "every prefix, every block, every hash function implementation", "why_tests_cant": "Must hold for every block content and every hash function; a test fixes both.", "anchors": [{"file": "src/ipfs/bitswap/block.rs", "symbols": ["get_block_cid"]}]}
{"id": "C28", "title": "Bencoded source locations identify the value", "statement": "For any input the parser accepts, the recorded location of every value (at any depth) delimits a slice of the input that parses on its own to the same value, consuming the whole slice; so the torrent info-hash is taken over exactly the info dictionary's bytes.", "quantifier": "every accepted input, every nested value", "why_tests_cant": "Every nested value at any depth of any accepted input must carry its own position; samples have small depth.", "anchors": [{"file": "src/formats/bencoding/mod.rs", "symbols": ["Parser", "Location"]}, {"file": "src/bittorrent/torrent.rs", "symbols": ["Torrent::from_bytes"]}]}
{"id": "C29", "title": "Bencoding round-trips through the parser", "statement": "Parsing the canonical bencoding of any value (non-negative integers, byte strings, lists, dictionaries with UTF-8 keys), followed by anything, returns that value.", "quantifier": "every value tree", "why_tests_cant": "Value trees are unbounded in depth and size, and the order of keys matters.", "anchors": [{"file": "src/formats/bencoding/mod.rs", "symbols": ["parse"]}]}
{"id": "C30", "title": "Bencode parsing terminates without panicking", "statement": "On every byte string the parser terminates with a value or an error and never indexes outside the input; every recorded location is within the input and children lie inside their parent. (Arithmetic: decimal lengths are checked for overflow.)", "quantifier": "every byte string", "why_tests_cant": "Adversarial inputs: a panic or an endless loop may hide behind one rare prefix.", "anchors": [{"file": "src/formats/bencoding/mod.rs", "symbols": ["Parser::parse_usize", "Parser::parse_value"]}]}
{"id": "C31", "title": "Accepted torrents are internally consistent", "statement": "Whenever a torrent file is accepted, its piece hashes are 20 bytes each, the total length is the sum of the file lengths and at most piece length times piece count.", "quantifier": "every torrent file", "why_tests_cant": "Consistency must hold for every file an attacker can publish, not only for well-formed samples.", "anchors": [{"file": "src/bittorrent/torrent.rs", "symbols": ["Torrent::from_bytes", "parse_files"]}]}
{"id": "C32", "title": "The last piece length is the remainder", "statement": "For every accepted torrent the last piece's length is between 0 and the piece length and the piece lengths add up to the total length. (Refuted: a torrent with surplus piece hashes is accepted and computing its last piece length underflows.)", "quantifier": "every accepted torrent", "why_tests_cant": "Needs every combination of file sizes and piece length, including exact multiples and zero.", "anchors": [{"file": "src/bittorrent/torrent.rs", "symbols": ["last_piece_length"]}]}
{"id": "C33", "title": "Torrent file paths stay under the torrent's name", "statement": "File paths in an accepted torrent never escape the torrent directory. (Refuted: '..' and '/' components are accepted verbatim.)", "quantifier": "every accepted torrent", "why_tests_cant": "An attacker chooses every path component; a single overlooked form escapes the directory.", "anchors": [{"file": "src/bittorrent/torrent.rs", "symbols": ["parse_files"]}]}
{"id": "C34", "title": "Piece bit-fields", "statement": "Updating a bit-field from bytes sets piece i exactly to bit 7-(i mod 8) of byte i/8, leaves the size unchanged and leaves pieces beyond the supplied bytes untouched; the set and clear counts always add up to the piece count.", "quantifier": "every bit-field size, every byte string, every sequence of updates", "why_tests_cant": "All sizes, including those that are not multiples of eight, and all sequences of updates.", "anchors": [{"file": "src/bittorrent/data.rs", "symbols": ["BitField"]}]}
{"id": "C35", "title": "Block requests tile the torrent exactly", "statement": "The requests created for a torrent cover every byte of every piece exactly once: requests of a piece are contiguous, start at 0, are at most 16384 bytes, non-empty, and end at the piece's length.", "quantifier": "every torrent (any number and size of pieces)", "why_tests_cant": "all sizes, in particular last pieces that are not multiples of 16384", "anchors": [{"file": "src/bin/torrent_client.rs", "symbols": ["Transfer::new"]}]}
{"id": "C36", "title": "A transfer never loses, duplicates or invents a block request", "statement": "After any sequence of peer messages every block request created at the start is in exactly one of the states pending, active or completed; a block is completed only when data of exactly the requested piece, offset and length arrived for an active request; at most 101 requests are active.", "quantifier": "every sequence of peer messages", "why_tests_cant": "Histories of messages are unbounded and chosen by the peer; a lost or doubled request shows up only after particular orders.", "anchors": [{"file": "src/bin/torrent_client.rs", "symbols": ["Transfer::start_request", "Transfer::complete_request", "handle_message"]}]}
{"id": "C37", "title": "BitTorrent peer messages do not depend on TCP segmentation", "statement": "However the bytes from a peer are split into reads, the same sequence of messages is delivered; no message is lost, duplicated or merged.", "quantifier": "every byte stream and every segmentation", "why_tests_cant": "There are exponentially many ways to cut a stream into reads; tests use few.", "anchors": [{"file": "src/bin/torrent_client.rs", "symbols": ["get_next_message", "recv_more_data", "parse_message"]}]}
{"id": "C38", "title": "mplex frames survive any segmentation", "statement": "Any sequence of frames appended to a frame stream, transported in arbitrary pieces, is read back as the same sequence of frames with the same stream numbers, kinds and payloads.", "quantifier": "every frame sequence, every split of the byte stream into reads", "why_tests_cant": "Exponentially many segmentations, including cuts inside a varint header.", "anchors": [{"file": "src/libp2p/mplex/frame.rs", "symbols": ["FrameStream", "Frame"]}]}
{"id": "C39", "title": "mplex streams do not mix", "statement": "Whatever frames arrive in whatever order and whichever streams the application polls, the bytes returned to a reader of a stream are, in order, bytes of message frames addressed to that stream, each delivered once; accepting returns exactly the new-stream frames in order.", "quantifier": "every frame sequence and every interleaving of reads and accepts", "why_tests_cant": "All schedules of frames, reads and accepts over any number of streams; mixing may need a rare order.", "anchors": [{"file": "src/libp2p/mplex/stream.rs", "symbols": ["MplexShared", "MplexStreams"]}]}
{"id": "C40", "title": "A remote peer cannot crash the mplex reader", "statement": "No bytes from a peer make the frame reader panic. (Refuted: a frame header announcing a payload length near 2^64 overflows the offset computation.)", "quantifier": "every byte stream", "why_tests_cant": "The remote peer chooses the bytes; absence of a panic is a statement about all of them.", "anchors": [{"file": "src/libp2p/mplex/frame.rs", "symbols": ["poll_read_frame"]}]}
{"id": "C41", "title": "End of file is reported only after the stream was closed", "statement": "A reader of an mplex stream sees end-of-file only if the peer closed or reset that stream. (Refuted: an empty message frame is reported as end-of-file, and data after a close is delivered.)", "quantifier": "every frame sequence", "why_tests_cant": "All histories of frames: a wrong end of file appears only when a close and data cross in a particular order.", "anchors": [{"file": "src/libp2p/mplex/stream.rs", "symbols": ["poll_read"]}]}
{"id": "C42", "title": "Length-prefixed messages survive any segmentation", "statement": "Any sequence of messages written with the length-prefix framing and transported in arbitrary pieces is read back as the same sequence followed by a clean end; if the stream is cut inside a message an unexpected-EOF error is reported, never a truncated message.", "quantifier": "every message sequence, every segmentation, every truncation point", "why_tests_cant": "All segmentations and all truncation points of arbitrary message sequences.", "anchors": [{"file": "src/libp2p/io.rs", "symbols": ["read_opt_length_prefixed_data", "write_length_prefixed_data", "ReadOptVarInt"]}]}
{"id": "C43", "title": "Multistream negotiation is decided by the exact reply", "statement": "The handshake succeeds exactly when the peer sends the protocol header message; a selection is accepted exactly when the peer echoes the protocol and unsupported exactly for 'na'; anything else is an error; protocol lists are decoded to exactly the entries sent.", "quantifier": "every peer byte stream", "why_tests_cant": "The peer may send anything; a test covers the expected answers and a few wrong ones.", "anchors": [{"file": "src/libp2p/multistream.rs", "symbols": ["multistream_handshake", "multistream_select", "multistream_list"]}]}
{"id": "C44", "title": "Service dispatch", "statement": "A requested protocol is dispatched to the first service registered under that exact name and the peer is told that protocol was accepted; unknown names are answered 'na' and the connection continues. (Refuted in part: the acceptance reply is always the identify protocol name.)", "quantifier": "every registry and request sequence", "why_tests_cant": "Every set of registered services and every sequence of requests, including names that are prefixes of others.", "anchors": [{"file": "src/ipfs/node.rs", "symbols": ["ServiceRegistry"]}, {"file": "src/bin/ipfs.rs", "symbols": ["connection_handler2"]}]}
{"id": "C45", "title": "Multiaddr bytes round-trip", "statement": "Parsing any bytes as a multiaddr is total and terminates; parsing the bytes of any well-formed address list returns the list; re-serialising what was parsed gives back the input bytes whenever protocol codes are minimally encoded (and the exception is exhibited).", "quantifier": "every byte string and every address list", "why_tests_cant": "All byte strings and all address lists, including unknown protocols and odd lengths.", "anchors": [{"file": "src/libp2p/multiaddr.rs", "symbols": ["MultiAddr", "Addr"]}]}
{"id": "C46", "title": "DER encoding round-trips", "statement": "Encoding any ASN.1 value tree supported by the writer and reading it back returns the same tree and consumes exactly the encoding. (Refuted for booleans: true is encoded as false.)", "quantifier": "every value tree", "why_tests_cant": "Trees of unbounded depth and every form of length; errors appear at 127/128, 255/256 and deeper.", "anchors": [{"file": "src/formats/asn1/writer.rs", "symbols": ["encode_item"]}, {"file": "src/formats/asn1/reader.rs", "symbols": ["read_item"]}]}
{"id": "C47", "title": "DER lengths", "statement": "Every length below 2^32 is encoded in the minimal definite form and read back exactly; longer lengths, the indefinite form and reserved forms are rejected by the reader.", "quantifier": "every length, every byte string", "why_tests_cant": "All lengths up to the machine limit and all non-minimal encodings.", "anchors": [{"file": "src/formats/asn1/writer.rs", "symbols": ["encode_length"]}, {"file": "src/formats/asn1/reader.rs", "symbols": ["read_length"]}]}
{"id": "C48", "title": "DER reading stays inside its parent", "statement": "Reading any bytes as DER terminates without panicking; every item's byte range is inside its parent's and inside the input; siblings do not overlap.", "quantifier": "every byte string", "why_tests_cant": "Nested lengths are chosen by an attacker; an escape needs one particular combination of inner and outer length.", "anchors": [{"file": "src/formats/asn1/reader.rs", "symbols": ["read_item", "read_item_list", "read_value"]}]}
{"id": "C49", "title": "Object identifiers round-trip", "statement": "Every object identifier with first arc 0 or 1 and second arc below 40 (or first arc 2 and second arc below 40) encodes and decodes to itself for all later arcs. (Refuted for 2.x with x>=40.)", "quantifier": "every object identifier", "why_tests_cant": "Arcs of all sizes, with multi-byte groups and the joined first two arcs.", "anchors": [{"file": "src/formats/asn1/reader.rs", "symbols": ["read_object_identifier"]}, {"file": "src/formats/asn1/writer.rs", "symbols": ["encode_item"]}]}
{"id": "C50", "title": "Certificates round-trip through their ASN.1 form", "statement": "Converting a certificate structure (names, validity, key, extensions) to ASN.1 and back returns the same structure; after DER encoding the critical flag of extensions is preserved. (Refuted for the critical flag.)", "quantifier": "every certificate structure", "why_tests_cant": "All combinations of names, validity, optional fields and extension lists.", "anchors": [{"file": "src/crypto/x509.rs", "symbols": ["TBSCertificate", "Extension", "Certificate"]}]}
{"id": "C51", "title": "PEM text round-trips and parsing terminates", "statement": "Decoding the PEM encoding of any label and data returns them; decoding any text terminates. (Refuted: a text that ends where a literal is expected makes the decoder loop forever.)", "quantifier": "every label, data and text", "why_tests_cant": "Termination and exactness over all texts; a test that hangs only shows the input somebody thought of.", "anchors": [{"file": "src/crypto/pem.rs", "symbols": ["encode_pem", "decode_pem", "Parser::expect_string"]}]}
{"id": "C52", "title": "TLS code points are preserved", "statement": "Converting any raw code point (content types, alerts, cipher suites, signature schemes, groups, curves, formats, PSK modes) to its typed form and back returns the same number, and distinct typed values have distinct code points.", "quantifier": "every 8- or 16-bit code", "why_tests_cant": "Each of 2^8 or 2^16 codes has its own branch in two directions; a swapped pair survives any incomplete test.", "anchors": [{"file": "src/tls/types/alert.rs", "symbols": ["AlertDescription"]}, {"file": "src/tls/types/extension.rs", "symbols": ["SignatureScheme", "NamedCurve", "NamedGroup"]}, {"file": "src/tls/types/handshake.rs", "symbols": ["CipherSuite"]}]}
{"id": "C53", "title": "TLS handshake messages round-trip", "statement": "Serialising a client hello, server hello, encrypted extensions, certificate, certificate request, certificate verify, finished or session ticket and parsing it returns the same message.", "quantifier": "every message whose fields fit their length prefixes", "why_tests_cant": "Unbounded lists of extensions with nested length prefixes, each with its own bound.", "anchors": [{"file": "src/tls/types/handshake.rs", "symbols": ["Handshake"]}, {"file": "src/tls/types/extension.rs", "symbols": ["Extension"]}]}
{"id": "C54", "title": "TLS parsing never panics", "statement": "No bytes make the handshake parser panic. (Refuted: a KeyUpdate message panics.) Everything else is total.", "quantifier": "every byte string", "why_tests_cant": "Adversarial input: no panic is a claim about every byte string a server may send.", "anchors": [{"file": "src/tls/types/handshake.rs", "symbols": ["Handshake::from_binary2"]}]}
{"id": "C55", "title": "TLS records survive any segmentation", "statement": "However the bytes of a sequence of records are split into reads, the record layer returns the same records in order; a declared length above the limit is rejected; end of input inside a record body is an error. (Truncation inside a record header is silently treated as a clean end.)", "quantifier": "every record sequence, every segmentation", "why_tests_cant": "Exponentially many segmentations of arbitrary record sequences.", "anchors": [{"file": "src/tls/protocol/stream.rs", "symbols": ["RecordReceiver"]}]}
{"id": "C56", "title": "Protected records decrypt to what was encrypted", "statement": "For every AEAD that inverts itself, decrypting an encrypted record with the same key and sequence number returns the same content type and bytes regardless of trailing zero padding; a record whose plaintext is all zeros is rejected.", "quantifier": "every AEAD, key, content, padding", "why_tests_cant": "All contents, including those that end in zero bytes and so look like padding.", "anchors": [{"file": "src/tls/helpers.rs", "symbols": ["encrypt_traffic", "decrypt_message"]}, {"file": "src/tls/protocol/stream.rs", "symbols": ["encrypt_record"]}]}
{"id": "C57", "title": "AEAD nonces never repeat under one key", "statement": "In any run of a connection, no two records sent under the same traffic key use the same nonce, and the nonce is an injective function of the sequence number.", "quantifier": "every run, every iv", "why_tests_cant": "Compares all pairs of records of all runs; a repetition may appear only after 2^64 records or after a key change.", "anchors": [{"file": "src/tls/helpers.rs", "symbols": ["encrypt_traffic"]}, {"file": "src/tls/protocol/client.rs", "symbols": ["append_record"]}, {"file": "src/crypto/aead.rs", "symbols": ["make_nonce"]}]}
{"id": "C58", "title": "A TLS connection is established only after full server authentication", "statement": "In every run of the client handshake, against every peer, the connection becomes usable only if the server presented a certificate that was verified against the configured authority, proved possession of its key over the transcript up to its certificate, and its Finished message verified over the transcript up to that point; messages in any other order abort the handshake.", "quantifier": "every sequence of messages from the peer", "why_tests_cant": "An attacker chooses the whole history of messages; authentication must not be avoidable by any order of them.", "anchors": [{"file": "src/tls/protocol/client_state.rs", "symbols": ["ClientState"]}, {"file": "src/tls/protocol/client.rs", "symbols": ["ECState"]}]}
{"id": "C59", "title": "Bytes written to a TLS connection arrive in order", "statement": "The plaintexts of the records produced by any sequence of writes concatenate to exactly the accepted bytes, in order, each record at most 16384 bytes; and the reader returns exactly the concatenation of the received application records, for every read-buffer size.", "quantifier": "every sequence of writes/reads of every size, every transport behaviour", "why_tests_cant": "All schedules of writes, reads and partial transport operations; order can break in one rare interleaving.", "anchors": [{"file": "src/tls/protocol/client.rs", "symbols": ["EstablishedConnection"]}]}
{"id": "C60", "title": "Closing a TLS connection", "statement": "Shutdown sends close_notify exactly once, after all previously accepted data; later writes are refused.", "quantifier": "every sequence of operations and transport behaviours", "why_tests_cant": "Closing may happen in every state and at every point of a partial write; tests exercise few schedules.", "anchors": [{"file": "src/tls/protocol/client.rs", "symbols": ["poll_shutdown"]}]}
{"id": "C61", "title": "TLS reads report end-of-file only when the peer closed", "statement": "A zero-length read is reported only after close_notify or transport end, and a complete buffered record is delivered without waiting for more bytes. (Refuted on both counts.)", "quantifier": "every record sequence and schedule", "why_tests_cant": "All record sequences and schedules: truncation attacks are exactly the untested cut points.", "anchors": [{"file": "src/tls/protocol/client.rs", "symbols": ["poll_fill_incoming", "poll_read"]}]}
{"id": "C62", "title": "Verifying a peer's Finished message never panics", "statement": "Checking a received Finished value returns success or failure for every received byte string. (Refuted: a Finished value whose length differs from the hash length panics.)", "quantifier": "every received byte string", "why_tests_cant": "The verify data is chosen by the peer; the panic needs one particular length.", "anchors": [{"file": "src/crypto/crypt.rs", "symbols": ["HashAlgorithm::hmac_verify"]}, {"file": "src/tls/helpers.rs", "symbols": ["verify_finished"]}]}
{"id": "C63", "title": "QUIC header protection is removed exactly", "statement": "For every packet long enough and every mask function, removing the header protection that was added returns the original packet and packet number length.", "quantifier": "every packet, packet number length and mask function", "why_tests_cant": "All packets, all four packet number lengths and all mask functions.", "anchors": [{"file": "src/quic/encryption.rs", "symbols": ["add_header_protection", "remove_header_protection"]}]}
{"id": "C64", "title": "QUIC packet protection round-trips", "statement": "For every AEAD that inverts itself, unprotecting a protected packet returns the packet number and payload. Unprotecting arbitrary packets never panics. (Refuted: a length field shorter than the packet number or longer than the packet panics.)", "quantifier": "every packet", "why_tests_cant": "Lengths are chosen by the sender; the failing ones are at the edges of the sample window.", "anchors": [{"file": "src/quic/encryption.rs", "symbols": ["encrypt_payload", "decrypt_payload"]}]}
{"id": "C65", "title": "QUIC transport parameters round-trip", "statement": "Encoding a list of transport parameters and decoding it returns the same list; parameters that cannot be interpreted are preserved, so re-encoding a decoded list gives the same bytes when varints are minimal.", "quantifier": "every parameter list", "why_tests_cant": "All lists of parameters with values of all varint widths, in all orders.", "anchors": [{"file": "src/quic/parameters.rs", "symbols": ["TransportParameter"]}]}
{"id": "C66", "title": "QUIC crypto stream reassembly", "statement": "However crypto frames are split, reordered and duplicated, the reassembled bytes are a prefix of the sender's stream and become complete once every byte has arrived. (Refuted: a frame that lies entirely before the reassembled prefix panics.)", "quantifier": "every arrival order", "why_tests_cant": "All permutations, overlaps and duplicates of arbitrary splits of the stream.", "anchors": [{"file": "src/quic/spec.rs", "symbols": ["CryptoStream"]}]}
{"id": "C67", "title": "QUIC initial packets parse back", "statement": "The frames, connection ids, token and packet number put into an initial packet are recovered by the packet parser; frame parsing terminates on every payload.", "quantifier": "every packet content", "why_tests_cant": "All lengths of both connection ids, token and payload, each with its own length encoding.", "anchors": [{"file": "src/bin/quic_test.rs", "symbols": ["encode_initial_packet", "parse_initial", "parse_frames"]}]}
{"id": "C68", "title": "Simulated channels", "statement": "A message is never delivered before its send time plus the minimum latency, deliveries are in non-decreasing order of receive time among pending ones, every delivered message was sent, at most twice, and the two endpoints of a pair are cross-connected. (Refuted in part: receiving ignores the clock, so messages arrive before their time; times are counted from the end of the previous transmission even if that is long past; the loss of the first copy of a doubled message loses both. What is received is otherwise exactly the copies that were put in, in order of time and priority.)", "quantifier": "every sequence of sends, receives and time advances, every random outcome", "why_tests_cant": "All schedules of sends, receives and time, and all outcomes of the random choices.", "anchors": [{"file": "src/sim/network.rs", "symbols": ["Channel", "Endpoint"]}]}
{"id": "C69", "title": "Simulated clock waiters are always woken", "statement": "A task waiting for a time is woken when the clock reaches it. (Refuted: a waiter that registers between the time update and the notification is lost.)", "quantifier": "every interleaving of setter and waiter", "why_tests_cant": "A lost wake-up needs one particular interleaving of setter and waiter, which a test hits only by luck.", "anchors": [{"file": "src/sim/clock.rs", "symbols": ["Clock", "poll_wait_until"]}]}
{"id": "C70", "title": "Stop-and-wait protocol over the lossy channel", "statement": "Under any loss, duplication and reordering the consumer accepts messages 0,1,2,... in order without gaps or repetition, and the producer never considers a message acknowledged that the consumer has not accepted; nothing panics; and as long as both directions let something through often enough, all messages are accepted.", "quantifier": "every schedule of losses, duplications, reorderings", "why_tests_cant": "Safety over all schedules of losses, duplications and reorderings of unbounded length.", "anchors": [{"file": "src/bin/netsim.rs", "symbols": ["Peer::step"]}]}
{"id": "C71", "title": "The deterministic generator is a full-period permutation", "statement": "Stepping the generator is a bijection on its 32-bit state, so different seeds never merge, and its period from any seed is 2^32.", "quantifier": "every seed", "why_tests_cant": "2^32 states would have to be walked for the period; the proof covers every seed at once.", "anchors": [{"file": "src/util/detrand.rs", "symbols": ["Generator"]}]}
{"id": "C72", "title": "Message parsers never panic and always terminate", "statement": "Decoding any bytes as a DAG-PB link or node, public or private key, Identify, bitswap entry, want list, block or message, UnixFS time or metadata returns a value or an error; it neither panics nor loops.", "quantifier": "every byte string", "why_tests_cant": "Hostile lengths and nested messages over all byte strings.", "anchors": [{"file": "src/ipfs/dagpb.rs", "symbols": ["PBNode::from_pb", "PBLink::from_pb"]}, {"file": "src/libp2p/identify.rs", "symbols": ["Identify::from_pb"]}, {"file": "src/libp2p/peer_id.rs", "symbols": ["PublicKey::from_pb"]}, {"file": "src/ipfs/bitswap/message.rs", "symbols": ["Message::from_pb"]}, {"file": "src/ipfs/unixfs.rs", "symbols": ["Data::from_pb"]}]}
{"id": "C73", "title": "Escaped strings stay on one quoted line", "statement": "Escaping a string yields a quoted line without line breaks in which every inner quote follows a backslash, and strings without backslashes can be told apart by their escaped forms. (Refuted in general: backslashes are not escaped, so a newline and the two characters backslash-n escape alike.)", "quantifier": "every string", "why_tests_cant": "All strings, including control and non-ASCII characters, must be kept apart and on one line.", "anchors": [{"file": "src/util/util.rs", "symbols": ["escape_string"]}]}
{"id": "C74", "title": "A BitTorrent peer cannot crash the client", "statement": "Whatever bytes a peer sends, the connection ends normally or with an error but never with a panic. (Refuted: request, cancel and port messages, and piece messages shorter than 8 bytes, each crash the client; nothing else does.)", "quantifier": "every byte stream from the peer and every segmentation", "why_tests_cant": "The peer chooses the stream and the network its segmentation; absence of a crash is about all of both.", "anchors": [{"file": "src/bin/torrent_client.rs", "symbols": ["parse_message", "get_next_message", "do_peer"]}]}
{"id": "C75", "title": "Nobody is left asleep on an mplex connection", "statement": "Whatever frames arrive and however accepts, reads, connects and drops interleave: no task's waker is kept while the frame in front is for it; a kept waker is only removed by waking it or by replacing it; and while anybody sleeps, the frame in front is for somebody still there or the transport holds a waker. (Refuted for the last part after a transport error: only the polling task is told and the other readers are never woken.)", "quantifier": "every execution", "why_tests_cant": "Lost wake-ups depend on timing; a test run exercises one schedule among unboundedly many.", "anchors": [{"file": "src/libp2p/mplex/stream.rs", "symbols": ["MplexShared", "MplexStreams", "poll_fill_incoming", "want_another_frame"]}]}
{"id": "C76", "title": "mplex sends every accepted frame once and in order", "statement": "Whatever the transport accepts, refuses or postpones, what it has taken followed by what is queued is exactly the frames of the calls that were accepted, in order; a successful flush leaves nothing queued. (Refuted for shutdown: it reports success with the close frame still queued, and no later call on that writer sends it.)", "quantifier": "every sequence of connect, write, flush and shutdown calls and every transport behaviour", "why_tests_cant": "All interleavings of calls with partial writes of the transport.", "anchors": [{"file": "src/libp2p/mplex/stream.rs", "symbols": ["StreamWriter", "Connect"]}, {"file": "src/libp2p/mplex/frame.rs", "symbols": ["poll_drain", "append_frame"]}]}
{"id": "C77", "title": "Generated libp2p certificates bind the host key", "statement": "The certificate generated from a certificate key and a host key always parses back to: the certificate key, the given validity, and one extension holding the host's public key and the host's signature of the fixed prefix followed by the DER of the certificate key; the certificate's signature is over exactly the bytes of its first element; the extension is critical. (Refuted for the critical flag.)", "quantifier": "every pair of keys and signing functions, every validity text", "why_tests_cant": "All key contents and signature lengths change the nested DER lengths.", "anchors": [{"file": "src/libp2p/tls.rs", "symbols": ["generate_certificate", "make_signature", "generate_libp2p_ext", "sign_tbs_certificate"]}, {"file": "src/crypto/x509.rs", "symbols": ["Certificate"]}]}
{"id": "C78", "title": "Every TLS handshake message of a record is delimited by its header", "statement": "A handshake message occupies exactly the number of bytes its header declares, and a record with several handshake messages delivers all of them. (Refuted: for the types the parser knows the declared length is ignored, and whatever follows the first message of a record is dropped without an error or, after Finished, becomes part of it. Only messages of unknown types are delimited by the header.)", "quantifier": "every message, declared length and rest of the record", "why_tests_cant": "All declared lengths and all ways of packing messages into a record.", "anchors": [{"file": "src/tls/types/handshake.rs", "symbols": ["Handshake"]}, {"file": "src/tls/types/record.rs", "symbols": ["Message"]}]}
{"id": "C79", "title": "A TLS connection is to the named server", "statement": "A connection opened for a server name is established only with a server whose certificate carries that name and is within its validity period. (Refuted: neither the name nor the dates of the certificate have any influence.)", "quantifier": "every configuration, certificate and peer", "why_tests_cant": "Every certificate an attacker can present; a test shows rejection of a few.", "anchors": [{"file": "src/tls/protocol/client.rs", "symbols": ["compute_application_secrets", "ClientConfig", "verify_certificate"]}]}
{"id": "C80", "title": "A TLS record that fails to authenticate ends the connection", "statement": "After a received record failed to decrypt, no later read returns data. (Refuted: the error is reported once, the connection stays readable and the next record that decrypts under the same number is delivered.)", "quantifier": "every connection state and every record that does not authenticate", "why_tests_cant": "An attacker on the path chooses what is inserted where; each state has its own reaction.", "anchors": [{"file": "src/tls/protocol/client.rs", "symbols": ["poll_fill_incoming"]}, {"file": "src/tls/protocol/stream.rs", "symbols": ["poll_receive_encrypted_message"]}]}
{"id": "C81", "title": "Only a TLS 1.3 server hello is accepted", "statement": "The handshake continues after a server hello only if it selects TLS 1.3 and echoes the session identifier. (Refuted: only the cipher suite and the first X25519 key share are looked at.)", "quantifier": "every server hello", "why_tests_cant": "All combinations of version, random, cipher suite and extensions in a hello chosen by the peer.", "anchors": [{"file": "src/tls/protocol/client.rs", "symbols": ["AfterSendClientHello::on_opt_message", "get_handshake_encryption"]}]}
{"id": "C82", "title": "A QUIC peer cannot crash the endpoint", "statement": "Whatever packet arrives, the endpoint handles it or reports an error but never panics. (Refuted: any packet with a short header, any initial packet whose length field is shorter than the packet number or leads past the packet, a crypto frame with anything after its first message, and transport parameters not in their shortest form each stop it. Short headers, bad lengths and the messages of a packet that decrypts are the only ways.)", "quantifier": "every packet and every set of connections", "why_tests_cant": "Packets come from anybody on the network, in any state of any number of connections.", "anchors": [{"file": "src/bin/quic_test.rs", "symbols": ["parse_packet", "parse_short_header_packet", "try_pop_handshake", "process_initial_handshakes"]}, {"file": "src/quic/encryption.rs", "symbols": ["decrypt_payload"]}]}
{"id": "C83", "title": "QUIC packets find their connection", "statement": "After a packet has opened a connection, further packets sent to the same connection id are given to it. (Refuted: the connection is stored under the sender's id and never found again by the id it was sent to.)", "quantifier": "every packet that opens a connection", "why_tests_cant": "All connection ids of all lengths, and all sets of existing connections.", "anchors": [{"file": "src/bin/quic_test.rs", "symbols": ["parse_initial"]}]}
{"id": "C84", "title": "QUIC initial secrets", "statement": "The initial secrets of both sides are those of RFC 9001 section 5.2 for every connection id, with keys, IVs and header protection keys of the right lengths.", "quantifier": "every connection id and every HKDF", "why_tests_cant": "Holds for every connection id and every HKDF; published test vectors cover single ids.", "anchors": [{"file": "src/quic/wire.rs", "symbols": ["ConnectionSecrets::from_connection_id", "EndpointSecrets::from_initial"]}]}
{"id": "C85", "title": "QUIC stream identifiers", "statement": "Initiator, directionality and type of a stream identifier agree with each other and with RFC 9000 section 2.1.", "quantifier": "every stream identifier", "why_tests_cant": "2^62 identifiers; the claim is a bijection, which cannot be sampled.", "anchors": [{"file": "src/quic/spec.rs", "symbols": ["StreamId"]}]}
{"id": "C86", "title": "QUIC frame types", "statement": "A frame is parsed as the frame RFC 9000 assigns to its type. (Refuted: PING, type 1, is refused; ACK, type 2, is taken for PING and its fields for further frames.)", "quantifier": "every payload", "why_tests_cant": "All payloads, with every frame type in every coding of its varint.", "anchors": [{"file": "src/bin/quic_test.rs", "symbols": ["parse_frames"]}]}
{"id": "C87", "title": "QUIC handshake messages are reassembled", "statement": "The endpoint delivers every handshake message a client sends however it is split over crypto frames and packets. (Refuted: offsets are ignored, and a message that is not complete in one packet is dropped.)", "quantifier": "every split of every message", "why_tests_cant": "All splits of all messages into frames, in all orders of arrival.", "anchors": [{"file": "src/bin/quic_test.rs", "symbols": ["handle_packet", "try_pop_handshake"]}]}
{"id": "C88", "title": "Both peers of the stop-and-wait protocol may send", "statement": "A peer takes a message for acknowledged only if the other one has accepted it, also when both send. (Refuted: one counter is used for what was acknowledged and for what was accepted, so receiving the other's message counts as an acknowledgement; the lost message is never sent again.)", "quantifier": "every schedule and every two counts", "why_tests_cant": "All schedules of two interleaved directions and all counts.", "anchors": [{"file": "src/bin/netsim.rs", "symbols": ["Peer::step"]}]}
{"id": "C89", "title": "Lost messages are retransmitted after the delay", "statement": "A message not acknowledged is sent again once RETRANSMIT_DELAY has passed, and not before. (Refuted: the comparison is the wrong way round; it is sent again before the time and never after it, so a channel slower than one message per delay is stuck for ever after one loss.)", "quantifier": "every state, time and channel", "why_tests_cant": "Liveness over unbounded time from every reachable state; a test waits a fixed time in one state.", "anchors": [{"file": "src/bin/netsim.rs", "symbols": ["Peer::step"]}]}
{"id": "C90", "title": "The ASN.1 reader accepts exactly its grammar", "statement": "The reader accepts bytes exactly when they begin with an item of the DER grammar (with non-minimal lengths), returns the meaning the grammar gives, and stops right behind it; no bytes have two meanings. A Boolean is one byte 0 or 255, null is empty, text is UTF-8, sequences are filled. (That lengths and integers must be in their shortest form is refuted.)", "quantifier": "every byte string", "why_tests_cant": "An exact characterisation: no accepted input outside the grammar and no rejected input inside it, for all byte strings.", "anchors": [{"file": "src/formats/asn1/reader.rs", "symbols": ["read_item", "read_value", "read_identifier", "read_length"]}]}
{"id": "C91", "title": "Object identifiers are not confused when read", "statement": "Two different object identifiers are never read as the same one. (Proved when every arc fits in 64 bits; refuted beyond: the arc is cut to 64 bits, so a foreign identifier is read as Ed25519.)", "quantifier": "every encoding of every identifier", "why_tests_cant": "Confusion is about pairs of encodings with arcs of unbounded size.", "anchors": [{"file": "src/formats/asn1/reader.rs", "symbols": ["read_var_u64", "read_object_identifier"]}]}
{"id": "C92", "title": "Certificates accepted exactly", "statement": "Certificate::from_bytes succeeds exactly on bytes that begin with the DER of a Certificate of RFC 5280 (without unique identifiers, names of single attributes), with the parts that are there, and never panics. (That nothing may follow, behind the certificate or inside an extension, is refuted.)", "quantifier": "every byte string and every certificate", "why_tests_cant": "Exactness over all byte strings, in both directions of the equivalence.", "anchors": [{"file": "src/crypto/x509.rs", "symbols": ["Certificate::from_bytes", "TBSCertificate::from_asn1", "Extension::from_asn1"]}]}
{"id": "C93", "title": "Tracker responses", "statement": "The client accepts exactly the connect and announce responses of the UDP tracker protocol, with all their endpoints, and never panics. (That a response must answer our announce is refuted; the second program refuses valid responses and panics on large counts.)", "quantifier": "every datagram", "why_tests_cant": "All datagrams, from anybody; the interesting ones are malformed in untested ways.", "anchors": [{"file": "src/bin/torrent_client.rs", "symbols": ["open_tracker_connection", "AnnounceResponse::parse"]}, {"file": "src/bin/tracker.rs", "symbols": ["ConnectResponse::from", "AnnonuceResponse::from"]}]}
{"id": "C94", "title": "Layout of tracker requests and of the BitTorrent handshake", "statement": "Connect requests, announce requests and the peer handshake have the length of the protocol and every field at its offset.", "quantifier": "every field value", "why_tests_cant": "All values of all fields at once; a swapped or misplaced field survives tests with symmetrical values.", "anchors": [{"file": "src/bin/tracker.rs", "symbols": ["AnnounceRequest::to_bytes"]}, {"file": "src/bin/torrent_client.rs", "symbols": ["send_tracker_request", "encode_handshake"]}, {"file": "src/bittorrent/protocol.rs", "symbols": ["ConnectRequest::encode"]}]}
{"id": "C95", "title": "Peer wire messages and handshake of the downloader", "statement": "A message body is decoded to a message exactly when it is the wire form of that message; a message that arrives in any pieces is read as that message, a handshake is accepted exactly in the form of the protocol, and an error of the stream is reported. (That a connection closed inside a message is reported is refuted: the loop never ends.)", "quantifier": "every body, every stream cut in any way", "why_tests_cant": "All message bodies and all ways of cutting a stream into reads.", "anchors": [{"file": "src/bin/download.rs", "symbols": ["read_message", "read_message_raw", "recv_handshake", "send_handshake"]}]}
{"id": "C96", "title": "Reader and writer of a peer connection", "statement": "In every interleaving of the two loops what is sent is a prefix of bit field, interested and one request, the request only after an unchoke; no run without a failed write panics. (Refuted: a failed write makes the next message panic; a peer that closes leaves the writer waiting for ever; a request can go out while choked.)", "quantifier": "every interleaving, every stream of messages", "why_tests_cant": "All interleavings of a reader and a writer that share a connection.", "anchors": [{"file": "src/bin/download.rs", "symbols": ["connection_reader", "connection_writer", "writer_iteration", "on_received_message"]}]}
{"id": "C97", "title": "The chat server relays in order, completely and once", "statement": "In every interleaving of any number of connections, what a client is sent is lines of pieces really sent, each sender's in its order and none twice; a piece goes to everyone then connected; a client that is up to date has all its own lines, and a connection is closed only after all of them were written. (A bound on what waits for a slow client is refuted.)", "quantifier": "every interleaving of any number of connections", "why_tests_cant": "All interleavings of any number of connections; order and completeness break only in rare ones.", "anchors": [{"file": "src/bin/chatserver.rs", "symbols": ["broadcast", "connection_reader", "connection_writer", "process_connection"]}]}
{"id": "C98", "title": "Lines of the chat server cannot be forged", "statement": "Every whole line any client is ever sent is the line for a piece sent by the connection it names; each response is one line whatever was sent, and the number in it determines the sender.", "quantifier": "every reachable state, every piece", "why_tests_cant": "A forgery needs one particular text in one particular state; no sampling excludes it.", "anchors": [{"file": "src/bin/chatserver.rs", "symbols": ["on_receive", "broadcast"]}, {"file": "src/util.rs", "symbols": ["escape_string"]}]}
{"id": "C99", "title": "The identify handler tells the node's key and protocols", "statement": "Whoever reads the reply of the identify handler, in any pieces, finds one Identify message and then the end; it holds the node's Ed25519 key, and its protocols are exactly those the node's registry serves. (That the observed and listen addresses are the real ones is refuted.)", "quantifier": "every key, every way of cutting the stream", "why_tests_cant": "All keys and all segmentations of the peer's stream.", "anchors": [{"file": "src/ipfs/identify.rs", "symbols": ["identify_handler_inner"]}, {"file": "src/bin/ipfs.rs", "symbols": ["main"]}]}
{"id": "C100", "title": "The bitswap handler asks for one CID and shows what arrives", "statement": "Given the text of a CID the handler sends exactly one message wanting that CID and nothing else, given other text it sends nothing; for every stream it shows, message by message, each block's CID (the hash of its data) and directory entries up to the first one that is not a directory with a CID, ends with an error exactly then or at a broken stream, and never panics. (Refuted: an undecodable message is reported as an error; files are accepted; only requested blocks are shown.)", "quantifier": "every stream of bytes cut in any way, every text", "why_tests_cant": "The peer decides what arrives and how it is cut; all streams must be considered.", "anchors": [{"file": "src/ipfs/bitswap/handler.rs", "symbols": ["bitswap_handler_inner"]}, {"file": "src/ipfs/bitswap/block.rs", "symbols": ["get_block_cid"]}]}
{"id": "C101", "title": "Certificates made by bin/x509.rs", "statement": "generate writes a certificate exactly when both files hold an RSA key in PEM and the signer can sign; its bytes are then given in full, the signature is the signer's over exactly the first element, and print reads back the subject's key, the signature and every constant; generate never panics, and hangs exactly on PEM text that stops inside a keyword. (That two certificates have different serial numbers is refuted.)", "quantifier": "every pair of files, every key parser and signing function", "why_tests_cant": "All key files, keys and signature schemes; nested lengths depend on the sizes.", "anchors": [{"file": "src/bin/x509.rs", "symbols": ["generate", "sign_tbs_certificate", "wrap_signature", "print"]}]}
{"id": "C102", "title": "Re-encoding an ASN.1 file", "statement": "A file is re-encoded exactly when it (or the data of its PEM text) begins with an item of the grammar that the writer can write; what the writer wrote comes out unchanged, re-encoding is idempotent, the result means the same except that every Boolean is false, and the tool never panics. (Refuted: TRUE survives; trailing bytes are refused.)", "quantifier": "every file", "why_tests_cant": "All files: the exceptions to equality with the input must be exactly known.", "anchors": [{"file": "src/bin/asn1.rs", "symbols": ["main"]}, {"file": "src/formats/asn1/reader.rs", "symbols": ["read_item"]}, {"file": "src/formats/asn1/writer.rs", "symbols": ["encode_item"]}]}
{"id": "C103", "title": "Printed ASN.1 trees", "statement": "The printed text has one line per item, in reading order, with the branches drawn from the way to the item; without truncation it determines the tree (with ranges: and every byte range) if no text has a backslash; the registered names of object identifiers determine the identifier. (Refuted: text with backslashes, truncated values and the Debug form of bit strings are ambiguous.)", "quantifier": "every tree, every registry of one-line names", "why_tests_cant": "Injectivity of a printed form is a statement about all pairs of trees.", "anchors": [{"file": "src/formats/asn1/printer.rs", "symbols": ["Printer::print_item", "Printer::print_list", "Printer::bytes_to_string", "ObjectRegistry::get_long_name"]}, {"file": "src/crypto/x509.rs", "symbols": ["populate_registry"]}, {"file": "src/formats/asn1/value.rs", "symbols": ["fmt"]}]}
{"id": "C104", "title": "Hex dumps and indentation", "statement": "The alternate form of a hex dump is exactly the rows of sixteen bytes with the offset in front, two groups of eight columns and the printable characters, one row at least; every line has a known width below 4 GiB; both forms determine the bytes; indenting puts four blanks before every line and an indented dump still determines the bytes. (Refuted: indenting an arbitrary text determines it.)", "quantifier": "every byte string and every text of lines", "why_tests_cant": "All lengths and bytes; the layout changes at each multiple of the line length.", "anchors": [{"file": "src/util/util.rs", "symbols": ["DebugHexDump::fmt", "Indent::fmt", "BinaryData"]}]}
{"id": "C105", "title": "The delaying proxy", "statement": "In every reachable state of the proxy, for every schedule, buffer size and delay, what one side of a connection got is a prefix of what the other side sent, nothing is lost or reordered, the counters are the bytes passed, and a direction that ends without a failed write has delivered everything; every direction goes on until then and ends after a bounded number of steps. (Refuted: with an empty buffer anything is delivered; one failed connect leaves the other connections alive.)", "quantifier": "every option, every number of connections, every interleaving", "why_tests_cant": "All interleavings of all connections under every option; delays reorder events in ways a test does not control.", "anchors": [{"file": "src/bin/proxy.rs", "symbols": ["proxy_loop", "main"]}]}
{"id": "C106", "title": "The echo servers", "statement": "Every connection of the statistics server gets back a prefix of what it sent, all of it when its task returns; the shared counters are never more than what was sent and exact when all tasks have returned; a panicking task touches neither other connections nor the counters. (Refuted: the echo mode of the socket server sends something back; the welcome of the I/O test is always sent completely.)", "quantifier": "every number of clients, every interleaving, every split of reads and writes", "why_tests_cant": "Any number of clients and any split of reads and writes.", "anchors": [{"file": "src/bin/server.rs", "symbols": ["process", "main"]}, {"file": "src/bin/sock.rs", "symbols": ["process_server"]}, {"file": "src/bin/iotest.rs", "symbols": ["Connection"]}]}
{"id": "C107", "title": "Paths and errors of the bencoding parser", "statement": "Every parsed value carries the path of the steps (indices and keys) that lead to it from the root; parsing fails exactly when some steps through complete items and entries lead to a text that is faulty itself, and the error then has the path of these steps, the offset and the kind of that fault; offsets lie within the faulty text; the error text determines offset and path. (Refuted: paths determine the steps; they do for keys without slashes that are not numbers.)", "quantifier": "every input below 2^64 bytes", "why_tests_cant": "The reported position and path must be right for every malformed input, at every depth.", "anchors": [{"file": "src/formats/bencoding/mod.rs", "symbols": ["Parser::parse_value", "Parser::parse_list", "Parser::parse_dict", "Parser::parse_usize", "Parser::parse_byte_string", "ParseError", "Location"]}]}
{"id": "C108", "title": "The torrent viewer", "statement": "The dump of a value shows every value within it, in order, four blanks deeper for every list and eight for every dictionary; the viewer succeeds exactly when given a known command and a readable file that is a torrent (for raw: a bencoded value) and then prints exactly what the command asks for; otherwise it prints nothing, or the list of commands, or (full) the dump of a value that is not a torrent; the hash shown is that of the info dictionary within the file; listed file paths and (for non-empty groups) trackers can be read back. (Refuted: the dump determines the value, the list of trackers the groups.)", "quantifier": "every file system, every argument list, every hash function", "why_tests_cant": "All files, arguments and hash functions, including unreadable and malformed files.", "anchors": [{"file": "src/bin/view.rs", "symbols": ["main", "trackers", "files", "info", "hash", "raw", "full", "view_torrent"]}, {"file": "src/formats/bencoding/mod.rs", "symbols": ["Value::dump"]}]}
{"id": "C109", "title": "The multibase tool and self test", "statement": "list prints the registry; detect, decode and convert succeed exactly for texts of a known base and print exactly the base, the bytes or the text in the other base; conversions compose and are idempotent on their result; every failure has one known message and no output; the self test prints one row per line and passes exactly when every line is hexadecimal. (Refuted: the offset and character of the error message are those of the argument.)", "quantifier": "every argument and every file", "why_tests_cant": "All texts and files; the self test of the tool samples random strings only.", "anchors": [{"file": "src/bin/multibase.rs", "symbols": ["main", "list", "detect", "decode", "convert"]}, {"file": "src/bin/test_multibase.rs", "symbols": ["main"]}, {"file": "src/formats/multibase.rs", "symbols": ["DecodeError", "Base::for_name"]}]}
{"id": "C110", "title": "The generator of the multibase tables", "statement": "The table generated from an alphabet has 256 entries and gives for every byte the last position at which the alphabet has it, or 255; for an alphabet without repetitions it is exactly the inverse; the printed text holds the first 128 entries; the tables in the source are exactly those generated from the alphabets.", "quantifier": "every alphabet", "why_tests_cant": "All alphabets: the generated tables must be right at each of 256 entries for each of them.", "anchors": [{"file": "src/formats/multibase.rs", "symbols": ["gen_inverse", "gen_inverse_all"]}]}
{"id": "C111", "title": "The command line tool", "statement": "cid succeeds exactly for the text of a CID, prints its canonical text (which gives the same answer again) and a debug text that determines the CID; the varint self test never fails whatever numbers are drawn; the fields of the protobuf demonstration show exactly the number that was written, and the debug text of a field determines kind and bytes; getkey shows type and size exactly for a file that holds a private key; unknown or missing commands fail without output; nothing panics.", "quantifier": "every argument list, file system and random generator", "why_tests_cant": "All argument lists, file systems and random generators.", "anchors": [{"file": "src/bin/cli.rs", "symbols": ["main", "cid_command", "varint_command", "getkey_command", "write_pbuf_command", "get_argument"]}, {"file": "src/ipfs/types/cid.rs", "symbols": ["fmt"]}, {"file": "src/formats/protobuf/protobuf.rs", "symbols": ["FieldData::fmt", "fmt_bytes_spaces", "fmt_bytes_hex"]}]}
{"id": "C112", "title": "Texts of addresses", "statement": "The text of an address list determines the addresses; two byte strings have the same text exactly when they hold the same addresses, and with minimal codes exactly when they are equal; bytes that are no address appear completely, in hexadecimal, at the end; the text needs no escaping. (Refuted: the text determines padded bytes; the protocol names are the registered ones.)", "quantifier": "every address list and byte string, for any IPv6 text that is unique", "why_tests_cant": "Uniqueness of a text is about all pairs of addresses.", "anchors": [{"file": "src/libp2p/multiaddr.rs", "symbols": ["fmt", "MultiAddr::from_bytes"]}]}
{"id": "C113", "title": "An authentic server is always accepted", "statement": "If the transport delivers what an authentic server sends (as in C58), in pieces of any size and with any delays, then the handshake never fails and never panics; once everything has arrived and the transport takes the client's bytes, the next poll gives the connection, with the keys of RFC 8446 and with only later bytes left unread; so how the bytes are cut into pieces does not matter.", "quantifier": "every authentic server, every configuration, every fragmentation and delay, for any primitives with results of the right size", "why_tests_cant": "A test has one server and one way of cutting the stream; that no fragmentation makes the client wait for ever or reject needs every run.", "anchors": [{"file": "src/tls/protocol/client.rs", "symbols": ["EstablishConnection::poll", "poll_step", "on_opt_message", "on_server_messages", "compute_application_secrets", "ReceiveServerMessages::poll"]}, {"file": "src/tls/protocol/stream.rs", "symbols": ["pop_record", "poll_receive_record_ignore_cc"]}]}
{"id": "C114", "title": "A torrent download from an honest seed completes", "statement": "Take a torrent file the client accepts (whose piece lengths and counts fit as in C35) and a peer that sends a handshake and any messages, cut into reads in any way, that unchokes the client at least once, answers every request after it was sent, and sends no data but the content. Then when the peer closes, the Transfer has nothing pending and nothing active, the completed blocks hold every byte of the content exactly once, and the connection ended without error. As long as anything is missing after the unchoke, some request that was sent is unanswered, so the download never waits for nothing. Such a seed exists for every torrent and content.", "quantifier": "every accepted torrent, every content, every seed (every message sequence, every order of answers, every way of cutting the bytes into reads)", "why_tests_cant": "A test runs one torrent against one peer; the claim covers all message orders, all cuts of the byte stream and all torrent sizes, and the pipeline of 101 requests only shows its boundary behaviour with more blocks than that.", "anchors": [{"file": "src/bin/torrent_client.rs", "symbols": ["handle_message", "Transfer::new", "Transfer::start_request", "Transfer::complete_request"]}]}
{"id": "C115", "title": "Two mplex connections joined by a transport carry independent byte pipes", "statement": "Two Mplex connections are created at the two ends of one transport that carries bytes in order, in any pieces, with any delays, and any applications call accept, connect, read, write, flush, shutdown and drop at both ends in any interleaving, using a stream only after opening it. Then what one end has read from a stream is always a prefix of what the other end successfully wrote to it (unless the reader was dropped); when the queues, the transport and the buffers are empty it is all of it; and the streams an end accepts are the streams the other end opened, in that order, none missing and none twice.", "quantifier": "every schedule of calls at both ends, every way the transport delays and cuts the bytes, all stream contents (fewer than 2^60 calls, fewer than 2^64 bytes received)", "why_tests_cant": "The claim quantifies over interleavings of calls at two ends and over all ways of cutting two byte streams; a test runs a handful of schedules, and a lost or misdirected frame shows only when a frame boundary meets the wrong call.", "anchors": [{"file": "src/libp2p/mplex/stream.rs", "symbols": ["MplexShared::poll_fill_incoming", "MplexShared::poll_read", "MplexShared::poll_accept_id", "MplexShared::append_new", "StreamWriter::poll_write"]}, {"file": "src/libp2p/mplex/frame.rs", "symbols": ["FrameStream::poll_read_frame", "FrameStream::poll_drain"]}]}
{"id": "C116", "title": "Two nodes of this code understand each other, in every order of events", "statement": "When the command identify opens a stream to another node running this code, then whatever the order of writes, reads and byte deliveries at the two ends, the conversation ends, and always with the first node holding the other's own description (its public key and its protocols) and nothing left unread. The command show against such a node succeeds in asking for the block. A protocol the other node does not know is refused and the other node goes on. Against any peer at all, identify prints a description exactly when the peer confirmed the handshake and the protocol and sent a well-formed description, and never panics; and before the multiplexed connection exists nothing is written in the clear but the three fixed negotiation messages.", "quantifier": "all interleavings of the steps of both ends and all ways the bytes arrive; all keys, all CID texts, all protocols asked for; all byte streams of an arbitrary peer", "why_tests_cant": "Both ends write before they read, so the number of interleavings of one exchange is astronomical; and each end was only ever tried against a different implementation, which hides that the two ends of this code disagree about the reply.", "anchors": [{"file": "src/bin/ipfs.rs", "symbols": ["connection_handler2", "connection_handler", "main", "identify_client_inner"]}, {"file": "src/libp2p/multistream.rs", "symbols": ["multistream_handshake", "multistream_select", "multistream_list"]}, {"file": "src/ipfs/identify.rs", "symbols": ["identify_handler_inner"]}, {"file": "src/ipfs/bitswap/handler.rs", "symbols": ["bitswap_handler_inner"]}]}
{"id": "C117", "title": "The TLS command line client does what its options ask for", "statement": "The configuration of tls_client is exactly the one its options describe: --ca-cert and --client-cert must be readable PEM files labelled CERTIFICATE, --client-key one labelled RSA PRIVATE KEY or PRIVATE KEY, the last two must come together, and anything else is an error (in particular reading the options always ends). With --ca-cert a connection means that the server proved the key of a certificate issued by that one; without it no connection is ever made. The server name sent is that of the address. After the fixed HTTP request everything the server sends is printed, once and in order, in pieces of at most 65536 bytes, and then the end is reported.", "quantifier": "all option combinations and file contents; all servers and transport behaviours; all responses and all ways they arrive", "why_tests_cant": "The options multiply with the contents of three files, and 'no connection is ever made' is a statement about every possible server, which no finite set of servers can establish.", "anchors": [{"file": "src/bin/tls_client.rs", "symbols": ["parse_args", "test_http", "test_client"]}, {"file": "src/crypto/pem.rs", "symbols": ["decode_pem", "decode_pem_with_label"]}, {"file": "src/tls/protocol/client.rs", "symbols": ["establish_connection"]}]}
{"id": "C118", "title": "The tracker programs print the peers of the tracker", "statement": "Asked for a torrent, torrent_client announce takes the numbered tracker URL, sends a connect and an announce request to the first address of its host, and, when the replies are those of a tracker following BEP 15, ends well after printing the interval, the counts and all peers the tracker sent, and saving the reply; parse-announce-response prints a saved reply again. The tracker tool prints the same peers, one per line. Only replies of the tracker that was asked, to the requests that were sent, are used. Whatever is received, neither program panics, and peers are printed only from a complete reply. trackers prints one URL per line, and the numbers of announce count these lines.", "quantifier": "all torrent files, URLs, random numbers, trackers with all swarms, and all datagrams from all senders", "why_tests_cant": "A test needs a tracker; whoever writes one sends a short, correct list from the right address. A list longer than the buffer, a forged sender or a foreign transaction id are exactly what such a tracker never produces.", "anchors": [{"file": "src/bin/torrent_client.rs", "symbols": ["main", "run_with_tracker", "open_tracker_connection", "receive_tracker_response", "get_tracker_urls", "generate_peer_id"]}, {"file": "src/bin/tracker.rs", "symbols": ["main"]}]}
{"id": "C119", "title": "The QUIC programs understand each other, and packets reach their connection", "statement": "Whatever random bytes and public key it uses, quic_test client sends exactly one datagram of 1200 bytes, and quic_test server, given that datagram, decrypts it, finds exactly that client hello with those random bytes, that key share, the protocol hq-29 and the source connection id 5678, prints the transport parameters and ends well; it answers, so that the client ends too, and no datagram makes it fail. What is printed for a list of transport parameters determines the list. The packet dispatcher of the library hands every packet of a datagram to the first connection with its destination id, accepts new connections on initial packets when it is a server, and otherwise logs the packet.", "quantifier": "all 32-byte randoms and keys, all cipher primitives with the usual laws, all datagrams, all lists of connections and packets, all parameter lists", "why_tests_cant": "The bytes on the wire change with every random number and key, and the two programs can only be run together over real sockets; that no answer ever comes and that any of 64 first bytes ends the server are statements about all runs and all datagrams.", "anchors": [{"file": "src/bin/quic_test.rs", "symbols": ["make_client_hello", "udp_receiver_inner", "make_initial2", "Handler::on_recv_packet"]}, {"file": "src/quic/spec.rs", "symbols": ["QUIC::on_receive_packet", "QUIC::on_receive_datagram"]}, {"file": "src/quic/parameters.rs", "symbols": ["TransportParameter"]}]}
{"id": "C120", "title": "The download program follows the peer protocol and fetches the torrent it was given", "statement": "The program download reads a torrent file, connects to the first address of the peer it was given, sends the handshake of that torrent, and goes on exactly when the peer answers with a handshake of the same torrent. Whatever the peer does and however its two loops are interleaved, everything it ever sends is a beginning of one fixed text, and nothing is sent when the arguments, the file or the lookup are bad; it ends with success only after the connection failed or the file is complete; and it never hangs after the peer closed the connection.", "quantifier": "all torrent files, arguments, lookup results, all byte streams of the peer, and all interleavings of reader, writer and write failures", "why_tests_cant": "Between the two loops every interleaving of reads, writes and failures is possible, and a peer may send any bytes; a test sees one order, and a hang looks like a slow peer.", "anchors": [{"file": "src/bin/download.rs", "symbols": ["main", "do_peer_connection", "send_handshake", "recv_handshake", "connection_reader", "connection_writer"]}]}
{"id": "C121", "title": "The small concurrent programs lose nothing, in any order of events", "statement": "threads prints exactly the eight words of its two threads, each thread's in order, whatever the schedule, and always ends; every order of the two lists can happen. manual_futures ends exactly when ten ticks have passed, however they fall together and however often its task is polled, and its consumer gets the first count of at least five seen at the end of a poll (five when ticks come one at a time). Both loops of select_test print every datagram of either socket exactly once, in the order of its socket, although each round abandons one receive, and every socket is served in the end. What the server of udptest prints shows which datagrams it received.", "quantifier": "all schedules, all numbers and groupings of timer ticks and polls, all datagrams and arrival orders, all word lists", "why_tests_cant": "These are statements about all schedules; a test observes the one schedule its machine happens to choose, and starvation or a lost wake-up needs a schedule that practically never happens.", "anchors": [{"file": "src/bin/threads.rs", "symbols": ["main"]}, {"file": "src/bin/manual_futures.rs", "symbols": ["producer", "ConsumerFuture::poll", "main"]}, {"file": "src/bin/select_test.rs", "symbols": ["Receiver::poll", "heap_task_inner", "stack_task_inner"]}, {"file": "src/bin/udptest.rs", "symbols": ["server"]}]}
{"id": "C122", "title": "What x509 print shows determines the certificate's data up to the names", "statement": "For any two certificates whose names, times and object identifiers contain no newline, equal printed texts imply equal version, serial number, algorithms, validity texts, key length, extensions (identifier, critical flag, length) and signature length and equal issuer and subject texts; the text of a name determines its parts when every part has a registered type and no value contains a comma; every certificate made by `x509 generate` is printed by `x509 print` as one fixed text in which only the lengths of the key and of the signature vary. Refuted: a comma in a value forges a further part, unregistered types all look alike, and newlines in names forge whole lines such as another validity.", "quantifier": "all pairs of certificates; all names; all generated files; all forged values", "why_tests_cant": "An ambiguity needs two different certificates with one text; a test prints single honest certificates and cannot compare the texts of all pairs.", "anchors": [{"file": "src/crypto/x509.rs", "symbols": ["print_certificate", "print_tbs_certificate", "name_to_simple_string", "time_to_str", "to_string"]}, {"file": "src/bin/x509.rs", "symbols": ["print"]}]}
{"id": "C123", "title": "Names of TLS messages and texts of errors", "statement": "An alert record of at least two bytes is read as an alert whose name is that of its second byte in the table of RFC 8446, and is written as the same two bytes; a handshake message that is read is named after its first byte; a message has the content type of its record; equal names mean the same content type and the same alert or handshake type, except that unknown ones share a name. Every typed accessor of an ASN.1 item returns the value exactly when the item has the type and otherwise an error with the item's own byte range; the texts of these errors, of the reader's errors with numbers, and of varint, CID and directory errors determine the error.", "quantifier": "all byte strings, all messages, all items, all pairs of errors", "why_tests_cant": "Distinctness is about all pairs of names and texts, including all numbers in them; tests read single messages.", "anchors": [{"file": "src/tls/types/alert.rs", "symbols": ["name", "from_binary", "to_binary"]}, {"file": "src/tls/types/handshake.rs", "symbols": ["name"]}, {"file": "src/tls/types/record.rs", "symbols": ["content_type", "name", "from_raw"]}, {"file": "src/util/binary.rs", "symbols": ["BinaryError"]}, {"file": "src/formats/asn1/value.rs", "symbols": ["TypeError", "as_sequence", "as_exact_sequence", "as_set", "as_exact_set", "as_object_identifier", "as_bit_string", "as_octet_string", "as_integer", "as_string", "as_boolean"]}, {"file": "src/ipfs/types/cid.rs", "symbols": ["CIDParseError"]}, {"file": "src/ipfs/fs.rs", "symbols": ["DecodeError"]}]}
{"id": "C124", "title": "The small checking programs, and what their output is worth", "statement": "Every line of test_detrand shows its output in eight hexadecimal and 32 binary digits, and the counters are the numbers of outputs with that bit. From every seed bit b of the generator is inverted after 2^b steps while the lower bits return, so it is set in exactly half of any k*2^(b+1) outputs, and the counters of the five lowest bits are exactly 50000 for every seed. bytes_from_str accepts exactly the texts of lower case digits, blanks and line ends and returns the bytes of the digits, so inserting blanks into the hexadecimal text of any bytes gives them back. make_initial reports truthfully whether the two packets are equal and writes exactly those. The AES check says whether the opened text is the input; lengths of the hex dump check are exactly the decimal numbers below 2^64. Refuted: the key agreement check never succeeds, with any keys and any library, because it ends by expanding an empty key.", "quantifier": "all seeds, all bits and numbers of outputs; all texts; all keys and primitives; all arguments", "why_tests_cant": "The period of every bit is a statement about all 2^32 seeds and up to 2^32 steps each; the failure of the key agreement check for every pair of random keys cannot be told from bad luck by running it.", "anchors": [{"file": "src/bin/test_detrand.rs", "symbols": ["main"]}, {"file": "src/util/detrand.rs", "symbols": ["next_u32"]}, {"file": "src/bin/quic_test.rs", "symbols": ["bytes_from_str", "make_initial1"]}, {"file": "src/bin/tls_test.rs", "symbols": ["test_aes", "test_dh", "test_hexdump", "main"]}]}
{"id": "C125", "title": "No task of a TLS connection is left asleep while there is something for it", "statement": "In every execution of a TLS handshake under an executor that polls a task only after it was woken, over a transport that hands over bytes and takes bytes in any pieces and wakes the task only when it had answered \"pending\": whenever the task is not about to be polled, polling it would achieve nothing, and it waits for input with nothing arrived and the reader holding its waker, or for room with no room and the writer holding its waker. So a handshake with an authentic server has ended with the right keys as soon as everything has arrived, the transport takes the output and the task sleeps. A read, write, flush or shutdown of the connection that waits has woken its task or waits for the transport to take more. (Refuted: that a waiting task sleeps \u2014 poll_read wakes its own task whenever it waits, so a connection on which the peer is silent is polled without pause.)", "quantifier": "all reachable states of all executions, all interleavings of arriving bytes, drained output and polls, all servers, all cryptographic primitives", "why_tests_cant": "a lost wake-up shows as a hang in rare interleavings of arrival and poll; a test runs a few interleavings of one executor and cannot tell a hang from slowness", "anchors": [{"file": "src/tls/protocol/stream.rs", "symbols": ["RecordReceiver::poll_receive_data"]}, {"file": "src/tls/protocol/stream.rs", "symbols": ["PlaintextStream::poll_flush"]}, {"file": "src/tls/protocol/client.rs", "symbols": ["EstablishConnection::poll"]}, {"file": "src/tls/protocol/client.rs", "symbols": ["EncryptedStream::poll_fill_incoming"]}, {"file": "src/tls/protocol/client.rs", "symbols": ["EncryptedStream::poll_shutdown"]}]}
{"id": "C126", "title": "A file is read as a torrent exactly if it is one", "statement": "Torrent::from_bytes accepts a file if and only if the file begins with a bencoded dictionary in which info is a dictionary with a UTF-8 name, a list of files (each a dictionary with a length and a list of UTF-8 path components), a piece length and pieces of a multiple of 20 bytes, announce-list is a list of lists of UTF-8 strings, and the pieces can hold the files; what it returns is what the file says, and the info hash is that of the text of the last entry info of the dictionary, byte for byte. A file says at most one thing. Reading panics exactly if the total length of the files or the length that the pieces can hold does not fit in 64 bits, fails with \"Not enough pieces\" exactly if only the lengths are wrong, and with another error otherwise.", "quantifier": "all files below 2^64 bytes, all hash functions", "why_tests_cant": "that every file without the needed entries is rejected and every file with them is accepted concerns infinitely many files, with entries in any order, repeated keys and other spellings of numbers", "anchors": [{"file": "src/bittorrent/torrent.rs", "symbols": ["Torrent::from_bytes"]}, {"file": "src/bittorrent/torrent.rs", "symbols": ["Torrent::parse_files"]}, {"file": "src/bittorrent/torrent.rs", "symbols": ["Torrent::parse_announce_list"]}, {"file": "src/formats/bencoding/mod.rs", "symbols": ["parse"]}]}
{"id": "C127", "title": "Debug texts of TLS handshake messages", "statement": "The {:?} text of any decoded TLS handshake message is on one line, and both the {:?} and the {:#?} text of a message determine its kind, its number of lines and every field: two messages with equal texts are equal, apart from the data of server names of unknown type, characters that look alike unescaped, and an authority list of one empty name.", "quantifier": "for all handshake messages with bytes below 256, and all pairs of them", "why_tests_cant": "Whether two different messages ever print the same text is a question about pairs of unbounded nested values; tests can only compare texts of a few messages.", "anchors": [{"file": "src/tls/types/handshake.rs", "symbols": ["Handshake (derived Debug)"]}, {"file": "src/tls/types/extension.rs", "symbols": ["Debug impls"]}, {"file": "src/util/util.rs", "symbols": ["BinaryData"]}]}
{"id": "C128", "title": "Debug texts of CIDs, Bitswap messages, DAG nodes, UnixFS data and identify messages", "statement": "The {:?} and {:#?} texts of CIDs, CID prefixes, Bitswap messages and identify messages determine the value; those of DAG nodes and UnixFS data determine all but the contents of the data, of which they show the length only; a {:?} text is one line.", "quantifier": "for all values (strings UTF-8, hashes bytes) and all pairs of values", "why_tests_cant": "Injectivity of a printer of nested values of any size cannot be tested by examples.", "anchors": [{"file": "src/ipfs/types/cid.rs", "symbols": ["CID", "RawCID", "CIDPrefix"]}, {"file": "src/ipfs/bitswap/message.rs", "symbols": ["Message", "WantList", "Entry", "Block"]}, {"file": "src/ipfs/dagpb.rs", "symbols": ["PBNode", "PBLink"]}, {"file": "src/ipfs/unixfs.rs", "symbols": ["Data"]}, {"file": "src/libp2p/identify.rs", "symbols": ["Identify"]}, {"file": "src/libp2p/multiaddr.rs", "symbols": ["MultiAddr"]}, {"file": "src/util/util.rs", "symbols": ["BinaryDataLen", "OptBinaryDataLen"]}]}
{"id": "C129", "title": "Everything the Bitswap handler prints", "statement": "For every sequence of messages a peer sends on a Bitswap stream, printing changes no result, and the text printed is given line by line: the opening line, for each message its entries, blocks and presences and, where asked, the directory found in each block, then the closing line. A row of a directory determines the entry. A peer can make any UTF-8 line appear through a directory entry's name, and the size printed for a block is the size of the whole message.", "quantifier": "for all sequences of received messages, with and without directories shown", "why_tests_cant": "The text depends on unbounded peer-controlled messages and on the contents of nested blocks; tests look at a few outputs at best.", "anchors": [{"file": "src/ipfs/bitswap/handler.rs", "symbols": ["bitswap_handler", "bitswap_handler_inner", "bitswap_handler_show"]}, {"file": "src/ipfs/bitswap/message.rs", "symbols": ["Message::from_pb", "WantList::from_pb", "Entry::from_pb", "Block::from_pb"]}]}
{"id": "C130", "title": "The frame log of an mplex stream", "statement": "With logging on, the log of a frame stream is exactly the list of frames received, frames queued and drains that happened, in order, and determines them; with logging off nothing is printed and all results are the same. What was written to the transport and what is still queued are the frames of the log. The logs of both ends agree frame by frame, except that the opening frame is logged under another kind and without its name at the other end.", "quantifier": "for all sequences of operations on a frame stream, all frames and transport behaviours", "why_tests_cant": "Agreement of a log with an unbounded history of operations, and of two logs with each other, is beyond a finite set of runs.", "anchors": [{"file": "src/libp2p/mplex/frame.rs", "symbols": ["FrameStream::log_incoming_frame", "FrameStream::log_outgoing_frame", "FrameStream::log_drain_ok", "FrameStream::log_drain_error", "FrameStream::append_new", "FrameStream::poll_read_frame", "FrameStream::poll_drain"]}]}
{"id": "C131", "title": "Why a file is not a torrent", "statement": "A bencoded file is refused for its contents exactly when one of the demands on a torrent is not met, taken in a fixed order, and the message is the complaint about the first such demand: its path from the root, and the missing key, the expected kind, or the invalid text. Such messages are one printable line whatever the file contains. Messages about files that are not bencoded contain the file's own keys and can be made to contain any text.", "quantifier": "for all files, all bencoded values and all positions of the fault", "why_tests_cant": "Which of many faults is reported, and where, ranges over all trees of values; tests try single faults in small files.", "anchors": [{"file": "src/bittorrent/torrent.rs", "symbols": ["Torrent::from_bytes", "Torrent::parse_files", "Torrent::parse_announce_list", "TorrentError"]}, {"file": "src/formats/bencoding/mod.rs", "symbols": ["ValueError", "Value::as_string", "Value::as_list", "Value::as_dictionary", "Dictionary::get_required"]}]}
{"id": "C132", "title": "A stream of mplex over TLS is a pipe, whatever the network does short of forging records", "statement": "Put Mplex over the two ends of one EstablishedConnection, as the program ipfs does, after both ends have used the connection for negotiations, and let the applications make any calls (connect, accept, read, write, flush, shutdown, drop) in any order. Let the network be honest (it gives each end, in order, a prefix of what the other has sent, in any pieces) or let it give each end any bytes, as long as no record opens at a number under which the other end did not make exactly that. Then for every stream what one application reads is a prefix of what the other has written to that stream, and streams are accepted in the order in which they were opened, none left out. When nothing is queued at the writer, nothing under way, and the reader's buffers (TLS bytes, decrypted bytes, mplex frames) are empty, everything written has been read. It is not the case that bytes that have reached an end can be read there: a complete record may lie in the buffer of the TLS connection while the reader waits for the network.", "quantifier": "All AEADs with the stated law, keys, earlier uses of the connection, schedules of calls at both ends, contents, answers of the network (chunking, delays, errors, replays, reordering, any bytes) within the stated sizes.", "why_tests_cant": "The statement composes two protocols and quantifies over all interleavings and all behaviours of an attacker on the network; tests run a few connections over a well-behaved loopback.", "anchors": [{"file": "src/bin/ipfs.rs", "symbols": ["main"]}, {"file": "src/libp2p/mplex/stream.rs", "symbols": ["poll_accept_stream", "poll_read", "poll_write"]}, {"file": "src/libp2p/mplex/frame.rs", "symbols": ["poll_read_frame", "poll_drain"]}, {"file": "src/tls/protocol/client.rs", "symbols": ["poll_read", "poll_write", "poll_flush", "poll_shutdown"]}, {"file": "src/tls/error.rs", "symbols": ["from"]}]}
{"id": "C133", "title": "The trace of netsim accounts for the run", "statement": "Simulation::trace and its callers print one line per event of the simulation, and printing changes nothing about the run. Whatever the schedule of steps, the random numbers and the parameters, the lines pass this check: messages of a channel are numbered 0, 1, 2, ... over sent and dropped ones; a peer sends only an acknowledgement of the number it has reached or the message of that number; a received message is one that is under way, and from then on is not; after it the receiver's next line is about that message and calls it future, ok or duplicate (new, duplicate or stale for an acknowledgement) as its number compares with the number reached; a retransmission is of the number reached. This holds for the lines before a panic too; after a run without one the check's tally is the state of the simulation: numbers, messages under way, accepted data. The lines are in order of time. Two runs that print the same text had the same events, and if one ended with Done so did the other. It is not the case that by the trace a message takes at least the minimal latency.", "quantifier": "All schedules of the two peers, times, random draws, channel parameters and numbers of messages; all pairs of runs for the text.", "why_tests_cant": "The trace is the only output of the simulation; a test can compare it with a recorded one for a seed, not show that for all draws each line is justified by those before and that nothing is lost in the text.", "anchors": [{"file": "src/sim/simulation.rs", "symbols": ["trace", "trace_channel_send", "trace_channel_recv", "trace_channel_drop"]}, {"file": "src/sim/network.rs", "symbols": ["send", "recv"]}, {"file": "src/bin/netsim.rs", "symbols": ["description", "step", "main"]}]}
{"id": "C134", "title": "Length-prefixed messages survive the whole stack", "statement": "An application writes messages with write_length_prefixed_data to a stream of Mplex, and the application at the other end reads with read_opt_length_prefixed_data from it; meanwhile any other calls are made at both ends, and bytes are carried in any pieces with any delays. The messages read are always the first of those written, in order, none changed, joined, split, lost in between or repeated, and the last result is the end of the stream or a message cut short, never invalid data. When nothing is queued or under way and all was read, they are all the messages. The same holds over TLS with a network that does what it likes short of forging records. It is not the case that the reader sees everything that was delivered: a zero-length write in between ends the stream for it.", "quantifier": "All lists of messages, schedules of calls at both ends, pieces of writing, carrying and reading; for TLS all AEADs with the stated law, keys and behaviours of the network as in C132.", "why_tests_cant": "The statement composes the framing of messages, of mplex and of TLS records, over all interleavings and an attacker on the network.", "anchors": [{"file": "src/libp2p/io.rs", "symbols": ["read_opt_length_prefixed_data", "write_length_prefixed_data"]}, {"file": "src/libp2p/mplex/stream.rs", "symbols": ["poll_read", "poll_write"]}, {"file": "src/tls/protocol/client.rs", "symbols": ["poll_read", "poll_write"]}]}
{"id": "C135", "title": "A refused certificate is blamed on the right bytes", "statement": "When Certificate::from_bytes refuses a file with a type error, the range in the error cuts from the file bytes that, read alone by asn1::reader::read_item, are exactly one item, and that item is not of the type (or number of elements) the error says was expected. Every plain message (\"Missing issuer\", \"Invalid version\", \"Unexpected value\", ...) is given only for a certificate with that defect, reader errors are passed on unchanged, and the text of an error determines it. The decision is the one of the parser without places.", "quantifier": "all byte strings shorter than 2^64 and all ASN.1 items; all errors", "why_tests_cant": "Tests feed a few broken certificates; that the range printed always belongs to the offending item, at any depth and after any prefix, is a statement about every malformed input.", "anchors": [{"file": "src/crypto/x509.rs", "symbols": ["ParseError", "impl fmt::Display for ParseError", "from_bytes", "from_asn1"]}, {"file": "src/formats/asn1/value.rs", "symbols": ["TypeError", "as_exact_sequence"]}, {"file": "src/formats/asn1/reader.rs", "symbols": ["read_item"]}]}
{"id": "C136", "title": "Over mplex and TLS a node's commands get the answers of the node at the other end", "statement": "Two nodes of this code talk over one stream of an mplex session, in the clear over an orderly transport, or inside a TLS connection whose network does what it likes short of forging. If the answering side's bytes so far are ones its request loop can have written (whatever it heard, cut anywhere), then a description printed by the identify command is the answering node's own: its key, its protocols, its versions. The show command never gets past its request. The answering node hands a stream asking for identify never to the bitswap handler and one asking for bitswap never to the identify handler. When both programs of identify have ended and each has read all the other wrote, the description was printed and the stream served.", "quantifier": "all keys of 32 bytes, texts, hash functions, sessions of either kind (any calls, pieces, other streams, network), streams, amounts written so far", "why_tests_cant": "tests run one exchange over one socket; this is every interleaving of three protocol layers with arbitrary splitting and an active network", "anchors": [{"file": "src/bin/ipfs.rs", "symbols": ["connection_handler", "connection_handler2", "identify_client_inner", "main"]}, {"file": "src/libp2p/mplex/stream.rs", "symbols": ["poll_read", "poll_write"]}, {"file": "src/libp2p/multistream.rs", "symbols": ["multistream_handshake", "multistream_select"]}, {"file": "src/libp2p/io.rs", "symbols": ["read_opt_length_prefixed_data"]}, {"file": "src/ipfs/identify.rs", "symbols": ["identify_handler_inner"]}]}
{"id": "C137", "title": "Why bytes are not an ASN.1 item", "statement": "Reading one item with asn1::reader::read_item fails with an error exactly if that error is the first thing wrong with the bytes: a tag of 31, a length that is reserved, indefinite, too long or cut off, contents that are cut off (with the place and the number of bytes asked for), a universal type in the wrong form (with the name of the type), a Boolean of the wrong length or value, a null with contents, an object identifier that ends inside an arc, text that is not UTF-8, or one of these inside a list or a tagged value.  Every slice either begins with an item of the grammar of C90 or has exactly one such fault, never both.  The message that a value consumed nothing is never given.  Every proper beginning of an item is answered with UnexpectedEOF, which asks for no more than the item has, and an error of another kind, or one inside complete contents, stays the same whatever follows.", "quantifier": "for every byte slice, at every place of a buffer", "why_tests_cant": "The error is decided by the first fault in a recursive structure of unbounded depth, with absolute places that run through nested readers; tests see single malformed inputs.", "anchors": [{"file": "src/formats/asn1/reader.rs", "symbols": ["read_identifier", "read_length", "read_value", "read_item", "read_item_list", "read_object_identifier"]}, {"file": "src/util/binary.rs", "symbols": ["check_available"]}]}
{"id": "C138", "title": "The log of the download program tells exactly what happened", "statement": "For every run of the program download (any peer, any interleaving of the reading and the writing loop, any failure): printing changes nothing about the run; the messages in the log are exactly the messages received, in order, each preceded by the length of its body; the actions in the log are exactly what was sent, in the order bit field, interested, request; every status line gives the number of pieces of the torrent, choked by the last message about it, and interested only after that was sent; 'Finished' is printed at most once, last, and only after an error was told. The text of every line is exact, the lines before the loops are exact, and two logs with the same text are the same log.", "quantifier": "all torrents sizes, all byte streams and failures of the peer, all interleavings of the two loops, all texts of I/O errors", "why_tests_cant": "the two loops print concurrently; tests see one interleaving of one connection", "anchors": [{"file": "src/bin/download.rs", "symbols": ["on_received_message"]}, {"file": "src/bin/download.rs", "symbols": ["print_status"]}, {"file": "src/bin/download.rs", "symbols": ["read_message"]}, {"file": "src/bin/download.rs", "symbols": ["writer_iteration"]}, {"file": "src/bin/download.rs", "symbols": ["do_peer_connection"]}]}
{"id": "C139", "title": "The logs of the relay programs tell what was relayed", "statement": "Every line printed by a direction of the proxy is explained by the blocks read and passed on, in order, with the true running totals; the reads and writes of the log, its totals and its last line agree with the bytes read and written, and the line of the end of the input comes exactly when the loop ended there. The whole log is a mixture of these, with one `Got connection` line for every connection. The lines of the echo server add to one counter at a time at most one buffer, never show more sent than received, repeat exactly as often as a connection has ended, and the last one shows the counters. The logs of sock.rs and iotest.rs list the blocks read. All texts are exact and the texts of the first three determine the logs, except for the connection a line of the proxy belongs to, which is not told.", "quantifier": "all executions: all inputs, block sizes, interleavings of the tasks, errors and their texts, options", "why_tests_cant": "a test sees one interleaving and one cut of the input into blocks; that the printed totals and counters are right for all of them is not something that can be tried", "anchors": [{"file": "src/bin/proxy.rs", "symbols": ["proxy_loop", "main", "Side"]}, {"file": "src/bin/server.rs", "symbols": ["main"]}, {"file": "src/bin/sock.rs", "symbols": ["process_connection", "ServerMode"]}, {"file": "src/bin/iotest.rs", "symbols": ["connection_reader", "connection_writer"]}]}
{"id": "C140", "title": "Everything the IPFS node prints tells which stream, which request and how far", "statement": "The log of the node changes none of its results. On a stream opened by the peer there is exactly one line per request, in order, with the number of the stream and the escaped name: no name, whatever bytes it has, can make a second line, and the line tells number and name. 'terminated normally' is printed iff the peer ended the stream, 'Handler error' on the standard error iff it failed, the service's own lines iff it was started, which is for the exact name only. The streams are numbered 0, 1, 2, ... without repetition in the order of acceptance. While connecting the lines are always a beginning of one fixed list of milestones with the protocols listed by the peer, one line each, and all of it iff the multiplexed connection stands. The commands identify and show print exactly the lines stated for each result. The program over QUIC does exactly what show does for its CID, and sends exactly that request; it accepts any certificate (refuted), and it fails with this library's own node (refuted).", "quantifier": "all byte streams of the peer in any pieces, cut or failing anywhere; all sequences of accepted streams; all protocol names; all behaviours of TLS and QUIC as seen by the program; all texts of library errors", "why_tests_cant": "a test sees the lines of one session; that no name can forge a line, that the text says iff what happened and that numbering never repeats are about all peers", "anchors": [{"file": "src/bin/ipfs.rs", "symbols": ["connection_handler2", "connection_handler", "accept_loop", "main", "identify_client", "identify_client_inner"]}, {"file": "src/ipfs/identify.rs", "symbols": ["identify_handler"]}, {"file": "src/bin/quinntest.rs", "symbols": ["main", "verify_server_cert"]}]}
{"id": "C141", "title": "Identities are equal exactly when one is a clone of the other", "statement": "In every run of makings (Id::default), clonings and drops, whatever addresses the allocator gives, two Ids that are held are equal iff they come from the same default through clones; their order is total and agrees with equality; their text 0x... tells the address and is the same iff they are equal; the memory is in use exactly while somebody holds it, and what is held can always be cloned and dropped. Refuted: that an Id stands for one default for ever (any address no longer held can be the next), and that the order is the order of making.", "quantifier": "all sequences of new, clone and drop; all addresses an allocator may give that are not in use, reused ones included; all pairs of identities", "why_tests_cant": "the addresses of one test run are those of one allocator; reuse of an address depends on timing and allocator", "anchors": [{"file": "src/util/id.rs", "symbols": ["Id", "default", "eq", "cmp", "partial_cmp", "fmt"]}]}
{"id": "C142", "title": "What a failed TLS connection tells", "statement": "When establishing a TLS connection or reading from one fails because of a message that should not have come, the error carries the name of exactly the message that was received at that moment: the message decrypted after those that were taken in order, and one that must not come in that state; an alert during the handshake is named by its description, and no error about a message is without a name. The rest of the behaviour does not depend on the names. A read that failed because of a message or an alert fails in the same way for ever. The printed text of an error determines the error (as an io::Error too, except that an early end of the stream is told in the same way whether TLS or the transport noticed it), and the printed state of a connection being established tells exactly how far it is.", "quantifier": "all primitives, server bytes, polls, states and errors", "why_tests_cant": "the tests establish connections that succeed; every message can arrive in every state", "anchors": [{"file": "src/tls/error.rs", "symbols": ["TLSError"]}, {"file": "src/tls/protocol/client.rs", "symbols": ["EstablishingClientConnection", "poll_step", "fill_incoming_decrypted"]}, {"file": "src/tls/protocol/client_state.rs", "symbols": ["ClientState"]}, {"file": "src/tls/types/alert.rs", "symbols": ["Alert"]}]}
{"id": "C143", "title": "How long an mplex stream lives, and what an unread one does to the others", "statement": "Which streams an mplex connection has registered is determined exactly by the calls made and what they returned: a stream is registered from the first poll of connect, or from accept, until its reader is dropped. If no opening fails or is given up and the other side does not reopen a stream that still has a handle, the registered streams are exactly those with handles, so nothing is left when all handles are gone. Numbers of streams opened here are given out once. While the next frame belongs to a stream (or opens one), every read of another stream and every accept waits until the frame is taken or its reader dropped. Three things are false and refuted: giving up the opening of a stream leaves it registered for ever, and then one frame for it stops all reading on the connection for ever; of two streams accepted under one number the second gets nothing once the first was dropped. Dropping tells the other side nothing.", "quantifier": "all bytes of the transport, all sequences of calls a program with those handles can make", "why_tests_cant": "tests use a stream to its end; cancelled openings, reopened numbers and every order of drops and reads are not exercised", "anchors": [{"file": "src/libp2p/mplex/stream.rs", "symbols": ["MplexStreams", "Connect", "Acceptor", "StreamReader", "StreamWriter", "Stream"]}]}
{"id": "C144", "title": "How much a peer can make the program hold", "statement": "While a TLS handshake is going on and waits for the server, less than one record of the largest permitted size (5+16640 bytes) is buffered, and never more than that and two chunks of the transport; the established connection starts with no more.  An mplex frame reader that waits holds no complete frame, so less than the frame at the front announces.  Beyond that nothing is bounded: an mplex header may announce any length up to 2^64 and whatever comes of the payload is kept; a header of bytes with the top bit set never ends and is kept; and a program that reads an established TLS connection as fast as it can, every read succeeding, holds one record more after each read if the server sends two small records at a time.", "quantifier": "all servers and peers, all ways the bytes arrive, all cryptographic primitives, any number of polls and reads", "why_tests_cant": "the bounds are over all executions and chunkings; the unboundedness is for every size, and the growth of the TLS buffer shows only in long transfers of small records", "anchors": [{"file": "src/tls/protocol/stream.rs", "symbols": ["pop_record", "poll_receive_record_ignore_cc"]}, {"file": "src/tls/protocol/client.rs", "symbols": ["EstablishConnection", "poll_fill_incoming"]}, {"file": "src/libp2p/mplex/frame.rs", "symbols": ["poll_read_frame", "extract_varint_u64"]}]}
{"id": "C145", "title": "The log of a torrent peer session tells how the session went", "statement": "Everything that do_peer and PeerConnection print about one peer: the printing program is the program of C35-C37 (same messages, requests, blocks and ending); for every message handled, in order, exactly the lines that belong to it are printed (the line naming it; for a handshake its three fields in hexadecimal; for a bit field its size and, when the size fits, numbers of pieces had and needed that add up to the number of pieces; for an unchoke or block the request counts, and before them a line when nobody asked for the block), then the lines that belong to how the session ended, and 'Client finished ...' with an error or without names exactly the result of the loop. The three request counts of a line always add up to all requests of the transfer. Every block received was kept or is named as not wanted. Two sessions of a transfer with the same text printed the same lines, up to the contents of blocks and bit fields. 'Finished without error' does not mean that anything was exchanged: it is also what a peer that closes before the end of its handshake gets.", "quantifier": "for all transfers, peer ids and sequences of reads from the peer", "why_tests_cant": "the log depends on the whole byte stream and on how it is cut into reads; that it is complete, ordered and can be read back is a statement about all of them", "anchors": [{"file": "src/bin/torrent_client.rs", "symbols": ["handle_message", "complete_request", "get_next_message", "parse_message", "want_more_requests", "do_peer"]}, {"file": "src/bittorrent/protocol.rs", "symbols": ["ProtocolError"]}]}
{"id": "C146", "title": "A torrent peer session is decided exactly by the bytes of the peer", "statement": "Every stream of bytes from a peer reads in exactly one way as a session (closed within the handshake; another protocol; a handshake, messages in their wire form and then a message cut off, a message that crashes the client, an unknown message, one of the wrong size or a bit field of the wrong size), and do_peer handles exactly those messages and ends in exactly that way, however the bytes are cut into reads. In particular the client panics, and ends without an error, on exactly the streams described. What it asks for, keeps and sends is exactly what the messages call for: after an unchoke or a block it sends as many waiting requests as make 101 unanswered ones, and 'not interested' when that takes them all; a block is kept exactly when it answers an unanswered request; a bit field of the right size is answered by unchoke and interested; nothing else is sent.", "quantifier": "for all transfers, byte streams and cuts of the stream into non-empty reads", "why_tests_cant": "an exact description of the behaviour on all byte streams; tests only see some streams, and cannot show that no other stream crashes the client or gets a request out of it", "anchors": [{"file": "src/bin/torrent_client.rs", "symbols": ["do_peer", "get_next_message", "parse_message", "handle_message", "start_request", "complete_request"]}]}
{"id": "C147", "title": "Exactly which packets stop the QUIC endpoint", "statement": "parse_packet panics exactly for packets with a short header (first byte 01xxxxxx) and for initial packets (header as RFC 9000 17.2.2 draws it, any varint widths) which have twenty bytes at least after the header and whose length is smaller than the packet number (whose size is told by the low bits of the first byte and of the mask) or leads past the packet, or which decrypt to frames whose messages stop it. try_pop_handshake panics exactly when a whole message is there and it is a key update, or is read as something that is not written again as all the bytes that arrived; so any whole message of an unknown type stops the endpoint.", "quantifier": "All packets of bytes, all connection tables with sound secrets, all primitives with the right output sizes, all block functions; all crypto data and all frames", "why_tests_cant": "The statement is an equivalence over every packet and every key; tests show single packets that crash or do not, never that no other packet crashes.", "anchors": [{"file": "src/bin/quic_test.rs", "symbols": ["parse_packet", "parse_long_header_packet", "parse_initial", "try_pop_handshake"]}, {"file": "src/quic/encryption.rs", "symbols": ["decrypt_payload"]}]}
{"id": "C148", "title": "Exactly what stops the TLS client", "statement": "While the client waits for the server's hello it panics exactly when the next record that is not a ChangeCipherSpec is an unencrypted handshake record that starts with byte 24 and three more (a KeyUpdate). Later it panics exactly when, after records that open under the server's key and hold messages in order (or, on an open connection, session tickets), the next one opens at its place in the stream and holds a KeyUpdate, or opens at all under number 2^64-1. Nobody without the server's key can cause that. The check of the server's messages panics exactly when the value in Finished does not have the length of the hash; the check of certificates and the server's hello never do.", "quantifier": "All buffers, all splittings by the transport, all states of the handshake and connections, all keys and numbers, all primitives whose outputs have the right sizes", "why_tests_cant": "The statement is an equivalence over every byte stream and every key, including what an attacker without the key can send; tests show single streams only.", "anchors": [{"file": "src/tls/protocol/stream.rs", "symbols": ["poll_receive_plaintext_message", "poll_receive_encrypted_message"]}, {"file": "src/tls/helpers.rs", "symbols": ["decrypt_message", "verify_finished"]}, {"file": "src/tls/protocol/client.rs", "symbols": ["poll_fill_incoming", "compute_application_secrets", "verify_certificate"]}]}
{"id": "C149", "title": "Exactly what stops the establishing of a TLS connection", "statement": "Whatever a server (or anyone on the path) sends, establishing a TLS connection stops the client with a panic if and only if the bytes that have arrived by some poll are these: before the keys exist, the next record other than a ChangeCipherSpec is a handshake record that begins with a KeyUpdate message; afterwards, after any number of proper messages of the flight, the next protected record opens with the server's key at its place, holds handshake bytes, and these begin with a KeyUpdate, or with a Finished message of another length than the hash where one may come (whatever certificate and signature came before). In no other way: not by the way the bytes are cut, not by the certificates, not by the client's own certificate, and not by any answer of the transport on reading or writing.", "quantifier": "for all primitives of proper sizes, all configurations, all states, all answers of the transport and all sequences of polls", "why_tests_cant": "Tests try a few malformed flights; they cannot show that no other bytes in no other order and cut stop the client.", "anchors": [{"file": "src/tls/protocol/client.rs", "symbols": ["poll_step", "on_server_messages", "do_poll_recv", "on_opt_message"]}, {"file": "src/tls/protocol/stream.rs", "symbols": ["poll_receive_encrypted_message", "poll_receive_plaintext_message"]}]}
{"id": "C150", "title": "Exactly which retransmissions stop the QUIC crypto stream", "statement": "Feeding CRYPTO frames that leave no gap on arrival into a new CryptoStream panics if and only if some frame ends before a frame that came earlier; otherwise every frame is used and the data is as long as the furthest frame reaches. Whatever frames came before (gaps or not), one more frame that starts behind a gap is only kept, one that ends exactly where the data ends changes nothing, and one that ends earlier panics. Whether a given set of overlapping frames is taken depends on their order of arrival.", "quantifier": "for all sequences of frames (any offsets, any bytes, overlapping or not)", "why_tests_cant": "Tests send a few frames in order; retransmission, overlap and their orders are infinitely many, and the panic needs a particular one.", "anchors": [{"file": "src/quic/spec.rs", "symbols": ["CryptoStream", "add_frame", "check_pending", "send"]}]}
{"id": "C151", "title": "Exactly what stops an open TLS connection", "statement": "Over any sequence of reads, writes, flushes and shutdowns on an established connection, some call panics if and only if at some point either a read meets, after any number of session tickets, a record that opens under the server's key and begins with a KeyUpdate message (or whose number is the last one, 2^64 - 1), or a write or shutdown makes a record after 2^64 - 1 others. So with fewer than 2^64 calls only reads can, and only because of received bytes. Every connection that the client establishes is in the domain of this statement.", "quantifier": "for all primitives of proper sizes, all connections established by any handshake, all sequences of calls and all answers of the transport", "why_tests_cant": "Tests make a few calls; the statement is about every sequence of calls and every way the transport may answer, and one direction says that nothing else stops the program.", "anchors": [{"file": "src/tls/protocol/client.rs", "symbols": ["EstablishedConnection", "append_record", "poll_fill_incoming", "poll_read", "poll_write", "poll_flush", "poll_shutdown"]}]}
