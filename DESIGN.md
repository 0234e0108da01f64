# Formal model of peterkelly/ngfs in Rocq: design

The model lives in `rocq/theories`. Every definition cites the file and lines of
`/repo` it models. Nothing in `/repo` is built or executed.

## 1. Conventions

* A byte is an `N` below 256, a Rust unsigned integer of width w an `N` below 2^w,
  a signed one a `Z` in range. Rust's types guarantee those ranges; in the model
  they are explicit hypotheses (`bytes_ok`, `v < 2^64`, ...) of the theorems.
* `usize` is 64 bits wide. Lengths of in-memory buffers are `nat` (`length`).
* `Result`/`Option` stay data. A panic (slice out of range, arithmetic overflow in
  a checked build, `unimplemented!()`, `assert!`) is the explicit value `Panic`
  of the type `outcome`. "Never panics" theorems say `<> Panic`.
* `&mut self` methods return the new state.
* Loops are structural recursion or recursion on fuel; running out of fuel is a
  separate value (`OutOfFuel`/`Hang`) that theorems exclude (or, for the PEM
  decoder's infinite loop, exhibit).
* Cryptographic primitives (hashes, AEAD, AES block, signatures, HKDF) and the
  operating system's transport are not modelled: they are universally quantified
  function parameters, with the laws used (e.g. `open (seal x) = x`) as explicit
  hypotheses, and an `Example` gives an instance that satisfies those laws.
* Asynchronous code: a `poll_*` method is one step; the transport is an oracle,
  i.e. an arbitrary list of answers (`Pending`, `Ready n bytes`, `Eof`, error)
  over which theorems quantify. Wakers are modelled for the clock (C69) and for mplex (C75).

Files come in triples: `XModel.v` (definitions only), `XProofs.v` (lemmas),
`XProps.v` (property theorems closed by `exact`, `Print Assumptions`, and
`Example`s showing the hypotheses are met). Specifications that are independent
of the code are in `XSpec.v` or at the head of `XProps.v`.

Where the code violates the property, a theorem with suffix `_refuted` proves a
concrete counterexample and a further theorem states what does hold.

## 2. Plan per property

| id | modelled code | method |
|----|---------------|--------|
| C01-C04 | varint.rs, VarInt::read_from | spec = base-128 value; induction on bytes / strong induction on the number |
| C05-C08 | protobuf.rs writer, reader, accessors | bit arithmetic lemmas; induction on the field list; fuel = input length |
| C09-C11, C13, C14 | dagpb, identify, peer_id, bitswap message, unixfs | message decoders as folds over fields; round trip from C06; unknown fields by fold invariance |
| C12 | fs.rs Directory::from_dagpb | induction on links, comparison with a relational spec |
| C15-C18 | util/binary.rs | reader as state transformer; op-list induction; round trips |
| C19 | util/util.rs | induction |
| C20-C23 | multibase.rs | big-number value of digit lists; bit-stream view for power-of-two bases |
| C24-C26 | cid.rs | composition of varint + multibase results; numeric bounds for "Qm" |
| C27 | bitswap/block.rs | abstract hash functions |
| C28-C30 | bencoding/mod.rs | fuelled parser; locality lemma (parser depends only on consumed bytes) |
| C31-C33 | bittorrent/torrent.rs | on top of the bencode model |
| C34 | bittorrent/data.rs | induction over bytes |
| C35-C37 | bin/torrent_client.rs | invariants over op lists; chunking independence |
| C38-C41 | libp2p/mplex | frame codec; transition system with arbitrary polls |
| C42-C44 | libp2p/io.rs, multistream.rs, node.rs, bin/ipfs.rs | stream oracle; induction over chunks |
| C45 | multiaddr.rs | induction with fuel |
| C46-C49 | formats/asn1 | mutual induction on value trees, fuelled reader |
| C50 | crypto/x509.rs | structural |
| C51 | crypto/pem.rs | induction; explicit Hang value |
| C52-C54, C78 | tls/types | RFC registries as tables; RFC encoding as a spec, reader and writer combinators |
| C55-C57 | tls/protocol/stream.rs, tls/helpers.rs, crypto/aead.rs | abstract AEAD, chunk induction |
| C58-C62 | tls/protocol/client*.rs | transition system with adversarial peer, invariant |
| C63-C67 | quic | list surgery lemmas, abstract mask/AEAD |
| C68-C70 | sim, bin/netsim.rs | transition system, invariants |
| C71 | util/detrand.rs | modular arithmetic (2-adic valuation of the geometric sum) |
| C72 | protobuf messages | parsers characterised relationally on all inputs |
| C73 | util/util.rs escape_string | induction |
| C74 | bin/torrent_client.rs parse_message | exact panic condition, loop induction |
| C75 | libp2p/mplex/stream.rs wakers | invariants over all executions of accept/read/connect/drop |
| C76 | libp2p/mplex/stream.rs writers, frame.rs poll_drain | conservation of queued bytes, induction over calls |
| C79-C81 | tls/protocol/client.rs | witnesses and independence lemmas |
| C82, C83, C86, C87 | bin/quic_test.rs | refuted for all keys and ids where possible; case analysis of the parser for the remaining panics |
| C88, C89 | bin/netsim.rs | a witness with an invariant of everything after it; computation of a step in any overdue state |
| C90, C91 | formats/asn1/reader.rs | the grammar as mutual inductive relations (Asn1Grammar.v) with the meaning of each item; soundness by induction on the fuel, completeness by mutual induction on the derivation; the recursion of the reader uses the machine stack, whose exhaustion by deep nesting is not modelled |
| C92 | crypto/x509.rs | the shape of each part as a relation on items (X509Shape.v); inversion of each parser both ways; bytes by C90 |
| C93, C94 | bin/tracker.rs, bin/torrent_client.rs | every datagram is cut into header, endpoints and rest; the parsers are computed on that form, and the claims follow both ways |
| C95 | bin/download.rs | a reader is reduced to the bytes it delivers and how it ends; the loops are computed on that form |
| C96 | bin/download.rs | step relation of the two loops; invariant linking flags, places and output; concrete runs for the refutations |
| C97, C98 | bin/chatserver.rs | step relation over a map of connections; invariants per channel (queue and output) and per pair of sender and receiver; lines by the first newline |
| C99 | ipfs/identify.rs, bin/ipfs.rs | computation of the value, round trip of C10 and C42 |
| C100 | ipfs/bitswap/handler.rs | a relation on byte strings (session) built from C42, C11, C26, C27 and C12; soundness by induction on the fuel, uniqueness by induction on the session |
| C101 | bin/x509.rs | the encoder computed part by part to an explicit byte string; C51 and C50 for reading back |
| C102 | bin/asn1.rs | the grammar of C90 gives well-formed trees; the writer ignores ranges and Booleans |
| C103 | formats/asn1/printer.rs | injectivity of every line; lists by the branch marks; induction on the tree with the text that follows |
| C104 | util/util.rs | rows by strong induction on the data; injectivity row by row from fixed widths |
| C105, C106 | bin/proxy.rs, server.rs, sock.rs, iotest.rs | step relations of pipes; invariant "input = written ++ buffered ++ unread" and counters as sums over connections; a measure for progress |
| C107 | formats/bencoding/mod.rs | erasure to the parser of C29; a grammar of faults (`leads`, `fault`), both directions by induction on fuel and on the steps |
| C108 | bin/view.rs, bencoding dump | computation of every command; containment of dumps by induction on the way to the value |
| C109 | bin/multibase.rs, bin/test_multibase.rs | from the exact decoder theorems C06–C10 by cases on the first character |
| C110 | multibase.rs gen_inverse | induction on the alphabet with the last position as invariant; the source tables by computation |
| C111 | bin/cli.rs | from C24–C27 (CID texts), C01 (varints) and the protobuf reader theorems; injectivity of texts piece by piece |
| C112 | multiaddr.rs texts | an address as a list of parts without slashes, then injectivity of the parts |
| C113 | tls/protocol/client.rs, the converse of C58 | an invariant over the bytes still to come: records arrive in pieces, each check accepts what `authentic` says; then progress of one poll when nothing is missing |
| C114 | bin/torrent_client.rs, composing C35–C37 | the loop as a function of the messages (`play`); requests sent are active or completed; an answer completes; then nothing active and nothing pending, and the tiling of C35 gives the content |
| C115 | libp2p/mplex: two connections, composing C38, C39 and C76 | both ends as step functions, a schedule of calls at both; the transport as a prefix relation at every prefix of the schedule; frames taken at one end are a prefix of the frames queued at the other; nothing for a stream arrives before it is open; then the bytes read are a prefix |
| C116 | bin/ipfs.rs: the commands, the answering side, the negotiation of main; composes C10, C42, C43, C44, C99, C100 | each end as a program that says and hears (coinductive), shown to be the code; two programs joined by two byte pipes as a step relation; a diamond lemma gives that one finished execution decides all of them; `show` refuted |
| C117 | bin/tls_client.rs, composing C51 (PEM), C58 (TLS client) and C104 (hex dump) | files as contents, options as a record; the configuration by exact characterisation; connections through C58; the read loop by induction over what arrives; fixed server name and hanging option files refuted |
| C118 | bin/tracker.rs main and bin/torrent_client.rs main, composing C93, C94 (messages) and C31, C32 (torrent files) | programs as trees of datagram sends and receives; an honest tracker as a relation on transcripts after BEP 15; transcripts characterised exactly by inversion; the 679-peer cut from the 4096-byte buffer |
| C119 | bin/quic_test.rs client and server, composing C67 and C84 (initial packets), C53 (hellos) and C86 (parameters); quic/spec.rs dispatcher | datagram programs of C118; side conditions of C67 computed for symbolic 32-byte values; the dispatcher by induction over packets; texts by cutting at separators |
| C120 | bin/download.rs as a whole program, on top of C95 (handshake) and C96 (the two loops) | a state machine around the step relation of C96; runs of the program are projected to runs of the loops |
| C121 | bin/threads.rs, manual_futures.rs, select_test.rs, udptest.rs | step relations; shuffles of lists as specification; invariants by induction over runs; fold over the polls of the joined task |
| C122 | crypto/x509.rs print functions, bin/x509.rs print | texts as lists of lines; injectivity line by line from injectivity of decimal, hexadecimal and registry names; composition with C101 for generated certificates |
| C123 | tls/types names, error texts of binary.rs, asn1/value.rs, cid.rs, fs.rs | the RFC's code tables with names in the RFC's spelling as specification; case analysis on codes; injectivity of texts by splitting at characters that are not digits |
| C124 | bin/test_detrand.rs, bin/tls_test.rs, parts of bin/quic_test.rs | closed form of the generator's iterates, the power of two dividing it (from C71); counting by pairing outputs 2^b apart; filters of texts and the multibase specification of C22; case analysis for the programs |
| C125 | wake-ups of tls/protocol/stream.rs, client.rs | an executor as a step relation; invariant over its runs: the task will be polled, or it is stuck with its waker in the right hands; a stuck poll repeated changes nothing; with C113 the honest handshake ends |
| C126 | bittorrent/torrent.rs from_bytes | the reading of the fields split from the checks of the lengths; sound and complete against the grammar of C29; where the parser puts the entries of a dictionary, and that a text has one list of entries |
| C127 | Debug of tls/types/handshake.rs and extension.rs | a tree of names, fields and lists printed in two ways; each leaf text shows where it ends, hence (structural induction) so does each tree; line feeds counted on the tree |
| C128 | Debug of CIDs, Bitswap messages, DAG nodes, UnixFS data, identify messages | the trees of C127; separation lemmas per type; the lengths shown are injective up to contents; witnesses with equal lengths refute the rest |
| C129 | Everything the Bitswap handler prints | a second version of the handler that also returns its text; erasing the text gives the first; the text is a fold over the messages, stated separately in the specification; witnesses refute the size and show a forged line |
| C130 | The mplex frame log | operations return their log lines; induction on the operations; lines are injective; the wire invariant of C39 relates log and bytes; the opening frame is the exception |
| C131 | Why a file is not a torrent | the reader over values with paths, shown equal to that of C126 by a relation through every bind; the demands as an ordered list in the specification; strict and weak answers composed along the binds; the paths of C107 |
| C132 | mplex over TLS | executions of the stack as sequences of calls, each with the calls it makes of the TLS connection; projected to a C115 session (by C59/C61: what is returned is a prefix of what was accepted at the other end); examples played out with the toy AEAD, one with a replay |
| C133 | the trace of netsim | a model that also returns the trace, equal to SimModel.v in the rest; a checker that reads the trace line by line with a tally, invariant: the tally shows the state; the text read back field by field |
| C134 | messages over mplex over TLS | the reads of a stream as a source of the message reader of C42; a front of the written bytes is a list of messages and a front of one; C115 and C132 give the front |
| C135 | Why a file is not a certificate | X509ErrorModel.v models the parser with the ranges of its errors; agreement with X509Model.v by `map_err`; the ASN.1 reader is shown to look only at the item's bytes (Asn1LocalProofs.v), so every part is what its bytes alone read as (also C48); each plain message is matched with a defect of the item tree |
| C136 | The node's commands over the whole stack | no new model: the programs of C116 joined to the streams of C115 and C132 through what C134 says a reader finds; `said` is what a program can have written so far, whatever it heard; what is heard of it is followed message by message |
| C137 | Why bytes are not an ASN.1 item | spec Asn1Wrong.v: relation `wrong place bytes error` beside the grammar `der` (what a reader from left to right meets first). Completeness (every fault is reported, mutual induction) in Asn1WrongProofs.v, and the dichotomy grammar/fault by induction on the length; the other direction follows, since the reader is a function and C90 gives Ok on the grammar. |
| C138 | The log of the download program | DownloadLogModel.v: the steps of C96 with what they print (reading a message and handling it are two steps, since the other loop may print between). Projection both ways onto the runs of DownloadMainModel.v; one invariant (messages, choked flag, actions, bytes sent) carried along all runs; the reader's lines as blocks `telling`; status lines by their position; the text by templates and by injectivity of every line. |
| C139 | The logs of the relay programs | RelayLogModel.v: the steps of RelayModel.v with the lines they print, `main` of the proxy split at `connect`, iotest's reader split at the lock. RelayLogProps.v: the runs are the old ones; by induction over the steps a direction's log is a story of its blocks; the whole log filtered by connection and side is such a log; two runs with the same text for the refutation. RelayLogProps2.v: the server's lines as a march with one step per lock, repeated lines counted by ended connections; sock and iotest likewise; lines by templates; texts read back by splitting at line ends and at the characters after numbers. |
| C140 | Everything the IPFS node prints | NodeLogModel.v: the functions of IpfsMainModel.v with what they print. NodeLogProps.v: erasing the text gives the old results; the request loop by induction on its fuel, with the messages read as a separate inductive relation; one line per request because the escaped name has no line end; numbers as `0 .. n-1`; the lines of connecting are `firstn k` of a fixed list. NodeLogProps2.v: with a cooperating peer (in any pieces) exactly the list; the program over QUIC is `show` for its CID; refuted: it checks the server; it works with the own node |
| C141 | Identities | IdModel.v: a heap of counted addresses, the identities ever made, steps new/clone/drop with any free address. IdProps.v: the specification computes from the actions alone which `default` an identity comes from; an invariant (counters = holders, held addresses equal iff same origin) by induction over runs; texts by reading hexadecimal back; refuted: an address means one identity for ever; the order is that of making |
| C142 | What a failed TLS connection tells | TlsBlameModel.v: the machine of TlsClientModel.v with the names that errors carry, and the texts. TlsBlameProofs.v: forgetting the names gives the old machine; errors without a name never arise (every error source of the handshake is gone through). TlsBlameProps.v: an inductive relation of messages decrypted and taken, then the named message is the next one and untimely (order of C58); texts split at the bracket and the comma |
| C143 | Lifetimes of mplex streams | MplexLifeModel.v: a world of handles over the shared state; calls are possible only with the handle. MplexLifeProofs.v: what each call does to the tables, the frame in front. MplexLifeProps.v: registration as a function of calls and events; invariant tables = handles for tidy runs; an abandoned stream is an invariant of every continuation; a wanted frame in front makes all others wait |
| C144 | What a peer can make the program hold | HoldProps.v, over the models of C38, C57-C61: a rank of states (reads still to come in one poll) bounds what one poll adds; a receiver that waits has no complete record. Unboundedness by induction over the reads with two records per chunk. |
| C145 | The log of a torrent peer session tells how the session went | PeerLogModel.v pairs the receive loop of PeerModel.v with its lines; induction over the loop gives blocks of lines per message; injectivity of every line by cutting at the decimals |
| C146 | A torrent peer session is decided exactly by the bytes of the peer | grammar of streams (session, talk) and effects of messages as inductive relations independent of PeerModel.v; both directions by induction over the receive loop after joining the reads (C37) |
| C147 | Exactly which packets stop the QUIC endpoint | own grammar of initial headers (any varint widths); inversion of the two header readers; decrypt_payload panics iff the length is bad; first message of the crypto data by cases; equivalences |
| C148 | Exactly what stops the TLS client | key_update as the first four bytes; next_record by carries; decrypt_message computed on a record; inductive flight_stops / reading_stops; range of the signed part by C48; equivalences |
| C149 | Exactly what stops the establishing of a TLS connection | Invariant `state_ok` of the states of `EstablishConnection`; induction over the flight (`handshake_stops`), then over the steps of one poll (rank of the state) and over the polls; each step panics exactly when the bytes at hand are those of C148 |
| C150 | Exactly which retransmissions stop the QUIC crypto stream | Pending frames lie behind a gap (invariant); without gaps there are none, so each frame is compared with the end of the data alone: induction over the frames |
| C151 | Exactly what stops an open TLS connection | Each call: C148 for reads, the number of the record for writes; invariant `open_ok` kept by every call and reached by every handshake (invariant `done_ok` beside `state_ok` of C149); induction over the calls |
| C84, C85 | quic/wire.rs, quic/spec.rs | direct computation |
| C77 | libp2p/tls.rs, crypto/x509.rs | DER round trip of the generated structure; keys and signing abstract |

## 3. Trusted base

* Coq 8.16.1's kernel (`coqc`), and the virtual machine used by `vm_compute`.
* No axioms. `Print Assumptions` stands after every property theorem and answers
  "Closed under the global context" for each of them; no file declares an axiom,
  a parameter or an unproved obligation. `coqchk -o` (and the checker used on this
  repository) lists seven names `Coq.ssr.ssrunder.Under_rel.*`: they belong to a
  module type of the standard library that `lia`'s preprocessing (`ZifyBool`)
  loads; no theorem depends on them.
* The reading of the Rust code: each definition of a `*Model.v` file cites the file
  and the lines it stands for, and states its simplifications. Nothing checks that
  reading mechanically. As a check by example, `RepoTests.v` runs the repository's
  own unit tests (protobuf, varint, CID, bitfield, generator) and published test
  vectors (multibase, RFC 9000, RFC 9001) in the model.
* The meaning given to the Rust constructs: machine integers as `N` with the wrap
  written out where the code can wrap (release build; a debug build would panic
  there); vectors and slices as lists, with the hypothesis `fits` (length below
  2^64) where an offset is computed; text as its UTF-8 bytes; hash maps as
  association lists in an order that theorems do not depend on or quantify over;
  panics, errors and endless loops as separate outcomes.
* Not represented at all: memory exhaustion, stack depth (the bencode and ASN.1
  parsers recurse as deep as the input nests), time, logging and printed output.
* Cryptography: hashes, AEAD, HKDF, signatures, key agreement are arbitrary functions;
  the laws a theorem uses are its hypotheses.

## 4. What is modelled

| model file | code (under src/) |
|---|---|
| Base.v | no source: outcomes, byte lists, big- and little-endian numbers, UTF-8 validity |
| VarintModel.v | formats/protobuf/varint.rs (all but `Display`), the scanning helper of protobuf.rs |
| ProtobufModel.v | formats/protobuf/protobuf.rs: reader, writer, typed accessors; not its printing functions |
| CidModel.v, CidTextModel.v | ipfs/types/cid.rs: binary and text form |
| MultibaseModel.v | ipfs/types/multibase.rs |
| BlockModel.v | ipfs/bitswap/block.rs (hashes are parameters) |
| BitswapModel.v | ipfs/bitswap/message.rs |
| DagPbModel.v | ipfs/dagpb.rs |
| UnixfsModel.v | ipfs/unixfs.rs and ipfs/fs.rs `Directory` |
| IdentifyModel.v | libp2p/peer_id.rs, libp2p/multiaddr.rs, libp2p/identify.rs |
| BinaryModel.v | util/binary.rs |
| UtilModel.v | util/util.rs: hex text and `escape_string`; util/detrand.rs |
| BencodeModel.v | formats/bencoding/mod.rs: the parser and its accessors |
| TorrentModel.v | bittorrent/torrent.rs, bittorrent/data.rs |
| PeerModel.v | bin/torrent_client.rs: the peer connection (requests, message parsing, receive loop), types of bittorrent/protocol.rs; not its tracker client, file output and argument handling |
| MplexModel.v | libp2p/mplex/frame.rs and stream.rs with their wakers |
| LpioModel.v | libp2p/io.rs, libp2p/multistream.rs, the registry of ipfs/node.rs, the request loop of bin/ipfs.rs |
| Asn1Model.v | formats/asn1/value.rs, reader.rs, writer.rs |
| X509Model.v | crypto/x509.rs (not printing, not the object registry), libp2p/tls.rs |
| PemModel.v | crypto/pem.rs |
| TlsCodesModel.v, TlsTypesModel.v | tls/types/alert.rs, extension.rs, handshake.rs, and record.rs |
| TlsRecordModel.v | tls/protocol/stream.rs, tls/helpers.rs, crypto/aead.rs, crypto/crypt.rs (the algorithms themselves are parameters) |
| TlsClientModel.v | tls/protocol/client.rs, tls/protocol/client_state.rs, signing and signature checking as parameters |
| SimModel.v | sim/*.rs (random numbers are inputs; trace output is not modelled), bin/netsim.rs |
| QuicModel.v | quic/encryption.rs, quic/parameters.rs, quic/wire.rs, the crypto stream and stream ids of quic/spec.rs, packets, frames and messages of bin/quic_test.rs (AES, AEAD and HKDF are parameters; sockets and logging are not modelled) |
| TrackerModel.v | the tracker messages of bin/tracker.rs, bin/torrent_client.rs and bittorrent/protocol.rs (sockets, url lookup and random numbers are not modelled) |
| DownloadModel.v | bin/download.rs: messages, handshake, the two loops of a connection (torrent file and tracker lookup are not modelled here) |
| ChatModel.v | bin/chatserver.rs (printing and the accept loop's socket are not modelled) |
| HandlerModel.v | ipfs/identify.rs, ipfs/bitswap/handler.rs and the service list of bin/ipfs.rs (log lines other than those about received data are not modelled) |
| CaModel.v | bin/x509.rs: generate and the reading part of print (the ring RSA key pair is a parameter) |
| Asn1ToolModel.v | bin/asn1.rs, formats/asn1/printer.rs, Display and Debug of formats/asn1/value.rs, the name registry of crypto/x509.rs |
| HexDumpModel.v | util/util.rs: hex dumps and indentation |
| RelayModel.v | bin/proxy.rs, bin/server.rs, bin/sock.rs (server side), the connection of bin/iotest.rs; its log lines are in RelayLogModel.v |
| BencodePathModel.v | formats/bencoding/mod.rs: paths, error texts, dump; bin/view.rs (error output is not modelled) |
| ToolsModel.v | bin/multibase.rs, bin/test_multibase.rs, error texts and table generator of formats/multibase.rs (argument parsing by clap is not modelled) |
| CliModel.v | bin/cli.rs, Debug of ipfs/types/cid.rs and formats/protobuf/protobuf.rs, texts of libp2p/multiaddr.rs (OpenSSL's text of a key and the text of an IPv6 address are parameters) |
| IpfsMainModel.v | bin/ipfs.rs 75-343: connection_handler with its handlers, the negotiation of main, the commands identify and show (argument parsing and key generation are not modelled; TLS is a parameter here) |
| TlsToolModel.v | bin/tls_client.rs (test_echo, which is not called, and error texts are not modelled; argument parsing by clap is not modelled) |
| AnnounceModel.v | src/bin/tracker.rs `main`; src/bin/torrent_client.rs `main`, `run_with_tracker`, `open_tracker_connection`, `send_tracker_request`, `receive_tracker_response`, `get_tracker_urls`, `read_torrent_file`, `generate_peer_id`, `generate_transaction_id`. Programs with a UDP socket as trees of sends and receives. Not modelled: errors of the socket and of saving a file, the progress texts, argument parsing (clap). |
| QuicToolModel.v | bin/quic_test.rs `make_client_hello`, `udp_receiver`, `udp_receiver_inner`, `main` (not the subcommand parse-initial); quic/parameters.rs 30-49 and quic/spec.rs 52-67, 348-359 (texts); quic/spec.rs 243-303 (the dispatcher) |
| DownloadMainModel.v | bin/download.rs `do_peer_connection` and `main` (498-584); not the printed status lines; sending the handshake succeeds |
| DemoModel.v | bin/threads.rs, bin/manual_futures.rs, bin/select_test.rs, bin/udptest.rs (binding sockets succeeds; of the executor only that a joined task polls both futures; `select` of the futures library may poll either side first) |
| X509PrintModel.v | crypto/x509.rs 120-130, 340-343, 383-387, 495-557; formats/asn1/value.rs `type_str`, `as_string`; bin/x509.rs the subcommand print |
| NamesModel.v | tls/types/alert.rs 162-195, handshake.rs 31-47, record.rs 69-80; util/binary.rs 31-56; formats/asn1/value.rs 122-254; ipfs/types/cid.rs 96-123; ipfs/fs.rs 54-73; formats/protobuf/varint.rs 72-76 (error texts of other libraries are parameters) |
| CheckProgModel.v | bin/test_detrand.rs, bin/tls_test.rs (standard error is left out; generating keys succeeds), bytes_from_str, make_initial and make_initial1 of bin/quic_test.rs (the packet text constant and the Debug text of the handshake are parameters) |
| TlsWakeModel.v | the wake-ups (wake_by_ref, and the waker kept by the transport) of tls/protocol/stream.rs and client.rs, on top of TlsRecordModel.v and TlsClientModel.v |
| DebugModel.v | Debug of tls/types/extension.rs and the derived or written Debug of tls/types/handshake.rs; the layout of {:?} and {:#?} of core::fmt (structs, tuples, lists); the lossy reading of names is a parameter |
| IpfsTextModel.v | Debug of ipfs/types/cid.rs 80-95 and 138-150, ipfs/dagpb.rs 14-20 and 79-85, ipfs/unixfs.rs 52-65, ipfs/bitswap/message.rs, libp2p/identify.rs, libp2p/multiaddr.rs 207-212, libp2p/peer_id.rs 33-40, util/util.rs 20-45, and of the errors of formats/protobuf/protobuf.rs (Debug of a string and of an IPv6 address are parameters) |
| BitswapLogModel.v | the printing of ipfs/bitswap/handler.rs 58-155 and the println! calls of ipfs/bitswap/message.rs 40-98, 119-145, 162-191, 242-271, beside the results of BitswapModel.v |
| MplexLogModel.v | the log of libp2p/mplex/frame.rs 272-297 and its calls in 146-264, on top of the frame stream model |
| TorrentTextModel.v | bittorrent/torrent.rs 8-63 and 102-193 with the errors' paths and texts; formats/bencoding/mod.rs 5-36, 56-66, 88-96, 118-160 with paths and texts |
| SecureMplexModel.v | tls/error.rs 42-50 and the use of a TLS connection as the transport of mplex in bin/ipfs.rs 204-224 (tls/protocol/client.rs 1026-1099 as answers for libp2p/mplex/frame.rs 184-224) |
| SimLogModel.v | sim/simulation.rs 43-60 and the traces of sim/network.rs and bin/netsim.rs 45-50, 80-187, 225-253, beside the results of SimModel.v |
| X509ErrorModel.v | src/crypto/x509.rs 51-83 (`ParseError` and its text) and 92-493 (the `from_asn1` functions) with the byte ranges of the errors of src/formats/asn1/value.rs 122-189; X509ErrorProps.v proves agreement with X509Model.v, which has no ranges |
| DownloadLogModel.v | bin/download.rs: every `print!`, `println!` and `eprintln!` (80-141, 165, 174-177, 237-287, 366-402, 423, 498-584) and the derived `Debug` of `Message` (191), as steps with output beside DownloadModel.v and DownloadMainModel.v |
| RelayLogModel.v | what proxy.rs, server.rs, sock.rs and iotest.rs print (`proxy_loop` 58-94, `main` 96-143; server.rs 44-106; sock.rs 17-106; iotest.rs 56, 75-133), `ServerMode::from_str` and `Display`, the printed options; the texts of I/O errors and addresses are arbitrary |
| NodeLogModel.v | what bin/ipfs.rs prints (75-343) and the lines of ipfs/identify.rs 60-73, beside the results of LpioModel.v, HandlerModel.v and IpfsMainModel.v; bin/quinntest.rs 60-76 and 159-262, with the QUIC connection of the library as a parameter |
| IdModel.v | util/id.rs 5-45, with `Arc` as an address and a counter and the allocator as any choice of an address not in use |
| TlsBlameModel.v | src/tls/error.rs 8-65 (TLSError with Debug, Display, Error, From/Into io::Error), src/crypto/error.rs 4-24 (names), src/tls/protocol/client_state.rs 21-32 and 65-174, client.rs 375-449, 571-612, 792-845, 967-1050 with the names inside UnexpectedMessage (TlsClientModel.v leaves them out), types/alert.rs Debug. Kinds of io errors and the reason of ring are parameters. |
| MplexLifeModel.v | src/libp2p/mplex/stream.rs 286-333, 340-358, 369-380, 393-414, 449-455, 504-534: the handles of a program (Accept, Connect, Stream, StreamReader, StreamWriter with Drop) over the shared state of MplexModel.v. The sending half is one arbitrary step (see C76); a Connect never polled is left out (it does nothing). |
| PeerLogModel.v | torrent_client.rs 469-491, 619-753, 755-892, 904-950 (what is printed about a peer, on top of PeerModel.v), protocol.rs 88-104; printing is taken to succeed |

Not modelled: 

* printing and `Debug` code other than the parts named above
* bin/*: the parts of programs not named above (the key set-up of bin/quinntest.rs, the client sides of iotest and sock, and argument parsing by clap are input/output glue)
* the crates used: tokio, ring, sha1, sha2, blake2, num-bigint, rand, chrono, clap (their functions are parameters or, for the asynchronous runtime, an arbitrary order of polls)
