# Formal model of pydecnet in Rocq

This directory holds a machine-checked model of parts of `pkoning2/pydecnet`
(source in `/repo`, read as text only) and proofs of the properties listed in
`properties.jsonl`.  `MANIFEST.json` maps each property to its theorems.

## Method

* Shallow embedding: each modelled Python function becomes a total Gallina
  function that mirrors its branches.  Python integers are `Z`; byte strings
  are `list Z` with an explicit `bytes_ok` predicate (every element 0..255)
  where it matters; a raised exception is a value (`Err e`), never a default.
* Stateful code becomes a record plus step functions; histories are lists of
  operations; theorems quantify over all lists of operations.
* `theories/<Topic>Model.v` contains definitions only, each citing the lines it
  models.  `<Topic>Proofs.v` contains lemmas.  `<Topic>Props.v` contains the
  specification predicates (written independently of the model helpers), the
  property theorems, their non-vacuity examples and `Print Assumptions`.
* Where the code does not have the property, the theorem is named
  `..._refuted` and gives a concrete witness computed by the model; a
  companion theorem states what does hold (`..._partial` when weaker than the
  property).

## Trusted base

* Coq 8.16.1 kernel (including its `vm_compute` reduction).
* Axioms: none.  `Print Assumptions` stands below every property theorem and
  answers "Closed under the global context" for each of them.  (`coqchk -o`
  also lists the seven `Coq.ssr.ssrunder.Under_rel` constants: they come with
  the standard library's plugin files, are parameters of a module type that the
  library itself seals, and no theorem here depends on them.)
* That the Gallina definitions are faithful to the cited Python lines: this is
  by reading; nothing is extracted or executed.
* Python semantics assumed: unbounded ints, floor `//` and `%`, slicing that
  clips, dicts that preserve insertion order, exceptions that unwind.
* Not modelled anywhere: wall-clock time, sockets and OS calls, threads except
  where a section says otherwise, logging, HTML/JSON reporting, memory limits.

## Plan per property

| id | what is modelled | how it is proved |
|----|------------------|------------------|
| C01,C02 | `Mod` constructor, add, sub, comparisons, as functions on Z and the modulus | arithmetic (div/mod) for every modulus; spec = existence of an unwrapped distance |
| C03 | timer wheel: slots, position, start/stop/tick as atomic steps | invariant relating slot index to an absolute deadline, induction over histories |
| C04 | revcount and work queue, with the timer thread interleaved with the node thread | invariant over all interleavings |
| C05 | Cque at pointer level (next/prev maps) | refinement: pointer operations implement list insertion/removal |
| C06,C07 | deep embedding of packet layouts and the generic encode/decode engine | structural induction over layouts |
| C08 | EX encode/decode | strong induction on the integer |
| C09 | counters in packet.py and nice_coding.py | case analysis on overflow |
| C10,C11 | `_reverse`, `_maketable`, the four update loops, `good` | linearity over GF(2); table = 8 bit-serial steps; burst detection by invertibility of the step |
| C12,C13 | Bridge.dispatch, AddrDb.learn, entry timeout | invariant over histories against a "last heard" spec |
| C14 | Nodeid construction/printing, Macaddr(Nodeid) | decimal parse/print lemmas, arithmetic |
| C15 | Backoff | induction over next/reset histories |
| C16,C17 | DDCMP running-state sender and receiver plus FIFO lossy link | invariants with unwrapped (unbounded) sequence numbers, refinement of mod-256 arithmetic |
| C18 | Telnet escape/unescape | list induction |
| C19 | DDCMP header scanner and CRC checks | induction over the stream |
| C20,C21 | doroute, adj_up, adj_down, routemsg, check | min-fold lemma; invariant over histories |
| C22 | forward() per hop | measure argument over any path |
| C23,C24 | buildupdates, segment codec, checksum | list lemmas; end-around-carry sum = sum mod 65535 |
| C25 | synchronous rounds of doroute/update over an arbitrary graph | Bellman-Ford argument by induction on rounds |
| C26-C28 | LAN router adjacency table, hello processing, calcdr | invariants over histories |
| C29 | PtpCircuit state machine | security invariant over histories |
| C30 | PtpDatalink report_up/report_down and states | trace invariant |
| C31 | init_id/get_id/ret_id | deque invariant |
| C32-C36 | NSP subchannel receive, transmit queue, flow control, segmentation | invariants with unwrapped sequence numbers, end-to-end with an adversarial network |
| C37 | NSP connection state machine and dispatch tables | invariants over histories |
| C38 | nsp_packets headers | instances of the packet engine plus AckNum lemmas |
| C39-C41 | session connect codec, dispatch authentication, object registry | round trip; case analysis; invariant |
| C42-C45 | Ethernet, Multinet, GRE framing | round trip / stream lemmas, refutations |
| C46-C48 | MOP receipts, request table, carrier protocol, loop | invariants; alternating-bit argument / refutation |
| C49,C50 | EventQueue, parse_events, EventFilter | invariants; list denotation |
| C51 | NICE value coding | round trips |
| C52 | i3dict | map lemmas |
| C53 | FullIntercept connection database | invariant |
| C54 | DapBase.decode header lengths | list lemmas |
| C55 | session control's delivery of connection items to applications | the owner of a connection is read off the history; invariant |
| C56 | NSP acknowledgments, by the log of one connection | flags ackpending/holdoff against the log; invariant over primitive steps and over events |
| C57 | the life of a connection, as calls, exceptions and items for Session Control | an automaton of nine stages written without the model's states; `story` collects the conversation; invariant stage/state/shutdown flag |
| C58 | disconnect and waiting | the queued Disconnect Initiate as an invariant of the DI state, with the reason of the last call; the number of timer expirations to the end |
| C59 | the LAN circuit of an endnode with its routing layer, with a clock | what was heard when is read off the history; invariant tying cache entries, timers and the router to it |
| C60 | names from file specification to the files matched, normpath and glob as relations | walk of the components as independent specification; invariant of the stripping loop |
| C61 | the client's queues, handles and exchanges under any interleaving | what was for whom is read off the history of lines and calls; invariant |
| C62 | the console server with its reservation and a clock, packets of any stations | the user is read off the history (password, release, silence); invariant; invariance under shifts of the clock |
| C63 | the listener as a step function over decoded requests and what happens on its mirror connections; the mirror | a small client parses the replies; the events of a loop are split into what a mirror does and the first that is not |
| C64 | routers of RoutingModel joined by links carrying the messages of both levels, lossy; packets forwarded by ForwardModel's `forward` from router to router | least-cost paths over the links (area_path, node_path), `trip` as an inductive description of a packet getting there; limits only in terms of path costs and hops |
| C65 | endless runs of C16's two stations and queues (`drun`), fairness `dfair`: timeouts while waiting, and kinds of messages that are sent again and again get through | prefixes of what was given to send and of what was delivered; a run with losses and damage that satisfies the assumptions |
| C66 | DdcmpModel's `step` with the timer operations of each function added, seconds going by | `waits` says from the protocol variables alone whether an answer is missing; messages sent |
| C67 | HostModel: HostAddress as a record, its uses and the resolver's answers as events | `usable`, `last_good` over the list of answers; `asks` is an entry put in the resolver's queue |
| C68 | ApiModel: ApiHandler's loop and Node.api over JSON values; decoder and layers are functions | requests and replies as functions of their keys (`at_`, `reply_is`, `args_of`), lines as `text` |
| C69 | ConfModel: checkdict, the collections, scanconfig with indirect files, Config; the argument parser is a function, files are lists of lines | the commands of a file as a relation (`expands`), contradiction as `consistent` over pairs of entries, content as `latest` |
| C70 | NodeDbModel: the two dictionaries of Node with object identities, nodeinfo, loop nodes, the destination of a connection | addresses as digit strings (`address`), names up to case (`named`), `home` for the address an entry is for |
| C71 | PmrModel: the destination expression as a backtracking matcher, requests, replies, the relay process | `destination` and `object_part` say which strings are destinations and what their parts are; `legs` and `answers` follow a connection through the relays |
| C72 | DapMsgModel: the field kinds, conditional and defaulted fields of DAP messages, and every message layout | `told` says, row by row, what a message with some trailing fields left out says; independent of how fields are encoded |
| C73 | ShowModel: what NSP, the circuits and routing enter into the replies about nodes, their order, and areas | `by_nsp`/`by_routing` say who is to be listed in terms of database, connections, neighbours and tables; no reference to the records |
| C74 | UpdateModel: the flags, the holdoff and the periodic timer of Update, on top of buildupdates (RouteMsgModel) | runs are lists of changes and expirations with their times; `timely` says when the timer may fire, `shows` when a destination is in an update |
| C75 | HelloModel: the hello timer with its holdoff, and the listen timer of an adjacency | `paced` says at most G between messages, `carried`/`lossy` what the circuit does to them, `rtimely` when the listen timer may fire; `hello_keeps` is about sender, circuit and receiver together |
| C76 | NspTimeModel: update_delay, acktimeout and txqentry in time | rational arithmetic; `estimates` is the history of measurements, `xtimely` when the timer may fire, `spaced` the least distance of sendings; bounds are stated in the configuration's numbers |
| C77 | HttpModel: urlparse, parse_qs, realpath, findnode, do_GET, the first level of http_get | `normal` names, `walk` from any directory as the kernel resolves a path, `url_of`/`q_system` as the URLs a user types, `named`; soundness is stated in the text of the target |
| C78 | MapScanModel: the mapper's scan and the up/down times of map items | `order` allows any order of the sets, `during` any run until the scan is over; polls are counted in a history variable, `watch`/`rising` are observations in time |
| C79 | PollModel: the poll of one node | `fair` says what the session layer and timers can deliver, `framed` and `framed2` what a complete answer is; requests and reports are history variables |
| C80 | MapDbModel: the mapper's database, its file and the answer of the database server | `reach` is all histories, `lookup` the node of an address; `entry_of`/`lines` state what a record says; `saves` is any sequence of saves stopped anywhere |
| C81 | TopolModel: names and reply of the topology server | `client` and `items` are a client written from doc/protocols/topol.txt |
| C82 | P2RouteModel: sending on a Phase II node | `is_up` is the adjacencies up by the history, `separate` says that neighbours have one circuit each |
| C83 | LsnModel: the talk server as what it does for a connect message and what follows | `phase1`/`phase2` build connect data, `dialog` and `line` say what is to be shown; opening and writing are a list of actions |
| C84 | EvtMsgModel: header layout, time, source and entity of an event message | `header` is the wire format in numbers; the time is compared with the microseconds since 1977 |
| C85 | LogModel: the memory handler as a step function, the dump as lines of characters | `sub`, `lastn` and `important` say what is to be written; `read_line` reads a dump by its columns |
| C86 | MapColorModel: colours from healths, adding adjacencies to a path, whether it is drawn | `tells` says what a colour means by counts, `best` and `between` which adjacency counts |
| C87 | MirrorModel: the three stand-alone mirrors as what they ask for and how they end | `echo` relates data to its answer, `due` items to requests; the module of C63 for comparison |
| C88 | HtmlModel: the elements of a page as a tree and the text of it | a reader of tags (`rstep`) that keeps the open elements, `nests`; `boxed` and `rowed` for the text of a table |

## What is modelled, and what is not

Root of the line numbers: `/repo/pydecnet/decnet/`.  Every definition in a
`*Model.v` file cites the lines it stands for.

| files | code | left out |
|-------|------|----------|
| Modulo* | modulo.py | mixed operand types beyond int and Mod |
| Timers* | timers.py: Cque, TimerWheel, Timer, CallbackTimer, Timeout | the length of a tick; thread scheduling is any interleaving |
| Packet* | packet.py: the engine, all field types | metaclass processing of layouts, `check` hooks, type conversion by `checktype` |
| Crc* | crc.py | — |
| Bridge* | bridge.py: dispatch, address table | the datalinks under it |
| Addr* | common.py: Nodeid, NiceNode, Macaddr, Backoff | host name lookup |
| DdcmpFrame* | ddcmp.py 134-318, 462-525, 941-1306: messages, CRC framing, serial, TCP, Telnet and UDP receivers | sockets, the hardware framer |
| Ddcmp*, DdcmpLive*, DdcmpTimer* | ddcmp.py 386-860: the state machine, two stations over lossy links, endless runs, the timer with its backoffs | the jitter of the timer; maintenance mode contents |
| Routing*, Dv*, Area* | routing.py: decision process, level 1 and 2; networks of level 1 routers; networks of several areas (Area*) with forwarding | adjacencies changing while the tables settle |
| Forward* | routing.py: findoadj, send, forward | loop nodes, counters |
| RouteMsg* | routing_packets.py 238-470, routing.py 1547-1704 | big endian hosts |
| Update* | routing.py 1547-1632: when updates are sent and with what; time in milliseconds | the neighbour's type and the tables are inputs of each event; the wheel is represented by when it can fire (TimersModel.v has the wheel itself) |
| Hello* | route_eth.py 491-517, 712-737, 318-336, route_ptp.py 919-962 and adjacency.py 32-36, 84-107: when hellos are sent, when a neighbour is dropped; time in milliseconds | contents of the messages (LanCirc*, Ptp*); int (t * 3.1) is t * 31 / 10 (3.1 and 2.1 as floats are slightly larger, so the integer parts agree) |
| NspTime* | nsp.py 538-616, 1332-1357, 762-771: how long a message waits | floats are rationals without rounding; flow control is an input of the events (NspModel.v has it); other connections to the node are events that change the estimate |
| Http* | http.py 121-220, node.py 362-415 and what they use of urllib.parse and os.path | the pages and the map are not modelled; realpath is a parameter (containment holds for any result without . and ..), lexical without symbolic links where the result matters; a symbolic link below the resource directory is followed by open and not covered; Python versions that fold leading slashes are the same function on another target; percent-encoded bytes above 127 become the replacement character |
| MapScan* | mapper.py 535-577, 1235-1486 | the poll of one node (NodePoller) is only its report; entries replaced because another node took the name (addnode) are not modelled; a report in the state s0 does nothing here; locations, map image, JSON file and the database update are not modelled |
| Poll* | mapper.py 803-1174 | the decoding of replies is an input (what a message is as the class expected); type, identification, name and adjacency entries that a poll writes are not modelled, except that the node is marked as up; connect raising UnknownNode (834 names an undefined nodeid) is not modelled |
| MapDb* | mapper.py 536-537, 610-618, 676-771, 1488-1498, 1634-1730 | names, places, owners and coordinates are opaque; the JSON text is one value that is whole or cut off; a rename is atomic and ordered after the write; the connection to the server, its time and the `time` attribute are left out; type and identification that polls write are left out |
| Topol* | modules/topol.py | capital letters of ASCII only; what are active nodes is an input (Show*); the connection is not modelled |
| P2Route* | routing.py 106-130, 354-355, 415-422, 733-784 | what the circuit does with the packet (Intercept*); counters |
| Lsn* | applications/lsn.py, connectors.py 88-118 | which terminals can be opened is an input; the name of the device and errors of os.write are left out; non-ASCII node names only as an exception |
| Html* | html.py cell, trow, thdr, drow, table, dtable, detailrow, detail_table, lines, div, section, detail_section, textsection, doc | makelink, buttons, page_title, the mobile and map pages; rows that are given as strings; valign |
| Mirror* | applications/mirror.py, mirror2.py, mirror3.py; connectors.py 88-118, async_connectors.py 47-80 | JSON and latin-1 text, logging, the tasks of asyncio (the items of a connection come in order); closing mirror3's connector |
| EvtMsg* | events.py 24-205, nice_coding.py 49-102, modules/evl.py 35-44 | class and code are fields instead of constants of Python classes; the data after the entity stay bytes (Nice*); text except the time |
| Log* | logging.py 116-204 (DnMemoryHandler, dump_packet) | a handler with a target; the target, locks and formatting are Python's; which characters are printable is an input; the lines of a dump are not joined |
| MapColor* | mapper.py 327-342, 399-406, 438-468, 502-517 | of nodes and adjacencies only the health; coordinates and text are left out |
| Lan* | ethernet.py, gre.py, the ports of datalink.py | pcap, tap, bridge sockets |
| LanCirc* | route_eth.py RoutingLanCircuit, adjacency.py | time values |
| EndCirc* | route_eth.py EndnodeLanCircuit and NiCacheEntry, routing.py EndnodeRouting, adjacency.py, with time in seconds | padding and decoding of frames, counters |
| Fal* | applications/fal.py applyroot and the file choice of `files`; posixpath.normpath; what glob.glob can return | symbolic links, attributes and content messages, striproot |
| Conn* | async_connectors.py AsyncConnection, AsyncConnector; connectors.py Connection, parse | JSON, end of file, logging |
| Ptp* | route_ptp.py PtpCircuit | time values, events, block sizes |
| Multinet* | multinet.py, datalink.py PtpDatalink | socket connect/listen details |
| Nsp* | nsp.py (connections, subchannels, tables), nsp_packets.py | time values and the delay estimate, counters, loop nodes |
| Sess* | session.py: connect codec, registry, dispatch, connectors | direct calls of modules on their connection; PAM itself |
| Mop*, Carrier*, Cons* | mop.py: receipts, requests, loop, console carrier: data phase, and the server's reservation with time in seconds | system id contents except the reservation, time values of the other parts, the login process |
| Event* | event_logger.py: filters, queue, remote sink | text formatting of events |
| Nice* | nice_coding.py | the tables of nicepackets.py, display strings |
| Nml* | modules/nml.py Application, modules/mirror.py | decoding of requests, what the layers show (both are inputs), the bytes of replies |
| I3* | i3dict.py | — |
| Host* | host.py HostAddress, SourceAddress's check, NameResolver.dolookup | sockets, finding the local addresses, lookups running while the circuit reads |
| Api* | apiserver.py ApiHandler, node.py api, register_api, get_api of loop nodes | JSON text, short sends, end_api, stopping |
| Conf* | config.py checkdict, Circuits, Loggers, Nodes, Objects, Config | argparse itself and the checks of single arguments, shlex, ports |
| NodeDb* | node.py Nodeinfo, LoopNode, nodeinfo and the building of the database; nsp.py's choice of a destination | counters and delay inside an entry |
| Pmr* | connectors.py _pmr_re, checkpmr, parsepmrresponse; async_connectors.py connect, recv (usepmr); applications/pmr.py route, forward | letters and digits beyond ASCII, failing sends, the text of failure replies, hop counts that do not fit a byte, connect data |
| Intercept* | intercept.py and its use in route_ptp.py | choice of the intercept type |
| Dap* | dap_packets.py 32-1246, dap.py 21-169: blocking and splitting (DapModel), fields and layouts of the messages (DapMsgModel) | the conversions between field values and other objects (dates, file names, protections); the state machines of dap.py and fal.py |
| Show* | node.py 444-502, nsp.py 450-536, routing.py 509-616, 1303-1322, 1503-1545, route_eth.py 168-189, route_ptp.py 1008-1031, nicepackets.py 316-374, 945-948: which nodes and areas are shown and what is said of them | counters and most characteristics; entries that asking adds to the node database; asking for a loop node by name; circuits and lines as entities |

Not modelled at all: the command line (main.py), the pages of the web server
(html.py), the socket handling of apiserver.py, the text and coordinates of the map of the
mapper, the connection of the module evl, the data tables of nicepackets.py, the
applications except fal.py, pmr.py and lsn.py, pcap.

Exceptions that no code in the modelled layer catches end the node's main loop
(node.py 299-329) or the API client's handler; in the models these are `Err`
results, and each model says which are reachable.

## Assumptions that occur in several theorems

* Configured values are within the limits config.py enforces (cost 1..25, qmax,
  maxhops 1..30, maxcost 1..1022, maxvisits 1..63, maxnodes 1..1023, ...).
* Received buffers are byte strings (`bytes_ok`).
* A timer that runs may expire at any moment, one that does not run cannot;
  Timers* prove that discipline for timers.py itself.
* C33: the network may lose, duplicate, delay and reorder, but a packet is not
  delayed by more than half the sequence number space (unavoidable with 12 bit
  numbers).
* C16: links are FIFO and lossy; between two start-ups.
* C47: links are FIFO and lossy; from the first poll on.
* C41, C55: `fits` restricts histories to what the environment can produce:
  applications that exist, requests before their connector is gone, names in
  upper case, bytes from the network, configured objects of the kinds the
  configuration offers.

## Findings

Each item is something the code does that a user would not expect.  Items with
a theorem name have a machine-checked witness in the model; the others were
found while reading and are recorded here only.

### Timers, arithmetic, packets
* Negative timeouts are accepted and expire late (timer_negative_refuted).
* EX.encode of a negative number does not end (ex_negative_refuted); I.encode
  of more than 255 bytes raises ValueError; an uncounted LIST of elements of
  length zero does not end (packet_decode_safe_refuted); overlapping BM fields
  are not rejected; unknown TLV fields are decoded but not encoded again.
* CRC: update_bits on a longer buffer, `__bytes__` of forward CRCs of odd width
  (crc_update_bits_refuted, crc_bytes_refuted).
* Nodeid accepts "0.5", a trailing newline and bare numbers up to 65535;
  negative parts are not rejected (nodeid_*_refuted).
* Bridge: a group address heard as a source is no longer flooded
  (bridge_multicast_refuted).

### Datalinks
* DDCMP: restart with a stale STACK in flight breaks in-order delivery
  (ddcmp_restart_refuted); a UDP datagram of fill bytes is reported as a header
  error (ddcmp_udp_fill_refuted); out of sequence data are not acknowledged;
  handle_reconnect and _FramerDDCMP.handle_stop return None, so the state
  change is lost; the start acknowledging state ignores a received STRT; each
  data message received restarts (and backs off) the reply timer even if it
  acknowledges nothing, so that a lost message is neither asked about nor sent
  again while the other side keeps sending, for instance hellos after a burst of
  five messages (timer_put_off, reply_timer_refuted); the
  maintenance state is entered with the bare packet as its argument.
* Ethernet: a runt raises IndexError (eth_runt_refuted), SAP ports cannot be
  made (eth_sap_refuted); remove_proto and remove_sap use missing attributes.
* Multinet: a short socket send loses framing (tcp_short_send_refuted), an
  expired timer of an earlier connection acts on the current one
  (stale_timer_refuted), long UDP packets (udp_long_refuted).
* Host names: an address that only an earlier lookup had is still accepted as a
  sender (host_accepts_last_refuted), because ipaddrset is never emptied.  DDCMP
  over UDP does not check the sender of a datagram at all (read by hand).
* GRE: frames cut by one or two bytes are delivered (gre_truncated_refuted).

### Routing
* Decision: a cheaper path over the hop limit hides one within it; ties go by
  column order; the other `_refuted` theorems of RoutingProps: own entry before
  the first decision, endnodes out of range, routing messages from endnodes,
  areas above the limit, two endnodes on one link.  The error path of the level
  2 check names an undefined attribute; the partial update event test is never
  false; adj_up's test for duplicate endnodes reads ri.oadj; Update.setsrm uses
  `endtid or tid`; startpos is taken modulo the number of packets.
* Messages: checksum does not cover the header (routing_checksum_header_refuted)
  and a change of format can pass (routing_checksum_refuted); truncated segments
  are accepted; no flagged entry crashes buildupdates (updates_none_refuted);
  decode2 names an undefined `cls`; PhaseIIIRouting.encode assigns `seg` for
  `segs` on big endian hosts; testdata_re accepts a trailing newline.
* Forwarding: with a visit limit of 63 an aged packet cannot be returned
  (forward_aged_return_refuted); level 2 destinations beyond maxarea are
  unreachable.
* LAN circuits: the `_refuted` theorems of LanCircProps; hellos are not checked
  against maxnodes, maxarea, the MAC source or the own address; routing messages
  from endnode adjacencies are accepted; adj_down deletes from
  routing.adjacencies by node address whatever the circuit.
* Point to point circuits: the five `_refuted` theorems of PtpProps.
* Intercept: the `_refuted` theorems of InterceptProps.  `nodeinfo_byid` is set
  only in BaseIntercept.start, which nobody calls; the configuration value
  `intercept == 1` is tested inside the branch for None.

* Endnode on a LAN: EndnodeLanCircuit.send returns None instead of True when the
  destination is in the cache, so EndnodeRouting.send takes the packet for
  unsent: a connect request to a node heard within the last minute is sent and
  also returned to NSP, which reports the node as unreachable
  (endnode_return_refuted).  Dropping a cache entry leaves its timer running,
  which later removes the next entry early (endnode_cache_refuted).  Later
  hellos of the router do not change its listen time (endnode_listen_refuted).
  The argument tryhard, meant for retransmissions, is passed by nobody.  When
  the router times out, its adjacency is taken down twice.

### NSP
* A sequence number 2048 away raises TypeError (nsp_window_refuted); the table
  of remote addresses can be filled by a third node (nsp_remote_table_refuted,
  nsp_early_peer_refuted); a CI with source address 0 leaves a stale entry.
* An acknowledgment of data on the other subchannel neither unblocks sending nor
  completes a shutdown; an acknowledgment of any number on the other subchannel
  removes a first Link Service entry; a CC at the head of the data queue
  swallows a data acknowledgment; NAK is treated as ACK; retransmissions carry
  the acknowledgment fields of the first transmission.
* A retransmitted CI moves a connection in the CC state to RUN early; the
  connection timer in that state sends a keepalive; a keepalive consumes
  interrupt credit; a failed outbound connect (unknown node) leaks an
  identifier; closing a link also removes (own node, link address) from the
  remote table.
* Values from the other end: segment size 0 raises ValueError, flow control
  option 3 never sends, message flow control compares messages with segments.
* reject or disconnect with an illegal reason raises RangeError after the state
  was changed: the connection stays in DI without a message, a timer or an
  allowed call (nsp_bad_reason_refuted).  A pending disconnect is forgotten when
  the last acknowledgment arrives on the other subchannel
  (nsp_cross_ack_disconnect_refuted).
* The application: disconnect with a bad reason or with more than 16 bytes of
  data, while data are pending, fails inside dispatch and stops the node;
  zero length send_data sends nothing.
* An empty NSP packet raises AttributeError and stops the node
  (empty_packet_refuted gives the decoder's half).

### Session control and applications
* sess_alias_refuted, sess_twice_refuted, sess_orphan_refuted,
  sci_empty_name_refuted.
* A process that dies while an item for it is being written is cleaned up twice;
  the second time raises KeyError and stops the node.
* `accept` or `disconnect` on a listener's handle raises and aborts all of that
  application's connections, as does an unknown handle or a wrong argument;
  there is no way to give up one object.
* A module that disconnects and then raises: KeyError, the node stops.
* Clean-up cannot abort connections in the CI or CC state; they stay in NSP.
* Redefining an object number in the configuration leaves the old name's entry;
  user id 0 counts as "no user"; a request without "type" from a process raises
  UnboundLocalError; extra data in a connect message are only logged.
* DAP: stream id or bit count defeat the splitting of blocked messages
  (dap_stream_id_refuted); a truncated message is an AssertionError
  (dap_truncated_refuted); a blocked buffer may exceed the agreed size by two
  (dap_bufsiz_refuted); decode errors reach the application; Attributes uses the
  name fb_spl in two bitmaps, Configuration's `bitcnt` clashes with the header;
  fal.py doget uses an undefined `status`.
* FAL: `;*` and `*.*` are trimmed after the root was applied, so "/..;*" lists the
  directory that holds the root (fal_escape_refuted); nothing further out
  (fal_one_level).
* The asyncio API client: a message that crosses a local disconnect raises
  SequenceError in the receiver task and shuts down every connection
  (conn_crossing_refuted), as does the answer to a cancelled request, because
  CancelledError is no Exception since Python 3.8 (conn_cancel_refuted);
  AsyncConnector.recv calls its queue instead of reading it; pmr.py calls the
  coroutine `accept` without await, so it never accepts.

* API server: a request that is the JSON string "bad" repeats the reply before
  (api_bad_refuted), or ends the connection if it is the first; a bridge with
  small letters in its name cannot be addressed (api_bridge_refuted); once there
  is a loop node, "get" of the node database is a NameError and ends the
  connection (api_open); an empty line ends it, too.

### MOP
* MopCircuit.request's parameter `receipt` hides the generator, so counter
  requests and all console client requests crash (mop_counters_refuted); a
  multi packet loop outlives its client (mop_end_api_refuted); a refused loop
  start leaves the connection listed; each loop start consumes two receipts.
* Loop messages: a truncated one stops the node (loop_crash_refuted), replies may
  carry padding (loop_padding_refuted); the limit told to the user, 1482, is 4
  less than the real one.
* Carrier: repeated responses are delivered again (carrier_output_refuted), a
  failed terminal write counts as written (carrier_input_refuted), start
  (carrier_start_refuted).  A failed forkpty leaves the console reserved for
  ever, and the next command of that station stops the node
  (cons_fork_refuted); it also writes to file 0.  If login cannot be executed,
  the child process goes on as a second copy of the node (`sys._exit` does not
  exist, and the exception is caught); not modelled.
* The handles of console connections are not checked against the API client
  that uses them; not modelled.
* TIME.encode names an undefined `tm`; C.encode ignores its maximum length.

### Network management
* NICE coding: nested coded multiples raise TypeError; coded multiples of no or
  of 32 and more items cannot be decoded; parameter numbers are masked with
  0x8fff (nice_*_refuted); Map.__iadd__ shares and drops tables; line_counters
  has a misplaced parenthesis; CMNode overrides the entries 0xc1 and 0xc2.
* Events: a sink limit of 0 (event_queue_zero_refuted); an event without entity
  never matches a filter for "no entity"; setfilter changes the caller's set;
  EventFilter.format is disabled; an event whose encoding fails is lost;
  KNOWN_EVENTS has all 32 codes of a class.  From 2066 on (65536 half days after 1977)
  encoding an event is an OverflowError (C84, evt_limit).
* Configuration: a second line for an element of which there is one (routing,
  nsp, ...) replaces the first without a word (conf_repeat_refuted); a file name
  with a blank is only understood after a prefix (conf_blank_refuted); a file
  that names itself is read until the stack overflows (conf_cycle); a line with
  an open quote or a file that cannot be opened is an exception, not a message.
* Node database: "node 5 B" and "node 1.5 C" in area 1 are not noticed to be one
  node, and make two entries (ndb_twice_refuted); a node number without area is
  put in the executor's area in the configuration but not in a connect
  (ndb_short_refuted); a loop node hides a node of its name, and may have a name
  that cannot be used (ndb_shadow_refuted).
* Listener: a Phase II read that finds nothing is an AttributeError
  (nml_phase2_refuted); a second loop request makes the first one stay
  unanswered, and what its mirror returns is taken for requests
  (nml_overlap_refuted); a circuit loop to an unknown node name is a KeyError
  (nml_loop_noname_refuted); an empty message from the mirror is an IndexError
  (nml_empty_refuted), as it is in the mirror (mirror_empty_refuted); data of
  length 65535 is accepted but cannot be sent (nml_mirror).  Each exception
  aborts the management connection.
* Read by hand, not modelled: a request of one byte 20 is an IndexError;
  `show known areas` leaves out area maxarea; routing.read_node does not check
  node and area numbers against the limits (IndexError); route_ptp.nice_read
  with an adjacent node uses `r` before it is set; NodeReplyDict.sorted puts
  loop nodes after the executor, not last; P2LineEntity.decode names an
  undefined `ret`.
* Poor man's routing: the relay never accepts (`pmr_accept_refuted`), so a
  client that waits for the accept gets nowhere (`pmr_stuck_refuted`); a
  request without object names the task None (`pmr_none_refuted`); a task name
  with a blank is not understood by the relay (`pmr_blank_refuted`); one in
  quotes keeps the closing quote (`pmr_quote_refuted`); a reject by the last
  object becomes a reject of the relay's own connection
  (`pmr_reject_refuted`).  An abort is passed on as a disconnect; the hop
  count is never limited.
* dap_packets.py: the file options and the device characteristics of an
  Attrib message both have a bit named `fb_spl` (20 and 9).  One attribute
  holds both: the second decoded wins, and the same value is sent in both
  (`dap_spool_refuted`).  Config likewise has `bitcnt` both in the header
  and in SYSCAP.
* dap_packets.py: the password field of an Access message is commented out of
  the layout.  A client that sends one leaves data after the last field, which
  DapBase.decode prints on standard output (`dap_password_refuted`,
  `dap_extra`).  In the FAL process standard output is the pipe of JSON
  replies to session control, whose reader thread then fails on the line.
* dap_packets.py Prot.rstsprot uses an attribute `o_exec` that no layout has
  (it is `o_noexec`): AttributeError whenever owner, group and world
  protections were sent.
* Asking for one node of the own area above the highest number, or (on a level 2
  router) of an area above the highest, is an IndexError, and asking for any node
  on a Phase II node an AttributeError; the exception ends every management
  connection (`show_range_refuted`).
* The highest area is never among the known areas: range (1, maxarea)
  (`show_maxarea_refuted`).
* All loop nodes have address 0 and share one record, so at most one is listed
  (`show_loop_refuted`); a circuit named with "known nodes" leaves all nodes of
  the database in the list (`show_circuit_refuted`).
* Not a theorem: showing nodes enters the nodes shown into the node database;
  a name in a request is not folded to upper case.
* Routing updates: after a partial update the timer is set to the time since the
  last complete update, at most T1, and not to what is left of T1 (routing.py
  1623-1626).  If something changes a little more often than every T1, complete
  updates are never sent (`update_starved_refuted`); after a change soon after a
  complete update the next complete one comes after the same short time again
  (`update_early_refuted`).
* RoutingLanCircuit.newhello holds a hello off by starting the timer with the
  time since the last hello instead of what is left of T2: hellos can be 60 ms
  apart, and a change 0.99 s after a hello waits another 0.9 s
  (`hello_spacing_refuted`; `hello_prompt` holds all the same).
* A neighbour that tells a hello timer of 1162 s or more on a LAN, or 1715 s point
  to point, makes the start of the listen timer raise OverflowError, which ends the
  node's main loop (`hello_overflow_refuted`; the field has 16 bits).
* A Phase III neighbour tells no timer and is judged by the own T3, so it is dropped
  between two hellos if its timer is much longer (`listen_own_refuted`).
* NSP measures the round trip from the first sending of a message, also if it was
  sent again, and counts messages that are given up or dropped when a connection is
  closed as measurements (`delay_resent_refuted`, `delay_givenup_refuted`).
* --nsp-delay is not checked (the range is in the help text only): with 0 every
  message is given up within half a second (`factor_refuted`), above 720 the timer
  overflows.
* http.py 143: with several systems, a request with a query that has no
  `system` (also for a file, `/resources/x?v=1`) is a KeyError, answered with
  error 500 and a traceback (`http_query_refuted`).  A system without a name gets
  links ending in `?system=`, which parse_qs drops: the same error, so its pages
  cannot be reached.
* http.py 131: the path is not percent-decoded, so a resource file with a blank
  in its name cannot be fetched (`http_decode_refuted`).
* mapper.py 553: times are whole seconds and an item is up only if it came up
  strictly after it went down, so what goes down and up in the same second stays
  down on the map until it is seen again at a later time (`item_second_refuted`).
* mapper.py 1424: an event during an incremental scan about a node already polled
  in it does not lead to another poll, and finish_poll drops the set, so the change
  shows only after the next full scan, up to a day later (`scan_event_refuted`).
* Mapper, poll of a node: an empty message, or a second header of several messages,
  is an exception in the poller (mapper.py 922, 937): nothing is reported until
  the timer of 60 seconds expires (C79, poll_empty).  A neighbour of a Phase II node
  whose name is not known is reported as node 0 (1109-1110), which the scan then polls.
* Mapper, records of the database server: a record about a known node sets its times
  to 0 and its adjacencies to none (addnode copies all attributes of a fresh MapNode,
  mapper.py 698-700), so the node is shown as gone until it is seen again (C80,
  mapdb_forgets, mapdb_keeps_refuted).  If a node takes the name of another known
  one, both have it, and a later rename of the other makes the name lead nowhere
  (702-704; mapdb_unique_refuted, mapdb_found_refuted).  After a scrapped node the
  fields are not reset (1689 is inside the if), so that the next node can get its
  coordinates (mapdb_answer_refuted).  A record without a place is an exception that
  ends the update (mapdb_noloc).
* Mapper, map file: if the mapper stops between the two renames of save (730-733) it
  starts with no data, although the old and the new map are both on disk
  (mapdb_load_refuted).
* Topology server: nothing sets node_count of the reply (modules/topol.py 103-107), so
  it is 0, and a client finds no nodes although their names follow (C81, topol_count,
  topol_client_refuted).  A name of more than 6 characters in the argument makes the
  reply an exception (topol_long).
* Memory log: with a capacity of 0 not even an important record is written (C85,
  memlog_zero_refuted).
* Map: a place without nodes has no colour but a ValueError (C86, map_empty_refuted);
  update_map makes one for the neighbour of an adjacency that is not in the database
  (mapper.py 1545-1566), because the loop is over the nodes known before.
* Talk server: connect data of any format are taken if they have 5 or at least 7 bytes,
  the check being a comment (applications/lsn.py 47-49; C83, lsn_lengths,
  lsn_format_refuted).  If the data are too short or the terminal cannot be opened the
  process ends with an exception instead of a reject (lsn_refuses).
* Phase II node: sending to itself is an AttributeError, because the circuit of the
  local adjacency has no datalink (routing.py 109-116, 783; C82, p2_self).  With two
  circuits to a neighbour, it is not reached when one of them goes down (adj_down,
  418-422, removes the entry of either; p2_two_refuted).  rqr is ignored for nodes
  (749-761), so a connect to a node that is not reached fails only by timeout (p2_rqr).
* Mirror programs: mirror3.py 75 unpacks the peer as a list, but session.py 583 gives an
  integer if the node has no name, so such a client meets a TypeError (C87,
  mirror3_unnamed_refuted).  Empty data are an IndexError in all three (mirror_stops,
  mirror1_serves).
* HTML: strings are not quoted (C88, html_quote_refuted); the element flex-page of a page
  is not closed (html.py 213-218; html_doc_refuted); the details of a row span as many
  columns as the row has, next to a cell of two rows, so one too many (html.py 107-110;
  html_span_refuted).
* i3dict: abbreviations below three characters and keys with the same first
  three characters (i3_*_refuted).

## Tests of the theorems

`seeded/LOG.jsonl` records edits of the model, made in a scratch copy, that a
realistic bug would make; the theorems that then fail; and the theorems that
were added or tightened because an edit was not noticed.  Edits marked
equivalent do not change what the model computes in a reachable state.
