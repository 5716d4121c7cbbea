{"id": "C01", "title": "Sequence number arithmetic is a ring of residues", "statement": "For a sequence number type of modulus m, constructing from an integer succeeds exactly for 0 <= v < m; adding or subtracting an integer always yields a value in range; (x + i) - i = x; (y - x) is the unique signed distance d with x + d = y and |d| <= m/2.", "quantifier": "every modulus m >= 2, every pair of values and every integer increment", "why_tests_cant": "infinitely many moduli and increments; the boundary cases are at wrap-around", "anchors": ["pydecnet/decnet/modulo.py:Mod.__new__,__add__,__sub__,__radd__"]}
{"id": "C02", "title": "Sequence number ordering is RFC 1982 ordering", "statement": "For two values of the same modulus exactly one of <, ==, > holds, except when the modulus is even and they are exactly m/2 apart, in which case every ordering comparison raises TypeError and == is false.  x < y iff y is reached from x by 1..maxdelta increments; the order is antisymmetric, invariant under adding the same increment to both sides, and agrees with the true (unwrapped) order of any two events at most maxdelta apart.", "quantifier": "every modulus, every pair of values, every shift", "why_tests_cant": "tests sample moduli; the claim is about every wrapped position", "anchors": ["pydecnet/decnet/modulo.py:Mod.__lt__,__le__,__gt__,__ge__,__eq__"]}
{"id": "C03", "title": "A timer fires exactly once, on the tick it was set for", "statement": "After start(item, timeout) with 1 <= ticks < maxtime, and no later start/stop of that item, the item expires during exactly the ticks-th following tick, never sooner, and is no longer linked afterwards.  A start that is followed by a stop or restart before that tick never expires.", "quantifier": "every wheel size, every history of start/stop/tick operations on any number of timers", "why_tests_cant": "depends on arbitrary interleavings of starts, stops and ticks and on wheel wrap-around", "anchors": ["pydecnet/decnet/timers.py:TimerWheel.start,stop,run; Timer; Cque"]}
{"id": "C04", "title": "No stale timeout is delivered", "statement": "A timeout work item that was queued for an owner is delivered to the owner only if the owner's timer was neither restarted nor stopped between the expiry and the dispatch of the work item.", "quantifier": "every schedule of timer expiry, owner actions and work queue dispatch", "why_tests_cant": "a race between the timer thread and the main loop: unit tests see only a few schedules", "anchors": ["pydecnet/decnet/timers.py:Timeout.dispatch, Timer.islinked, Cque.remove, revcount"]}
{"id": "C05", "title": "Timer wheel queue integrity", "statement": "After any history every timer is linked in at most one wheel slot, timers in the same slot expire in the order they were started, and a start whose timeout is too long raises OverflowError.", "quantifier": "every history of start/stop/tick", "why_tests_cant": "linked list corruption only shows after particular histories", "anchors": ["pydecnet/decnet/timers.py:Cque.add,remove; TimerWheel"]}
{"id": "C06", "title": "Packet encode/decode round trip", "statement": "For any packet layout made of the documented field types and any in-range field values, decoding the encoded packet yields the same field values and consumes exactly the encoded bytes, whatever follows for non-final layouts.", "quantifier": "every layout built from B, SIGNED, I, A, EX, BM, CTR, RES, BV, PAYLOAD, TLV, LIST fields; every in-range assignment", "why_tests_cant": "layouts and values are unbounded; tests check individual packets", "anchors": ["pydecnet/decnet/packet.py:Packet.encode,decode; B,SIGNED,I,A,EX,BM,CTR,RES,BV,PAYLOAD,TLV,LIST"]}
{"id": "C07", "title": "Decoding arbitrary bytes is safe", "statement": "Decoding any byte string with any layout terminates and either returns field values together with a suffix of the input, or raises a DecodeError (never another exception, never reading past the end).", "quantifier": "every byte string and every layout", "why_tests_cant": "the input comes from the network: all byte strings must be covered", "anchors": ["pydecnet/decnet/packet.py:Packet.decode, require, Field.decode"]}
{"id": "C08", "title": "Extensible (EX) integers are canonical", "statement": "EX encoding of a non-negative integer uses 7 bits per byte with a continuation flag on all but the last byte, decodes to the same integer, is rejected iff it needs more than the permitted number of bytes, and is a prefix code.", "quantifier": "every non-negative integer and every maximum length", "why_tests_cant": "unbounded integers", "anchors": ["pydecnet/decnet/packet.py:EX.encode,decode"]}
{"id": "C09", "title": "Counters saturate on the wire and never wrap", "statement": "Encoding a counter value never fails for any non-negative value: the transmitted value is min(value, 2^(8*n)-1) for both packet counters and management counters.", "quantifier": "every counter width and every counter value", "why_tests_cant": "overflow values are rarely tested", "anchors": ["pydecnet/decnet/packet.py:CTR", "pydecnet/decnet/nice_coding.py:CTR1,CTR2,CTR4,CTM1,CTM2,CTM4"]}
{"id": "C10", "title": "Table driven CRC equals polynomial division", "statement": "The byte-at-a-time table CRC computes the same remainder as bit-serial division by the generator polynomial, for any message and any initial value, and updating with a ++ b equals updating with a then b.", "quantifier": "every polynomial and width >= 8, every message split", "why_tests_cant": "infinitely many messages", "anchors": ["pydecnet/crc.py:CRC.update, makecrctable", "pydecnet/decnet/ddcmp.py:CRC16"]}
{"id": "C11", "title": "DDCMP CRC acceptance and error detection", "statement": "Any message followed by its CRC is accepted; any message followed by its CRC and then altered by a single bit error, or by an error burst of at most 16 bits, at any position, is rejected.", "quantifier": "every message, every error position, every burst pattern", "why_tests_cant": "2^16 patterns times unbounded positions and messages", "anchors": ["pydecnet/crc.py:CRC.good,__bytes__", "pydecnet/decnet/ddcmp.py:CRC16"]}
{"id": "C12", "title": "Bridge forwarding discipline", "statement": "The bridge never sends a frame back out of the circuit it came in on, sends a frame for a known destination to exactly the circuit where that address was last seen, and floods a frame for an unknown or multicast destination exactly once to every other circuit.  Frames whose source equals their destination are dropped.", "quantifier": "every sequence of received frames and entry timeouts, every number of circuits", "why_tests_cant": "depends on the whole history of learned addresses", "anchors": ["pydecnet/decnet/bridge.py:Bridge.dispatch, BridgeCircuit"]}
{"id": "C13", "title": "Bridge address learning", "statement": "After any history, the circuit recorded for an address is the circuit on which the latest frame with that source address arrived, unless it has expired, and an address never heard as a source is not recorded.", "quantifier": "every history of frames and expirations", "why_tests_cant": "history property", "anchors": ["pydecnet/decnet/bridge.py:Bridge, HostEntry"]}
{"id": "C14", "title": "Node address parsing, printing and MAC mapping", "statement": "Parsing a node address accepts exactly area 1..63 dot node 1..1023 (or a bare Phase II/III number 0..1023 ), printing it and parsing again is the identity, and a node address maps to a distinct DECnet MAC address from which it is recovered.", "quantifier": "every node address", "why_tests_cant": "65535 addresses times several representations", "anchors": ["pydecnet/decnet/common.py:Nodeid,Macaddr,NiceNode"]}
{"id": "C15", "title": "Exponential backoff is bounded", "statement": "Successive backoff values start at the minimum, are non-decreasing, at most double each time, never exceed the maximum, and reset returns to the minimum.", "quantifier": "every minimum/maximum pair and every sequence of next/reset calls", "why_tests_cant": "history property", "anchors": ["pydecnet/decnet/common.py:Backoff"]}
{"id": "C16", "title": "DDCMP delivers a prefix of what was sent, in order, exactly once", "statement": "Between two DDCMP stations in running state, over a link that preserves order but may lose or corrupt (detectably) any message, the sequence of packets delivered to the receiving user is at all times a prefix of the sequence of packets the sending user passed in.", "quantifier": "every schedule of sends, deliveries, losses, reply timeouts in both directions; every window size 1..255", "why_tests_cant": "unbounded schedules with loss; sequence numbers wrap at 256", "anchors": ["pydecnet/decnet/ddcmp.py:_DDCMP.running, process_ack, send, retransmit"]}
{"id": "C17", "title": "DDCMP transmit window invariants", "statement": "At any time the number of transmitted but unacknowledged packets is at most qmax, those packets are exactly the ones numbered a+1..n, an acknowledgement outside that range changes nothing, and the internal consistency assertions never fail.", "quantifier": "every schedule of sends, acknowledgements (including forged or old ones) and timeouts", "why_tests_cant": "history property with modular wrap-around", "anchors": ["pydecnet/decnet/ddcmp.py:_DDCMP.process_ack, send_data, send_rep"]}
{"id": "C18", "title": "DDCMP Telnet transparency", "statement": "For DDCMP over Telnet, escaping then unescaping any byte string is the identity.", "quantifier": "every byte string", "why_tests_cant": "unbounded input containing the escape byte anywhere", "anchors": ["pydecnet/decnet/ddcmp.py:TelnetMixin / TcpTelnet send, receive"]}
{"id": "C19", "title": "DDCMP receive framing resynchronises", "statement": "The DDCMP receiver hands to the state machine only messages whose header CRC (and, for data and maintenance, data CRC) are correct; after any amount of garbage, a valid message header in the byte stream that the scanner reaches is recognised.", "quantifier": "every byte stream", "why_tests_cant": "unbounded streams", "anchors": ["pydecnet/decnet/ddcmp.py:receive_loop, get_pkt"]}
{"id": "C20", "title": "Routing picks a minimum cost reachable path", "statement": "After the decision process runs for a destination, the chosen path has minimum cost among all adjacencies and self, it is unreachable exactly when every candidate exceeds the maximum hops or cost, and the advertised cost/hops of unreachable are infinity.", "quantifier": "every set of adjacencies, every cost/hops matrix, every destination", "why_tests_cant": "unbounded combinations", "anchors": ["pydecnet/decnet/routing.py:L1Router.doroute, L2Router.doroute, RouteInfo"]}
{"id": "C21", "title": "Routing table consistency after any event history", "statement": "After any history of adjacency up/down and routing messages, the minhop/mincost/output tables equal what the decision process computes from the currently stored vectors (so the built-in self check never terminates the process).", "quantifier": "every history of adjacency and routing message events", "why_tests_cant": "history property over incremental updates", "anchors": ["pydecnet/decnet/routing.py:_Router.adj_up, adj_down, routemsg, check"]}
{"id": "C22", "title": "Packet lifetime is bounded by the visit count", "statement": "A data packet is never forwarded by a router when its visit count has reached the limit, each forwarding increases the visit count by one, and a packet is returned to sender at most once; therefore any packet crosses a bounded number of routers in any topology, including with loops.", "quantifier": "every packet, every sequence of routers, every routing table", "why_tests_cant": "global property over arbitrary topologies", "anchors": ["pydecnet/decnet/routing.py:_Router.forward, route_ptp, route_eth"]}
{"id": "C23", "title": "Routing updates cover every changed destination and fit the circuit", "statement": "The update messages built for a set of destinations contain the current entry of every flagged destination, no segment exceeds the block size limit, and decoding them yields exactly the entries that were encoded.", "quantifier": "every flag vector, every routing table, every block size", "why_tests_cant": "unbounded", "anchors": ["pydecnet/decnet/routing.py:Update.buildupdates, L1Router, L2Router", "pydecnet/decnet/routing_packets.py:L1Segment,L2Segment,RoutingMessage"]}
{"id": "C24", "title": "Routing message checksum", "statement": "An encoded routing message always passes its own checksum test on decode and is recognised as the format (Phase III or IV) it was encoded in; altering any one 16-bit word (other than exchanging 0x0000 and 0xffff) is detected.", "quantifier": "every routing message, every single-word alteration", "why_tests_cant": "unbounded messages", "anchors": ["pydecnet/decnet/routing_packets.py:RoutingMessage.decode, PhaseIIIRouting.encode, Ph4RoutingMessage.encode"]}
{"id": "C25", "title": "Distance vector convergence", "statement": "Once topology is stable and updates are exchanged fairly, each router's cost to each destination becomes the length of the shortest path subject to the limits, and unreachable destinations are eventually recorded as unreachable.", "quantifier": "every finite topology and every initial routing state", "why_tests_cant": "global property over arbitrary topologies and initial states", "anchors": ["pydecnet/decnet/routing.py:doroute, routemsg, Update"]}
{"id": "C26", "title": "Designated router election", "statement": "Among the routers on a LAN that share a view of each other, exactly one considers itself designated router: the one with the greatest (priority, node address).", "quantifier": "every set of routers, priorities and addresses", "why_tests_cant": "arbitrary sets", "anchors": ["pydecnet/decnet/route_eth.py:RoutingLanCircuit.calcdr, findbestdr"]}
{"id": "C27", "title": "LAN router list bound and preference", "statement": "The number of router adjacencies on a LAN circuit never exceeds the configured maximum; when full, a new router is admitted only by displacing the one with lowest (priority, address), so that the retained set is the best of those heard.", "quantifier": "every history of router hello messages and timeouts", "why_tests_cant": "history property", "anchors": ["pydecnet/decnet/route_eth.py:RoutingLanCircuit.dispatch"]}
{"id": "C28", "title": "Two-way LAN adjacency", "statement": "A LAN router adjacency is up only while the latest accepted hello from that router listed this router, and it goes down when a hello omits it or the listen timer expires.", "quantifier": "every history of hello messages and timeouts", "why_tests_cant": "history property", "anchors": ["pydecnet/decnet/route_eth.py:RoutingLanCircuit.dispatch", "pydecnet/decnet/adjacency.py"]}
{"id": "C29", "title": "Point to point circuits come up only after initialization and verification", "statement": "A point to point circuit passes data to routing only while in the running state; it reaches the running state only after an acceptable init message from the neighbour since the last restart, and, if verification was required, only after a verification message equal to the configured password; any wrong-source or malformed control message restarts it.", "quantifier": "every sequence of datalink events, packets and timeouts", "why_tests_cant": "security property over all histories", "anchors": ["pydecnet/decnet/route_ptp.py:PtpCircuit.ri,rv,rv2,ru,checksrc"]}
{"id": "C30", "title": "Datalink status reports alternate", "statement": "The point to point datalink reports up and down to its user strictly alternately, starting with up.", "quantifier": "every sequence of connection events", "why_tests_cant": "history property", "anchors": ["pydecnet/decnet/datalink.py:PtpDatalink.report_up, report_down"]}
{"id": "C31", "title": "NSP logical link identifiers are unique", "statement": "No two open connections share a local link id, the id is never zero, and an id is not reused until a large number of other ids have been allocated.", "quantifier": "every history of connection opens and closes, every permitted max-connections", "why_tests_cant": "history property with wrap-around", "anchors": ["pydecnet/decnet/nsp.py:NSP.init_id, get_id, ret_id"]}
{"id": "C32", "title": "NSP in-order exactly-once delivery", "statement": "The receive side of a subchannel passes up segments 1,2,3,... in order without omission or duplication, whatever order, duplication or loss the network applies to segments that are within the sequence window.", "quantifier": "every arrival sequence", "why_tests_cant": "unbounded arrival sequences, wrap-around at 4096", "anchors": ["pydecnet/decnet/nsp.py:Subchannel.process_data, ooo cache"]}
{"id": "C33", "title": "NSP end-to-end reliability", "statement": "Data delivered to the receiving user is at all times a prefix of the data sent, for a sender and receiver connected by a network that may lose, duplicate or reorder segments and acknowledgements within half the sequence window.", "quantifier": "every schedule", "why_tests_cant": "unbounded schedules", "anchors": ["pydecnet/decnet/nsp.py:Data_Subchannel, txqentry, process_ack"]}
{"id": "C34", "title": "NSP segmentation and reassembly are inverse", "statement": "Any non-empty message handed to send_data is cut into segments of at most the segment size, the first flagged beginning and the last flagged end, and the receiver reassembles exactly that message; consecutive messages never merge.", "quantifier": "every message and every segment size >= 1", "why_tests_cant": "unbounded lengths", "anchors": ["pydecnet/decnet/nsp.py:Connection.send_data, Data_Subchannel.send, process_data"]}
{"id": "C35", "title": "NSP flow control and transmit window", "statement": "The sender never has more than qmax segments in flight, and with segment or message flow control never sends more than the peer has granted.", "quantifier": "every schedule of grants, acks, sends", "why_tests_cant": "history property", "anchors": ["pydecnet/decnet/nsp.py:Data_Subchannel, Other_Subchannel, process_ls"]}
{"id": "C36", "title": "NSP retransmission terminates", "statement": "A segment that is never acknowledged is retransmitted a bounded number of times and the connection is then closed.", "quantifier": "every schedule", "why_tests_cant": "liveness-like", "anchors": ["pydecnet/decnet/nsp.py:txqentry.dispatch, Subchannel.retransmit"]}
{"id": "C37", "title": "NSP connection lifecycle", "statement": "Data is delivered to session control only for a connection in the run (or disconnecting) states, each connection reaches closed at most once, a closed connection is in no lookup table, and packets for unknown links are answered with 'no link' without changing state.", "quantifier": "every sequence of packets and user requests", "why_tests_cant": "history property", "anchors": ["pydecnet/decnet/nsp.py:Connection state methods, NSP.dispatch"]}
{"id": "C38", "title": "NSP message headers round trip", "statement": "Acknowledgement fields, data/interrupt/link-service/connect/disconnect headers decode to what was encoded.", "quantifier": "every in-range header", "why_tests_cant": "large value space", "anchors": ["pydecnet/decnet/nsp_packets.py:AckNum,AckHdr,DataSeg,IntMsg,LinkSvcMsg,ConnMsg,DiscInit"]}
{"id": "C39", "title": "Session connect data round trip", "statement": "The session control connect message (destination and source end users, optional access control and user data) decodes to what was encoded.", "quantifier": "every end user descriptor and credential string within limits", "why_tests_cant": "unbounded combinations", "anchors": ["pydecnet/decnet/session.py:SessionConnInit, EndUser0, EndUser1, EndUser2"]}
{"id": "C40", "title": "Authentication is enforced", "statement": "An application configured to require authentication is started for an incoming connection only if the supplied credentials were accepted; unknown objects are rejected with 'no such object'.", "quantifier": "every incoming connect and every object configuration", "why_tests_cant": "security property over all inputs", "anchors": ["pydecnet/decnet/session.py:Session.dispatch"]}
{"id": "C41", "title": "Session object registry", "statement": "Registering an application for an object name or number that is in use is refused, and when an application disconnects exactly its own registrations disappear.", "quantifier": "every history of bind/disconnect requests", "why_tests_cant": "history property", "anchors": ["pydecnet/decnet/session.py:ApiListener, DictConnector"]}
{"id": "C42", "title": "Ethernet frame round trip", "statement": "A payload sent through an Ethernet port is received by the peer's port with the same protocol type exactly as sent, in padded and (for payloads at or above the minimum) in unpadded mode, and frames for other protocol types or addresses are not delivered.", "quantifier": "every payload and every port configuration", "why_tests_cant": "unbounded", "anchors": ["pydecnet/decnet/ethernet.py:EthPort.send, receive"]}
{"id": "C43", "title": "Multinet TCP framing", "statement": "The sequence of packets received over a Multinet TCP connection is exactly the sequence sent, for any chunking of the byte stream.", "quantifier": "every packet sequence and every chunking", "why_tests_cant": "unbounded streams", "anchors": ["pydecnet/decnet/multinet.py:_TcpCircuit send, receive_loop"]}
{"id": "C44", "title": "Multinet UDP sequencing", "statement": "Multinet UDP never delivers a runt, and sequence numbers advance by one modulo 65536 per packet sent.", "quantifier": "every history", "why_tests_cant": "history property", "anchors": ["pydecnet/decnet/multinet.py"]}
{"id": "C45", "title": "GRE framing", "statement": "A payload sent over a GRE tunnel is received unchanged; truncated frames are not delivered.", "quantifier": "every payload and every truncation", "why_tests_cant": "unbounded", "anchors": ["pydecnet/decnet/gre.py:GrePort.send, run"]}
{"id": "C46", "title": "MOP request/reply matching", "statement": "Each MOP request gets a receipt number in 1..65535 distinct from the previous 65534; a reply is delivered to the request whose receipt number it carries, at most once, and never after the request was cancelled or timed out.", "quantifier": "every history of requests and replies", "why_tests_cant": "history property", "anchors": ["pydecnet/decnet/mop.py:ReceiptGen, MopCircuit.request, deliver, done"]}
{"id": "C47", "title": "Console carrier stream integrity", "statement": "Keyboard input reaches the console server, and console output reaches the client, in order and exactly once, over a LAN that may lose frames.", "quantifier": "every schedule of polls, losses and timeouts", "why_tests_cant": "unbounded schedules", "anchors": ["pydecnet/decnet/mop.py:CarrierClientConnection, CarrierServer"]}
{"id": "C48", "title": "MOP loop forwarding", "statement": "A loop message built for up to three assisting hops visits exactly those hops in order and returns to the originator with the original data and receipt; messages with odd or overlong skip counts or multicast forward addresses are ignored.", "quantifier": "every hop list, payload and received byte string", "why_tests_cant": "unbounded", "anchors": ["pydecnet/decnet/mop.py:LoopHandler.dispatch, LoopConnection.buildloop"]}
{"id": "C49", "title": "Event queue overflow is never silent", "statement": "The remote event sink queue keeps events in order, never grows beyond its limit plus one, and every dropped event is represented by an 'events lost' event after the events that preceded it.", "quantifier": "every history of events and transmissions", "why_tests_cant": "history property", "anchors": ["pydecnet/decnet/event_logger.py:EventQueue, RemoteSink.send_events"]}
{"id": "C50", "title": "Event list parsing and filtering", "statement": "Parsing an event list yields exactly the set of (class,type) pairs denoted by its comma separated items, and a filter passes an event iff its code, alone or qualified by its entity, was enabled and not disabled since.", "quantifier": "every well formed event list and filter history", "why_tests_cant": "unbounded lists", "anchors": ["pydecnet/decnet/event_logger.py:parse_events, EventFilter"]}
{"id": "C51", "title": "NICE parameter coding round trip", "statement": "Network management parameter values (decimal, octal, hex, coded, coded multiple, ASCII and hex images) decode to what was encoded.", "quantifier": "every value of every type", "why_tests_cant": "large value space", "anchors": ["pydecnet/decnet/nice_coding.py"]}
{"id": "C52", "title": "Name abbreviation dictionary", "statement": "The abbreviated-keyword dictionary treats keys equal up to case and truncation to their significant length as the same key, so that set/get/delete agree for all spellings.", "quantifier": "every history and spelling", "why_tests_cant": "history property", "anchors": ["pydecnet/decnet/i3dict.py"]}
{"id": "C53", "title": "Phase II intercept relays to the right peer", "statement": "A node that does intercept service for a Phase II neighbor relays every packet of an established link of that neighbor, unchanged and in the neighbor's own name, to the node that the neighbor named when the connection was set up, until either end disconnects it; packets with a route header go to the node named there, and are refused with a disconnect confirm if they name a foreign source or an unknown destination. The neighbor gets only packets addressed to it, with a route header exactly when they come from a third node and are not part of an established link.", "quantifier": "every neighbor, every node database, every history of packets in both directions, every packet content", "why_tests_cant": "the peer of a link depends on the whole history of connects and disconnects of all links of the neighbor", "anchors": ["pydecnet/decnet/intercept.py:54-424", "pydecnet/decnet/route_ptp.py:196-212", "pydecnet/decnet/route_ptp.py:893-917"]}
{"id": "C54", "title": "DAP message blocking", "statement": "Several DAP messages packed in one buffer with length fields are split at exactly the message boundaries.", "quantifier": "every sequence of messages", "why_tests_cant": "unbounded", "anchors": ["pydecnet/decnet/dap_packets.py:DapBase.decode"]}
{"id": "C55", "title": "Session messages reach the application that owns the connection", "statement": "Everything that arrives on a logical link is delivered to the application that was told about the incoming connection, or that opened it, under the handle it was given, in the form sent, and to no other application; after the application is gone or the connection closed nothing is delivered.", "quantifier": "every history of incoming connections, items, application requests, failures and exits", "why_tests_cant": "history property over any number of applications and connections", "anchors": ["pydecnet/decnet/session.py:Session.dispatch, BaseConnector.dispatch, DictConnector"]}
{"id": "C56", "title": "Received NSP data is acknowledged", "statement": "While a logical link is up, the highest packet taken in sequence on each subchannel has been acknowledged in a packet sent since, or the holdoff timer is running; when the timer expires the acknowledgment is sent. A segment received again is acknowledged again; the next segment is taken and acknowledged at once unless its sender allows a delay and the link is Phase IV and not shutting down. The second acknowledgment field is used only towards Phase IV partners.", "quantifier": "every execution of a connection, whatever packets arrive and whatever the users and timers do", "why_tests_cant": "a lost acknowledgment shows only as a retransmission or a stalled partner for a particular interleaving of segments, piggybacked acknowledgments and timers", "anchors": ["pydecnet/decnet/nsp.py:Subchannel.dispatch, Subchannel.set_acks, Subchannel.send_ack, txqentry.send"]}
{"id": "C57", "title": "The conversation between NSP and the user of a logical link follows the rules", "statement": "Whatever arrives and whatever the user calls, the calls (with the exceptions they raise) and the items given to Session Control for a connection form one of the allowed conversations: an outbound connection is confirmed or refused once, an inbound one is offered once and can be accepted or rejected once, data arrive only while it is open or being left, calls out of turn raise WrongState and change nothing. A connection is not closed without its user having ended it or having been told; after the end was told nothing more arrives and every call raises WrongState (an unanswered inbound connection may report its end twice); a refusal is marked as such exactly if the connect request was not confirmed before.", "quantifier": "every execution of an inbound or outbound connection of Phase II, III or IV: any packets in any state, any API calls, any timer expirations", "why_tests_cant": "the rules concern every interleaving of packets, calls and timers in seven states; tests follow the expected dialogues", "anchors": ["pydecnet/decnet/nsp.py:Connection.accept, reject, disconnect, abort, send_data, interrupt, cr, ci, cd, cc, run, di, closed"]}
{"id": "C58", "title": "A logical link that is being disconnected or waits for an answer comes to an end", "statement": "After reject, abort or disconnect the Disconnect Initiate with the reason and data that the user gave last was sent to the partner and its retransmission timer runs; if the partner says nothing it is sent at most NSP retransmit factor times in all, then the connection is closed and the user told. A connection that waits for the partner's or the user's answer has its timer running; on expiry the user is told and the partner's request refused with reason 38. A Disconnect Initiate of the partner is confirmed with reason 42, closes the connection and reaches the user, unless the user has left. (Exceptions, with witnesses: reject with an illegal reason; a disconnect waiting for an acknowledgment that arrives on the other subchannel.)", "quantifier": "every execution of an inbound or outbound connection of Phase II, III or IV", "why_tests_cant": "a link that stays in limbo shows only after timeouts in one particular order of events, and never by a wrong value", "anchors": ["pydecnet/decnet/nsp.py:Connection.disc_rej, disconnect, abort, cr, ci, cd, run, di; txqentry.dispatch; Data_Subchannel.process_ack"]}
{"id": "C59", "title": "An endnode on a LAN sends every packet to the right station", "statement": "A packet from NSP to another node is sent exactly once: to the station from which data of the destination last came if that was less than 60 seconds ago, otherwise (or when asked to bypass the cache) to the router of the own area heard last, or, if no router was heard within its listen time, to the destination itself. Packets received for this node reach NSP once each, packets for others do not. A hello goes out at the start and then every hello time, naming the router in use; the events about routers going up and down alternate and end with the router in use. A packet is returned to NSP as undeliverable exactly if that was asked for and it was not sent (fails in the code for cached destinations).", "quantifier": "every history of router hellos, data packets, transmissions and seconds, in any order, for every own address and hello time", "why_tests_cant": "the choice depends on the whole history of who was heard when, including timers of entries long dropped", "anchors": ["pydecnet/decnet/route_eth.py:EndnodeLanCircuit.dispatch, send, sendhello, adj_timeout, cache_expire; NiCacheEntry", "pydecnet/decnet/routing.py:EndnodeRouting.send, dispatch", "pydecnet/decnet/adjacency.py:Adjacency"]}
{"id": "C60", "title": "The file access listener gives users without a login only files below its root directory", "statement": "Whatever file specification a request has, the names it is matched against and every file it can open or list lie below the root directory (the trimming of \"*.*\" and \";*\" after the root was applied breaks this for names such as \"/..;*\", which list the directory that holds the root; nothing further out can be reached). A file below the root is reached by its plain name.", "quantifier": "every root directory, every file specification, directory listings and file reads, every content of the file system (without symbolic links)", "why_tests_cant": "the interesting specifications combine repeated slashes, leading dots of any number, wildcards and version suffixes", "anchors": ["pydecnet/decnet/applications/fal.py:applyroot, files"]}
{"id": "C61", "title": "The asyncio API client gives each answer to its request and each message to its connection", "statement": "Requests get tags of their own, and a request completes with the first answer that has its tag and the connection of that answer, never with another. recv on a connection returns exactly the messages with its handle, in order, each once; after the message that ends the connection, or a call that does, every call raises ConnClosed. Incoming connections are given once, in order, to the listener they are for, and rejected if it is gone. The receiver fails only on a message for a connection that is not open and on the answer to a cancelled request (both of which happen in normal use, and then stop all connections).", "quantifier": "every interleaving of requests, cancellations, lines from PyDECnet, recv, send and listen calls, on any number of connections, for socket and pipe connectors", "why_tests_cant": "the failures need a message to cross a call on its way; which interleavings occur depends on scheduling", "anchors": ["pydecnet/decnet/async_connectors.py:AsyncConnection, AsyncConnector.dispatch, exch, makeconn", "pydecnet/decnet/connectors.py:Connection, SimpleConnector.parse"]}
{"id": "C62", "title": "The remote console belongs to one station that knows the password, until it releases it or is silent", "statement": "A station has the console exactly when it sent a request with the configured password while the console was free, and since then has neither released it nor let 15 seconds pass without a command. Terminal input comes only from commands of that station, each payload once and in order even if commands are repeated; terminal output is sent only to that station, in answer to its commands. Nothing other stations send changes the session; system id requests are answered with the reservation as it is. A new session sees nothing of an earlier one. Without a configured password the console is never opened. (When the login process cannot be started the code violates this: the console stays reserved.)", "quantifier": "every sequence of packets (any bytes) from any number of stations, interleaved with any passage of time, terminal writes and reads of any length", "why_tests_cant": "needs several stations, expiry of the reservation at any point of an exchange, and all byte strings as packets", "anchors": ["pydecnet/decnet/mop.py:CarrierServer", "pydecnet/decnet/mop.py:MopCircuit.dispatch", "pydecnet/decnet/mop.py:SysIdHandler.send_id"]}
{"id": "C63", "title": "Network management requests get complete answers, and a loop test says success exactly when every message came back", "statement": "A read request gets exactly the records there are, in order and grouped by entity, or one error code when there is an error, the permanent data base is asked for or a single entity is not there; a local NCP gets the same as one message. A loop node request with arguments in range connects to the mirror, sends one message at a time and reports success exactly when the requested number came back unchanged; anything else (a different message, too little room, a refused or lost connection) ends the test with the matching error and the number of messages not looped, and nothing is said twice. Requests with arguments out of range and unsupported requests get one error reply and start nothing. A circuit loop visits the stations in the order the assistance asks for. (Violated by the code: Phase II reads with no result, overlapping loops, empty messages, unknown names.)", "quantifier": "every answer of the layers, every request, and every sequence of events on the mirror connection", "why_tests_cant": "the outcome depends on the position of the first misbehaviour in an unbounded exchange, and on all combinations of arguments", "anchors": ["pydecnet/decnet/modules/nml.py:Application", "pydecnet/decnet/modules/mirror.py:Application"]}
{"id": "C64", "title": "In a network of several areas, routing settles at both levels and packets reach nodes of other areas", "statement": "After the adjacencies stop changing, as long as routing messages keep getting through, level 2 routers agree on least-cost paths to every area, each level 2 router that can reach another area announces itself as attached, the other routers of its area settle on a least-cost path to the nearest attached router, and from then on a packet sent by any router to a node of its own or of another area is handed from router to router over existing links until it is delivered, within the visit limit.", "quantifier": "every finite topology with areas and circuit costs, every initial state the routers can be in, every stale message in flight, every fair schedule with losses, every packet", "why_tests_cant": "the levels settle one after the other over unbounded schedules; a test runs one topology and one schedule", "anchors": ["pydecnet/decnet/routing.py:L1Router", "pydecnet/decnet/routing.py:L2Router", "pydecnet/decnet/routing.py:Update"]}
{"id": "C65", "title": "Two DDCMP stations get going and deliver everything, whatever is lost in between", "statement": "Once both ports are connected, over a link that may lose or damage any number of messages but lets some of each kind that is repeated through, and with a timeout for every station that waits, both stations come to the running state and stay in it, and every message given to either of them is delivered by the other one, in order.", "quantifier": "every state reachable by two stations, every window size 1-255, every endless schedule with losses and damage that is fair in this sense, all messages", "why_tests_cant": "liveness is about endless runs; a test sees a finite prefix under one loss pattern", "anchors": ["pydecnet/decnet/ddcmp.py:_DDCMP.running", "pydecnet/decnet/ddcmp.py:_DDCMP.Istart", "pydecnet/decnet/ddcmp.py:_DDCMP.Astart", "pydecnet/decnet/ddcmp.py:_DDCMP.process_ack", "pydecnet/decnet/ddcmp.py:_DDCMP.retransmit"]}
{"id": "C66", "title": "The DDCMP timer runs exactly while the station waits for an answer", "statement": "While a DDCMP station is starting up or has sent data that are not acknowledged, its timer is running, and otherwise it is not; if nothing arrives, the message that asks for an answer is sent again within the limit of the backoff (at most two minutes).  Messages from the other station that acknowledge nothing new restart the timer, so that with traffic in the other direction a lost message may never be asked about.", "quantifier": "every history of events and seconds at a station, every window size, every backoff with limits up to two minutes; every continuing sequence of unhelpful messages", "why_tests_cant": "the timer is started and stopped in a dozen places that interact with the window; a test covers a few orders of events", "anchors": ["pydecnet/decnet/ddcmp.py:_DDCMP.sendmsg", "pydecnet/decnet/ddcmp.py:_DDCMP.process_ack", "pydecnet/decnet/ddcmp.py:_DDCMP.running_state", "pydecnet/decnet/common.py:Backoff", "pydecnet/decnet/timers.py:TimerWheel"]}
{"id": "C67", "title": "Which addresses an IP circuit uses and from whom it accepts", "statement": "A circuit over IP sends to, and tries to connect to, only usable addresses (of an enabled family, not link local) of the last name lookup that had any; trying one after the other goes through all of them; with -4 and -6 given unequally often the preferred family comes first.  A name is looked up again by the first use more than an interval after the lookup before, and by no other use.  A sender is accepted exactly when its address was in some lookup; it should be the last one, as the description says, but earlier ones count as well.", "quantifier": "every configuration, every answer of the resolver in every order, every history of uses, tries, checks and lookups at any times", "why_tests_cant": "the answers of the resolver and their times are not under a test's control, and sets come in any order", "anchors": ["pydecnet/decnet/host.py:HostAddress", "pydecnet/decnet/host.py:SourceAddress", "pydecnet/decnet/host.py:NameResolver"]}
{"id": "C68", "title": "The API server answers each request line once, with its tag, and goes on", "statement": "Replies depend only on the lines a client sends, not on how their bytes arrive.  A request for a registered API of a known system is passed to that layer exactly once, without the keys the server uses itself; what the layer returns, or an error if it raises, is sent with system, API and tag of the request put in.  All other objects get the error reply that fits, and text that is no JSON a parse error; no layer is called then.  The connection ends exactly on an empty line, JSON that is no object, a system that is no string, an API that is a list or object, or a request for the nodes of a system with loop nodes.  The JSON string \"bad\" repeats the reply before.", "quantifier": "every set of systems and APIs, every behaviour of the layers and of the JSON decoder, every sequence of received pieces", "why_tests_cant": "the ways to cut a stream and the shapes of JSON values are unbounded", "anchors": ["pydecnet/decnet/apiserver.py:ApiHandler", "pydecnet/decnet/node.py:Node.api", "pydecnet/decnet/node.py:LoopNode.get_api"]}
{"id": "C69", "title": "A configuration file is accepted exactly if it is understood and does not contradict itself, and the configuration then says what the file says", "statement": "The commands of a configuration file, with the files it names put in place and their prefixes added, are read in order; blank lines, comments and blanks around a line do not matter.  The file is accepted exactly if every command is understood, no later entry about the same circuit, logger, node name, node address, object name or object number contradicts a set attribute of an earlier one, and exactly one kind of system (a bridge, a routing node, or monitoring only) is described.  Each name then stands for what its last entry says, and node names and addresses belong to each other one to one.  A file that names itself is never finished.", "quantifier": "every set of files with every content, every behaviour of the command parser", "why_tests_cant": "the files, their nesting and the combinations of entries are unbounded", "anchors": ["pydecnet/decnet/config.py:Config", "pydecnet/decnet/config.py:checkdict", "pydecnet/decnet/config.py:Nodes", "pydecnet/decnet/config.py:Objects"]}
{"id": "C70", "title": "The node database gives one entry per node, found by name or address", "statement": "Each node address stands for one entry for as long as the node runs, however it is given (number, digits, area and number, configured name in any case) and whatever is looked up in between; different addresses have different entries.  Configured nodes are found by name and address with their verification strings, where an address without area is one in the executor's area.  Unknown names are refused and do not become known; loop node names stand for their circuit.  A connection goes to the address given, to the executor for address 0.  The node starts exactly if the configuration names the executor.  The API lists the configured nodes and those asked for, each once.", "quantifier": "every configuration, every sequence of lookups, connections and loop nodes", "why_tests_cant": "the configurations and the sequences of lookups are unbounded", "anchors": ["pydecnet/decnet/node.py:Node.nodeinfo", "pydecnet/decnet/node.py:Nodeinfo", "pydecnet/decnet/node.py:LoopNode", "pydecnet/decnet/nsp.py:Connection.__init__"]}
{"id": "C71", "title": "Poor man's routing goes through the nodes named, in order, to the object named", "statement": "A destination string is a node name or address, further ones after two colons, and an object number or task name; every such string is split into exactly these parts, and no other string is.  A connection goes to each node in the order given, to object 123 at all but the last and to the named object at the last, with hop counts counting up from the client's; the client gets one accept that lists the nodes passed.  A relay passes data and interrupts on unchanged, in order, in both directions, until a disconnect, which it passes on, after which it sends nothing.", "quantifier": "every string, every number of nodes, every object, every sequence of messages", "why_tests_cant": "the strings, the paths and the message sequences are unbounded", "anchors": ["pydecnet/decnet/connectors.py:_pmr_re", "pydecnet/decnet/connectors.py:SimpleConnector.checkpmr", "pydecnet/decnet/connectors.py:SimpleConnector.parsepmrresponse", "pydecnet/decnet/applications/pmr.py:route", "pydecnet/decnet/applications/pmr.py:forward"]}
{"id": "C72", "title": "A DAP message is read as what it says, and what is left out as its default", "statement": "A DAP message encoded from some values is decoded to exactly these values: a field whose flag is set as the value sent, a field whose flag is clear as absent or as the layout's default, and any number of fields left out at the end as zero, empty or the layout's default.  Two bit fields influence each other only where the protocol defines them on the same bits.  Any byte string offered as a message is either decoded or refused with a decode error.", "quantifier": "every message type, every set of values, every number of trailing fields left out, every byte string", "why_tests_cant": "the combinations of flags, values and omissions are far too many, and the strings unbounded", "anchors": ["pydecnet/decnet/dap_packets.py:BMEX", "pydecnet/decnet/dap_packets.py:I_int", "pydecnet/decnet/dap_packets.py:AV", "pydecnet/decnet/dap_packets.py:DapBase.decode", "pydecnet/decnet/dap_packets.py:Attrib", "pydecnet/decnet/dap_packets.py:Access", "pydecnet/decnet/dap_packets.py:Prot"]}
{"id": "C73", "title": "Network management lists exactly the nodes and areas asked for, and shows what routing and NSP know of them", "statement": "Asked for known, active, adjacent, significant or loop nodes, for the nodes of an area or for one node, network management lists a node exactly when it is in the node database, connected, adjacent or reachable as the question requires, the executor first and the others in ascending order, none twice.  Of each it says its name, the number of logical links, and of a routed node whether it is reachable, by which circuit, and the next node (summary) or hops and cost (status).  Reachable areas are listed in order with the way to them.", "quantifier": "every node type, node database, set of connections, circuits and routing tables, every kind of request", "why_tests_cant": "the databases and tables are unbounded and three layers change the same records in turn", "anchors": ["pydecnet/decnet/node.py:Node.nice_read", "pydecnet/decnet/nsp.py:NSP.nice_read", "pydecnet/decnet/nsp.py:NSP.read_node", "pydecnet/decnet/routing.py:BaseRouter.nice_read", "pydecnet/decnet/routing.py:L2Router.nice_read", "pydecnet/decnet/nicepackets.py:NodeReplyDict"]}
{"id": "C74", "title": "Routing updates are sent soon after a change, not too often, and periodically", "statement": "When the distance of a destination changes or a neighbour appears, an update with the destination's current distance is sent to every neighbour that takes updates within one second (T2) plus the handling time; two updates on a circuit are never closer than a second, but for timer ticks; after an update another follows within T1, and if nothing changes it is complete, that is, has every destination.  Level 1 updates do not leave the area, level 2 updates go to level 2 routers only.  The update process does not fail.", "quantifier": "every sequence of changes and timer expirations at any times, every neighbour, every routing table, T1 of at least a second", "why_tests_cant": "the outcome depends on the interleaving in time of changes and expirations, of which there are unboundedly many", "anchors": ["pydecnet/decnet/routing.py:Update.setsrm", "pydecnet/decnet/routing.py:Update.update_soon", "pydecnet/decnet/routing.py:Update.dispatch", "pydecnet/decnet/routing.py:Update.buildupdates"]}
{"id": "C75", "title": "Hellos are sent often enough that a living neighbour is not dropped, and a silent one is dropped in time", "statement": "From the moment a circuit comes up hello messages are sent with pauses of at most the hello timer T3 (on a LAN at least two seconds) plus the handling time, whatever changes when; a change in the contents of a LAN hello is told within one second.  A neighbour is dropped only if nothing was heard of it for the listen time (3.1 T3 on a LAN, 2.1 T3 point to point) but for timer ticks, and then it is dropped.  Together: a neighbour that keeps sending is not dropped although up to two hellos in a row (LAN) or one (point to point) are lost, if T3 is large enough for the delays.", "quantifier": "every sequence of changes and timer expirations at any times, every hello timer the timer wheel can hold, every delay and every pattern of losses with at most k in a row", "why_tests_cant": "the claim is about all interleavings in time of two nodes and all loss patterns; tests run a few, mostly with mocked time", "anchors": ["pydecnet/decnet/route_eth.py:RoutingLanCircuit.sendhello", "pydecnet/decnet/route_eth.py:RoutingLanCircuit.newhello", "pydecnet/decnet/route_ptp.py:PtpCircuit.sendhello", "pydecnet/decnet/adjacency.py:Adjacency"]}
{"id": "C76", "title": "NSP waits for acknowledgements neither too short nor too long, and adapts to the round trip time", "statement": "The estimate of the round trip to a node is always between one and five seconds; the first measurement is taken over, a later one moves the estimate towards it by 1/(weight+1) and never past it, so with a steady round trip the error shrinks by weight/(weight+1) each time.  A message waits for its acknowledgement between one and five times the delay factor (two seconds before the first measurement): it is sent at most `retransmits` times, never again before the shortest waiting time is over, not at all a second time if the acknowledgement comes before the timeout, which is always so with a steady round trip the factor leaves room for; and a message that is never acknowledged is given up after exactly the configured tries, within tries times five times the factor.", "quantifier": "every sequence of measured times, every weight 1..255, factor 1..16 and retransmits 2..15, every interleaving in time of timeouts, flow control, acknowledgements and other messages", "why_tests_cant": "the estimate depends on the whole history of measurements and the sending on the interleaving in time; tests see a few histories", "anchors": ["pydecnet/decnet/nsp.py:Connection.update_delay", "pydecnet/decnet/nsp.py:Connection.acktimeout", "pydecnet/decnet/nsp.py:txqentry"]}
{"id": "C77", "title": "The web server gives out only the files below its resource directory, and shows the system asked for", "statement": "Whatever target a request has, a file given out lies at a path that goes only down from the resource directory, and its contents are given; every file there whose path has plain names can be had by its URL.  A page shown is that of the only system, or of a system that the request names; a system whose name no other has can be asked for the pages of each of its layers by that name, in upper or lower case and in the mobile form or not, and is the one that answers; without a system in the request a server of several shows the list of them.  With a system configured, a request without NUL and brackets is answered without an exception, unless there are several systems and it has a query that names none.", "quantifier": "every request target, every list of systems with any names, every file system below the resource directory and every result of realpath without . and .. in it", "why_tests_cant": "targets are arbitrary strings that an attacker chooses; a test tries some ways out of the directory, not all of them", "anchors": ["pydecnet/decnet/http.py:DECnetMonitorRequest.findnode", "pydecnet/decnet/http.py:DECnetMonitorRequest.do_GET", "pydecnet/decnet/node.py:Node.http_get"]}
{"id": "C78", "title": "A scan of the network mapper polls every node exactly once and comes to an end, and the map shows what was seen last", "statement": "In a scan no node is polled twice, at most 20 polls go on at a time, and while the scan goes on there is a poll whose report it waits for; with n nodes in the network fewer than n reports leave it going on.  When a full scan is over every node of the database has been polled: the mapper's own, all known before, and all that were reported by a polled node.  An incremental scan polls every node that events asked for before or during it and all reported.  A node or adjacency is shown as up exactly if it was up when last observed, up or down since the first of the observations that agree with the last; after a full scan exactly what was seen in it is up; what is down fades after 14 and is gone after 60 days, and does not come back without being seen.", "quantifier": "every database, every order in which the sets give their elements, every order and content of the reports (also repeated ones), events at any time; every sequence of observations at rising times", "why_tests_cant": "the polls run in parallel and their reports come in any order, with any network behind them; a test has one small network and one order", "anchors": ["pydecnet/decnet/mapper.py:Mapper.nextnode", "pydecnet/decnet/mapper.py:Mapper.polling", "pydecnet/decnet/mapper.py:Mapper.checkmapscan", "pydecnet/decnet/mapper.py:Mapper.finish_poll", "pydecnet/decnet/mapper.py:MapItem"]}
{"id": "C79", "title": "The mapper's poll of a node asks its questions in order, reports exactly once, cannot hang, and reports exactly what the node answered", "statement": "A poll sends the requests for executor characteristics, known circuits and active nodes in this order (to a Phase II node executor status and known lines; to its own node no active nodes), each after the answer to the one before is complete.  It reports to the mapper exactly once, when its connection ends; while it waits for an answer its timer runs, and when that expires, or the node disconnects, answers with an error or with a message that does not decode, it ends and reports.  If the node answers completely, in one message or several, the report has exactly the neighbours on the circuits and the active nodes in a full scan, and the neighbours that have just come up in another; a reported node was in a message in any case.  The node is marked as up exactly if it accepted the connection or refused it for a reason other than unreachable or object failure.", "quantifier": "every sequence of messages, disconnects and timeouts that the session layer can deliver; every list of replies and every division of them into messages", "why_tests_cant": "the answers come from other systems' network management, in any number of messages and with any errors in them; tests have a few recorded dialogues", "anchors": ["pydecnet/decnet/mapper.py:NodePoller.connecting", "pydecnet/decnet/mapper.py:NodePoller.polling", "pydecnet/decnet/mapper.py:NodePoller.next_request", "pydecnet/decnet/mapper.py:NodePoller.finished", "pydecnet/decnet/mapper.py:NodePoller.procknocirc", "pydecnet/decnet/mapper.py:NodePoller.procactnode", "pydecnet/decnet/mapper.py:NodePoller.procp2line"]}
{"id": "C80", "title": "The mapper's database has every node that the database server or the network names, finds nodes by name, and is never lost by an interrupted save", "statement": "After a record of the node database server the node is in the map with the record's name, place, owner and coordinates, and no other node has changed or gone, except one that had the same name; a name that is found leads to the node that has it.  Of the server's answer exactly the records of nodes that are not scrapped are entered, each with its own fields.  A record leaves what scans have seen of the node.  A save can stop at any point: neither the map file nor its backup is ever cut off, the map or its backup is whole once there was one, and what is loaded is the map last saved.", "quantifier": "every history of loading, records, polls and observations; every answer of the server; every sequence of saves each stopped after any of its steps", "why_tests_cant": "what goes wrong depends on the history of names and on the moment of a crash; tests try a few", "anchors": ["pydecnet/decnet/mapper.py:Mapdata.addnode", "pydecnet/decnet/mapper.py:Mapdata.save", "pydecnet/decnet/mapper.py:Mapdata.load", "pydecnet/decnet/mapper.py:Mapdata.decode_json", "pydecnet/decnet/mapper.py:Mapper.dbupdate", "pydecnet/decnet/mapper.py:Mapper.mapnode"]}
{"id": "C81", "title": "The topology server tells a Phase II client the names of the reachable nodes and of those that are always to be reported", "statement": "A client that connects to the topology server and sends a request gets a reply from which it reads, by the protocol of doc/protocols/topol.txt, the names of all active nodes and of all nodes given in the object's argument, in capital letters, none twice, and at most 50 of them; the reply fits in the client's page of 2048 bytes.", "quantifier": "every argument and every list of active nodes, every order of the set of names", "why_tests_cant": "the clients are systems of the seventies that the tests do not have; the server's output is only seen in a trace", "anchors": ["pydecnet/decnet/modules/topol.py:Application.__init__", "pydecnet/decnet/modules/topol.py:Application.dispatch", "pydecnet/decnet/modules/topol.py:TopoResp", "pydecnet/decnet/modules/topol.py:NodeEntry"]}
{"id": "C82", "title": "A Phase II node sends to a neighbour directly, to other nodes by a neighbour with intercept service, and tells when it can do neither", "statement": "A packet of a Phase II node for a neighbour goes out on a circuit to that neighbour while one is up; for another node on a circuit whose neighbour is asked for intercept service, if one is up; for a loop node on its circuit, if that is looped back; for the node itself to its own NSP.  If none of that is possible, a connect request comes back to NSP as not delivered, and other packets are dropped.", "quantifier": "every sequence of adjacencies coming up and going down, every destination", "why_tests_cant": "it depends on the history of the adjacencies; tests have one or two circuits that stay up", "anchors": ["pydecnet/decnet/routing.py:Phase2Routing.send", "pydecnet/decnet/routing.py:BaseRouter.adj_up", "pydecnet/decnet/routing.py:BaseRouter.adj_down", "pydecnet/decnet/routing.py:SelfAdj"]}
{"id": "C83", "title": "The talk server shows each message of a dialog, once and in order, on the terminal that the connection names", "statement": "For connect data in one of the two known formats the server opens the terminal that they name, accepts, and writes each message before the end of the dialog to that terminal, in order, without parity bits, on a line of its own that tells the sending node and terminal apart from every other; it writes nothing else and opens no other terminal.  If the terminal cannot be opened or the connect data are too short it does not accept.  Connect data of another format are refused.", "quantifier": "every connect data, every sending node, every sequence of messages on the connection, every set of terminals that can be opened", "why_tests_cant": "the clients are DECnet/8 and DECnet/E systems; the tests have neither those nor terminals", "anchors": ["pydecnet/decnet/applications/lsn.py:main", "pydecnet/decnet/connectors.py:Connection.accept"]}
{"id": "C84", "title": "An event message brings an event to the sink node as it happened", "statement": "An event that is encoded and decoded again has the same sinks, class, code, source node, entity and data, the header being as the network management specification says; its time is shown to the millisecond at which it was made, and later events have later times, as long as the format can hold the time (32768 days from 1977, the year 2066), after which no event can be encoded.  Whatever a node sends to the event listener, the header and entity give an event or a DecodeError and no other exception.", "quantifier": "every class and code, every set of sinks, every time, every source and entity with names in range; every byte string for the listener", "why_tests_cant": "tests decode a few captured events; the split of the time in half days, the bit fields and the entity classes have too many combinations", "anchors": ["pydecnet/decnet/events.py:Event", "pydecnet/decnet/events.py:EventEntityBase", "pydecnet/decnet/nice_coding.py:StringEntityBase", "pydecnet/decnet/nice_coding.py:AreaEntity", "pydecnet/decnet/modules/evl.py:Application.dispatch"]}
{"id": "C85", "title": "The memory log writes what led to an important record, in order, and a packet dump shows the packet", "statement": "The memory log handler gives its target the records in the order in which they were logged and none twice; a record of the flush level or with an exception is written at once, after the most recent records since the last flush, as many as the capacity allows; nothing is written before that; in bypass everything is written.  From a packet dump each line's offset and the bytes of the packet can be read back.", "quantifier": "every capacity and flush level, every sequence of records, flushes and bypasses; every packet", "why_tests_cant": "the tests replace the log; no test looks at what the buffer drops or at the columns of a dump", "anchors": ["pydecnet/decnet/logging.py:DnMemoryHandler", "pydecnet/decnet/logging.py:dump_packet"]}
{"id": "C86", "title": "The colours of the map tell what is up and down", "statement": "A place on the map is green if some of its nodes are up and none is down, yellow if fewer are down than up, red if some are down and not fewer, and gray otherwise; a path likewise for the pairs of nodes that it connects, each with the healthiest of its adjacencies from either end; a path of which all adjacencies are gone is not drawn.  Drawing raises no exception.", "quantifier": "every place with any healths of its nodes, every sequence of adjacencies added to a path", "why_tests_cant": "the map needs a network and weeks of history; no test looks at a drawn map", "anchors": ["pydecnet/decnet/mapper.py:MapLocation.color", "pydecnet/decnet/mapper.py:MapPath.add", "pydecnet/decnet/mapper.py:MapPath.color", "pydecnet/decnet/mapper.py:MapPath.draw"]}
{"id": "C87", "title": "The stand-alone mirrors return what they are sent", "statement": "The sample programs mirror, mirror2 and mirror3 accept a connection with the maximum 65535, answer each data message whose function code is 0 with the same data and status 1, and any other with status 255, in order and on the connection it came from, and exit with 0 when the client disconnects; all three, and the built-in module, give a client the same answers.", "quantifier": "every sequence of items of any number of connections (mirror), every sequence of items of a connection (mirror2, mirror3), all data", "why_tests_cant": "the programs are run only by hand; no test interleaves connections or ends the input", "anchors": ["pydecnet/decnet/applications/mirror.py:main", "pydecnet/decnet/applications/mirror2.py:main", "pydecnet/decnet/applications/mirror3.py:reflect", "pydecnet/decnet/connectors.py:Connection.accept"]}
{"id": "C88", "title": "The pages of the monitor are well formed", "statement": "Whatever is shown, every element of a page of the monitor that is opened is closed, the innermost first; tables show their header and rows in order, each item in its own cell.", "quantifier": "every table, table with details and section, with any number of rows and any contents", "why_tests_cant": "no test looks at the HTML; browsers hide faults of nesting", "anchors": ["pydecnet/decnet/html.py:wraphtml", "pydecnet/decnet/html.py:table", "pydecnet/decnet/html.py:detailrow", "pydecnet/decnet/html.py:section", "pydecnet/decnet/html.py:doc"]}
