# Design: a machine-checked model of smithy-python

The code under study is smithy-lang/smithy-python as found in `/repo`.
Nothing is run: the model is written from the text of the Python sources,
function by function, in Coq 8.16.1, and the properties of `properties.jsonl`
are proved about it.

## 1. Layout

Every area has up to four files in `rocq/theories/`.

* `X_Model.v`: the model. No proofs. Each definition cites the file and lines it models.
* `X_Spec.v`: a small specification, written from the English property, which does not use the model's helpers.
* `X_Proofs.v`: lemmas.
* `X_Props.v`: the property theorems, each closed by `exact`, with `Print Assumptions` and non-vacuity examples.

Shared vocabulary (bytes, text, result type, big-endian integers) is in `Base.v`.

Conventions.

* Exceptions are values: `result A := Ok a | Err e`, `e` naming the Python exception class.
* Bytes and Unicode code points are `N`; text and byte strings are `list N`.
* Python ints are `Z` (or `N`/`nat` when they cannot be negative).
* Mutable objects become records; a method becomes a function returning the new record.
* asyncio code is modelled as a transition system whose atomic step is the code between two awaits.
* External functions (HMAC, SHA-256, clock, random draws, transport, user callbacks) are universally quantified section variables or oracle arguments, never axioms.
* Where the code contradicts the documented property, the faithful model is kept and a `..._refuted` theorem exhibits a witness. The finding is listed in section 4.

## 2. Plan per property

| id | modelled | proof |
|----|----------|-------|
| C01 | event encoder/decoder, all ten header types, CRC-32 bit by bit | decode after encode, induction over headers |
| C02 | repeated decode | induction over the message list |
| C03 | `decode_async` over `AsyncBytesReader` | refinement of chunk reader to byte list |
| C04 | CRC-32 | injectivity of the bit step, lifted to 32-bit windows |
| C05 | limits in both directions | case analysis on the model |
| C06 | duplicate tracking | induction over headers |
| C07 | decode on prefixes | length arguments |
| C08 | publisher as state machine with failing writer | invariant over operation lists |
| C09 | receiver as state machine | invariant over operation lists |
| C10 | signer as transition system with lock | invariant over schedules |
| C11 | quota with lock and unlocked read as atomic steps | invariant over schedules |
| C12 | both strategies and the client loop; the whole pipeline with either strategy (RetryPipeline_Model.v) | induction over outcome lists; for whole calls an invariant of the observed calls gives the tokens granted, and the shape of executions (C16) counts the sends |
| C13 | backoff over rationals | arithmetic |
| C14 | quota accounting over operation histories; the uses a whole call makes of its strategy (RetryPipeline_Model.v) | invariant |
| C15 | `_retry` with oracle strategy and attempts | induction over the run |
| C16 | pipeline with failing stages as a trace-producing program | trace theorem |
| C17 | interceptor chain | refuted in general, true for one effective interceptor |
| C18 | completion hooks | refuted for `modify_before_completion`, proved for `read_after_execution` |
| C19 | `_handle_execution` | refuted |
| C20 | futures in `input_stream`/`duplex_stream` | refuted, partial: terminates once transmit is reached |
| C21 | `Field.as_string`, `split_header` | round trip by induction over values |
| C22 | `Fields` | refinement to an association list |
| C23 | `join_query_params`, `urlquote` | round trip |
| C24 | `PathPattern.format` | segment counting |
| C25 | `set_service_endpoint` | case analysis |
| C26 | `APIKeySigner.sign` | header case proved, query case refuted |
| C27 | user agent | induction over characters |
| C28 | `AsyncBytesReader` | refinement |
| C29 | `SeekableAsyncBytesReader` | refinement to cursor over byte list, with the deviations refuted |
| C30 | `AsyncBytesProvider` transition system | invariant over schedules |
| C31 | same | refuted with a stuck schedule, partial result for one writer |
| C32 | canonical request | permutation invariance |
| C33 | dot segment removal | idempotence and absence of dot segments, deviations refuted |
| C34 | `_parse_content` | parse after render |
| C35 | `standardize`, merge | map laws |
| C36 | resolvers and `resolve` | case analysis per source |
| C37 | `__setattr__` and validators | invariant over assignments |
| C38 | caching resolver | invariant over histories |
| C39 | chained resolver and identity chain | induction over resolver list |
| C40 | ordering of providers | sorted permutation, stability |
| C41 | token cache with lock | invariant over schedules |
| C42 | container resolver | case analysis and induction over attempts |
| C43 | JSON string writer, JSON string grammar | round trip |
| C44 | JSON serializer, JSON grammar parser | round trip by induction on trees |
| C45 | event-based skip | induction on values, refuted for a root document with an empty key |
| C46 | query serializer | round trip and distinctness |
| C47 | error classification | case analysis |
| C48 | `ShapeID` | round trip |
| C49 | `Schema` | map laws |
| C50 | `Document` | refinement, nested mutation refuted |
| C51 | XML event reader | induction on trees |
| C52 | flattened member buffering | induction on event lists |
| C53 | calendar arithmetic | round trip |
| C54 | `split_every` | join law |
| C55 | connection map | invariant over histories |
| C56 | auth resolution, and the two auth resolvers of the library in the pipeline (AuthResolver_Model.v) | induction over options; for the library's resolvers an invariant of the observed calls, which every component of an execution preserves; property routing refuted |
| C57 | duplex close | refuted, partial |
| C58 | `TypedProperties` | refinement |
| C59 | binding matcher and request serializer | exhaustive case analysis per member |
| C60 | header scalar forms | round trip |
| C61 | event decoder on arbitrary bytes | case analysis, refuted |
| C62 | event encoder against a written-out format | equality with an independent encoder, decoding of conforming frames |
| C63 | interceptor chain, reading hooks | refuted, exact behaviour partial |
| C64 | attempt with failing stages | refuted |
| C65 | `Fields.extend` with shared field objects in a heap | invariant over operation histories; refuted for self-merge and sharing |
| C66 | host prefix formatting and `set_service_endpoint` | refuted, formatting proved |
| C67 | `SigV4Signer.sign` as a whole | recomputation of the signature from the signed request |
| C68 | signer's header normalisation and the CRT client's header list | line by line, deviations refuted |
| C69 | environment, profile and chain resolvers with provider discovery | case analysis over sources for every discovery order |
| C70 | unclaimed source report | set equality and order |
| C71 | token fetch | refuted |
| C72 | JSON serializer, text, event parser and deserializer | induction on values of every schema |
| C73 | HTTP date writer and parser on the proleptic calendar | calendar arithmetic |
| C74 | document serializer and deserializer | induction on values of every schema |
| C75 | shared serializer state as an interleaving of two threads | refuted by a schedule |
| C76 | body readers | case analysis on kinds of bodies |
| C77 | body writers of both clients over short-reading sources | invariant over reads |
| C78 | request marshalling of both clients | list equality, deviations refuted |
| C79 | event serializer and deserializer with the receiver of C09 | exact message, then reading back by induction over headers |
| C80 | float arithmetic of timestamp headers | error bounds on correctly rounded quotients and products |
| C81 | event deserializer on arbitrary messages | case analysis |
| C82 | response serializer and deserializer of HTTP bindings | reading back by induction over members, deviations refuted |
| C83 | JSON documents converted to shapes (`documents.py` of core and JSON), against direct reading | a relation of what a JSON value says under a schema; both readers sound and total against it by induction over the JSON value; deviations refuted |
| C84 | the patterns of `rfc3986.py` as regular expressions (with `$` before a newline), `URI.__post_init__`, `host_type` | derivatives decide the language; the nine IPv6 variations shown equal to a grammar of groups; refuted for newlines and lax numbers |
| C85 | `URI.netloc`, `URI.build`, CPython's `urlunsplit` | parts of appendix B computed from the text; uniqueness of the authority; injectivity follows |
| C86 | `resolve_static_uri`, both endpoint resolvers, CPython's `urlparse` | appendix B inverted; lower case keeps hosts; an address has a colon before any dot, so a region cannot make one |
| C87 | `_io.py` of the signers (SignIO_Model.v), over the readers of Streams_Model | refinement to an in-memory file, for scripts before and after a hashing pass; least number of chunks by induction |
| C88 | a read cancelled at any chunk, in both packages (SignIO_Model.v) | exact characterisation of when it can happen and what is left; refuted |
| C89 | the canonical request, string to sign and signature of Sign_Model.v | injectivity of the text formats, from the header back to the request; collisions of the hash functions are hypotheses about the two texts at hand |
| C90 | `imds.py`: configuration, metadata client, credentials resolver, one caller at a time (Imds_Model.v) | every call described by a grammar of requests and answers; invariant over histories for the age of tokens |
| C91 | requests, header collections, fields and bodies as objects in a store; `deepcopy` of both request classes; the shallow copy of `_retry` (Attempt_Model.v) | simulation of the record model of signing with a frame; frame over lists of actions; refuted for header changes in place |
| C92 | `RetryStrategyResolver` with its class-wide `lru_cache` of 128 entries as a list, newest first (RetryResolver_Model.v) | invariant (distinct keys, every strategy belongs to one key); the keys before an entry are among those asked for since |
| C93 | `SigV4AuthScheme.event_signer` and `create_event_publisher` on the output of the signer of C32, the publisher of C10 (EventSeed_Model.v) | the last part after a non-overlapping split at a text that does not overlap itself; composition with C10_wire |
| C94 | the loops with which both clients turn header lines into fields, their bodies, `_buffer_async_body` and `deserialize_response` before the deserializer of C82 (ResponseWire_Model.v) | the fields are those of C22_tuples, whose values by name are the lines of that name; reading looks only at names that are asked for; composition with C82_back |
| C95 | `AwsQueryClientProtocol.deserialize_response` with its wrapper elements, on the clients of C94, the XML reader of C51, the errors of C47 and the response reader of C82 (QueryResponse_Model.v); ElementTree is a pair of functions that agree on a document | composition: the events of a document with wrappers, its tree without attributes, and a reader that never looks past the result |
| C96 | the serializer of C59, `set_service_endpoint` of C25 and the two clients of C77 and C78 one after the other (RequestWire_Model.v); yarl and the CRT get what the model says | composition: the joined path and query in closed form, then what a service reads by splitting the target and by looking header lines up |
| C97 | the 37 trait classes of `traits.py` in smithy-core and smithy-aws-core with their identifiers, constructors and properties, `Trait.new` and the registry, `Schema.get_trait`, the members `APIOperation` looks up (Traits_Model.v); assertions on | constructors and properties related to a declarative reading of the values; refuted for two constructors and three identifiers |
| C98 | `parse_rest_json_error_info` (RestJsonInfo_Model.v); the JSON parser and `str.lower` are variables | the two searches proved apart and related to a declarative reading; refuted for number signs in URIs and bodies that are no objects |
| C99 | `UnknownEnumMixin` with the parts of Python's `enum` that call it (UnknownEnum_Model.v): worlds of objects known by identity | an invariant of all reachable worlds; refuted for enumerations without values, other subclasses of str and int, placeholders of other enumerations and pickled placeholders |
| C100 | the whole pipeline again (Cancel_Model.v), with an arbitrary function that may interrupt any callee | a simulation with the pipeline of Client_Model.v, for any preorder on worlds that the callees follow; refuted for the closing hooks and the retry quota |
| C101 | `b64encode` and `b64decode` as CPython has them (Base64_Model.v) and where the codecs call them | base64 is specified as digits of numbers (Base64_Spec.v); uniqueness of the text; an invariant of the decoding loop gives exactly the texts that are read; refuted for what else is read |
| C102 | the tasks and futures of `input_stream` and `await_output`, with asyncio's rules for awaiting and cancelling (StreamCall_Model.v); schedules are lists of labels | an invariant of all schedules; refuted for cancellations and for calls that fail before transmission |
| C103 | the encoders of Utf8_Model.v, PyText_Model.v, EventIO_Model.v and PySort_Model.v, and the query and path writers that use them | equivalence with relations written from RFC 3629, RFC 3986 and RFC 4648 (Encode_Spec.v) |
| C104 | the signers of Sign_Model.v; nothing new is modelled | the rules of Signature Version 4 as a relation on the received message (SigRules_Spec.v), shown to be a function, and to hold of what `sign` returns |
| C105 | the calls to the JSON serializer one by one, `InterceptingSerializer` and the inherited methods of `ShapeSerializer` (JsonCalls_Model.v) | a scanner that counts open brackets: what the RFC 8259 reader consumes is balanced, what a failed write leaves is not; induction on the calls |
| C106 | the output task of `duplex_stream`, `await_output` and `close` of `DuplexEventStream`, on top of the model of C102 (DuplexCall_Model.v) | a history of the duplex model is one of the model of C102 in which the output task is waiter 0; an invariant of all schedules; refuted for closing and cancellations |
| C107 | `JsonString`, `JsonBlob` and the defaults of CPython's `json.dumps` (JsonLazy_Model.v); `json.loads` is the RFC 8259 reader of Json_Spec.v, without the words NaN and Infinity | the escapes of any string are read back, induction on values; an invariant of the cache; refuted for values that are changed |
| C108 | the `__eq__` methods of `Field`, `Fields`, `URI`, `ShapeID`, `EventMessage` and `Document`, with the equality of CPython's lists, dicts, OrderedDicts and numbers (Equality_Model.v); floats and Decimals are compared by any function | each comparison is characterised by the parts of the objects, messages through the round trip of C01, documents by induction on values against `alike` (Equality_Spec.v); refuted for names in different case, foreign objects, messages that cannot be encoded, numbers of different types and stale documents |
| C109 | trees of identity resolvers: `ChainedIdentityResolver`, `IdentityChain`, subclasses of `CachingIdentityResolver`, the IMDS, container, static and environment resolvers, `get_identity` and `invalidate` called one after the other, with any answers of the sources at any time (ResolverTree_Model.v) | induction on trees: an invalidated tree is as good as new, and a new tree behaves as the list of its sources (`first`, ResolverTree_Spec.v); an invariant of what is kept over histories; refuted for environment variables and for resolvers whose `invalidate` raises |
| C110 | `MockHTTPClient`: `add_response`, `send`, `captured_requests`, `call_count`, with the objects shared between the test, the client and the mock (MockClient_Model.v), and the pipeline of aio/client.py with this transport (MockPipeline_Model.v) | the queue after any history is what was queued without what was given; the spec reads the responses, the requests and the contents of lists off the history (MockClient_Spec.v); for a whole call an invariant that every component preserves (MockPipeline_Proofs.v); refuted for headers changed after sending or queueing |
| C111 | the same trees as C109 as a machine: every task has a stack of chains that wait for one of their resolvers, and what each resolver keeps is shared (ResolverTasks_Model.v) | four invariants over all schedules, of the results of a call, of its questions, of when identities were answered and of the places at which they are kept; a measure for termination; the specification reads the log only (ResolverTasks_Spec.v); an invalidation place by place is proved the same as one at once (C111_walk); refuted for invalidations during a call, and for calls during an invalidation that suspends |

## 3. Trusted base

### What has to be trusted

1. Coq 8.16.1's kernel (and `coqchk`, which accepts the compiled files).
2. What `Print Assumptions` lists. Every theorem named in `MANIFEST.json` is followed by
   `Print Assumptions` in its `*_Props.v` file, and for each of them the answer is
   "Closed under the global context": no axiom at all is used, neither the standard library's
   nor any other. `vcheck` reports seven library axioms in the loaded environment, the fields of
   `Coq.ssr.ssrunder.Under_rel` (a module type of the standard library that comes with `Require Import`
   of the ssreflect support behind `lia`); no theorem depends on them.
3. That the definitions of the `*_Model.v` files say what the cited lines of `/repo` do. This is
   a reading, not a proof: no Python was run. Section 3.3 lists where the model simplifies.
4. That the statements in `*_Props.v`, with the definitions of `*_Spec.v`, say what the English
   property says.

No functors, module types, sections left open, axioms, plugins or disabled checks are used. Only the
standard library is imported (Lists, ZArith, NArith, QArith, Lia, Lqa, Permutation, Sorting, Decimal, Strings for literals).

### 3.1 What is modelled

| package | modelled |
|---------|----------|
| smithy-core | `retries.py`, `aio/client.py`, `interceptors.py` (chain), `aio/types.py` (readers, provider), `aio/eventstream.py` (closing), `aio/utils.py` (bodies), `aio/identity.py`, `identity.py`, `documents.py`, `schemas.py`, `shapes.py`, `types.py` (timestamps, path patterns, typed properties, enumerations with unknown values), `utils.py`, `rfc3986.py` and `endpoints` as far as requests use them |
| smithy-http | `__init__.py` (fields), `utils.py`, `serializers.py`, `deserializers.py`, `bindings.py`, `aio/protocols.py`, `aio/crt.py`, `aio/aiohttp.py`, `aio/auth/apikey.py`, `user_agent.py`, `plugins.py` (user agent) |
| smithy-json | serializer, deserializer, string writer, grammar |
| smithy-xml | deserializer |
| smithy-aws-core | config file parser and merge, config resolution and validators, `identity/*` (environment, static, chain, container, IMDS, ordering), query protocol and its errors, restJson1 errors, user agent |
| smithy-aws-event-stream | `events.py`, `aio/__init__.py`, `_private/*` |
| aws-sdk-signers | `signers.py` (both signers, event signer), `_io.py` |
| codegen | only what the generated structures and unions do when they are serialized or read |

### 3.2 What is not modelled

The Java code generator, CBOR (not in this repository), MQTT and the CRT itself, aiohttp's and yarl's own
encoding, TLS, DNS, the asyncio event loop beyond the order of steps between awaits, logging, the
`URI.build` of `aws-sdk-signers`,
waiters, test helpers other than `MockHTTPClient`, entry point discovery (its result is an arbitrary list).
SHA-256, HMAC, Unicode case mapping, JSON and XML tokenizers, ipaddress and the file system (and urlparse, except for C85 and C86) are
inputs of the model: universally quantified functions, with the hypotheses a theorem needs stated in it.

### 3.3 Simplifications

Each is repeated in a comment at the definition.

* Client: construction of the identity resolver is part of one oracle; the background send when `set_result`
  fails is in StreamCall_Model.v only; cancellation (BaseException) is in Cancel_Model.v only; changes of the world during sleep are part of the
  arbitrary behaviour of the next attempt.
* Fields: `Field.set` takes a list nobody else holds; reassigning `Field.name` is not modelled.
* Path patterns with format conversions or attribute access are not modelled; posix `os.path.join`.
* Provider: the condition's lock is never contended between awaits; schedules are arbitrary, with spurious
  wake-ups and cancellations.
* Signers: the kind of a field, the isinstance check of the identity and warnings are left out.
* Configuration: key lookups are for ASCII keys; `os.environ` does not change during `resolve`; path
  expansion and `int()` are inputs; default factories are represented by their value.
* Identity: answers of resolvers are arbitrary events; properties of the set-up are not kept.
* Token cache: `asyncio.Lock` of CPython 3.12, with cancelled waiters; the clock is arbitrary.
* JSON: the 4300 digit limit of int conversions and the exponent range of decimal contexts are left out;
  signalling NaN is excluded; a finite float is identified with its shortest decimal.
* Schemas: the caller's trait dictionary is taken over, trait classes are identified by id.
* Time: CPython 3.12's datetime and email.utils; basic and week ISO forms and HTTP dates that are not
  IMF-fixdates are not modelled (the model raises NotImplementedErr, which no theorem counts as success).
* Header values: digits of other scripts, NaN payloads and decimal exponent limits are left out; the
  float functions are inputs with stated hypotheses.
* HTTP bindings: the codec is an input; calls to the payload serializer are replayed after the other
  members; nulls inside lists of query maps are left out.
* Documents: a tree that owns its children (no aliasing); slices, tuples, streams are left out.
* Query protocol: streams are left out. Errors: the parsed body is an input; header names are lower case.
* XML: the tokenizer is an event list; the name cache and error correction are left out.
* Connections: making the CRT request is a separate step; a connection may already be closed when the
  waiting call resumes.
* Bodies: reads of readers never raise, and return nothing only at the end.
* Events: the payload codec is an input; header writes come before payload writes; timestamps are whole
  milliseconds (C80 is about the conversion, for aware datetimes).

## 4. Findings

Places where the code does not do what the property says. Each "refuted" theorem exhibits it in the model;
the others were found while reading for the model.

### Event streams
* A frame whose header length exceeds its body, and a byte-array value cut by the end of the headers, are accepted (C61_*_refuted).
* A change of four bytes of which two belong to the final checksum can go unnoticed (C04_boundary_refuted; a limit of the format).
* `send` of an event that serializes to nothing sends the previous event again; a send that runs while `close` fails writes after the transport was closed; an exception of the end frame replaces the caller's (C08).
* An envelope too large to send still advances the signature chain (C10).
* An empty string or blob payload comes back as not set (C79_empty_payload_refuted, `_private/deserializers.py` 99).
* An unknown exception type or a missing type header raises KeyError (C81_*_refuted, `_private/deserializers.py` 47, 59, 60).
* Milliseconds are truncated after a float multiplication, so that whole milliseconds after 2038-01-19T03:14:08Z may lose one; naive datetimes are written in the local zone although they mean UTC elsewhere (C80, `events.py` 535).
* Closing a duplex stream whose output failed, or has not arrived, closes nothing (C57_refuted).

### Retries and the request pipeline
* `RetryStrategyResolver` caches with `lru_cache` on a method: one cache of 128 strategies for all clients, so with more than 128 clients in use a client's calls get new strategies with full quotas, and the retry quota limits nothing (C92_shared_refuted, `aio/retries.py` 47). `max_attempts=None` and an explicit 3 give two strategies.
* `max_attempts=0` still makes one attempt (C12_zero_attempts_refuted); exponents beyond 1024 raise OverflowError (C13_every_attempt_refuted); the decorrelated formula is not the documented one (C13_decorrelated_doc_refuted).
* An attempt gets a shallow copy of the request: headers an interceptor or the API key signer sets in it are still there in the next attempt (C91_headers_refuted).
* A body that cannot seek is sent again from where the failed attempt left it; one not at its start is retried from the start (C15_body_refuted).
* Modifying hooks do not compose: each interceptor is asked about the original value (C17_refuted). The chain's `modify_before_completion` calls `modify_before_attempt_completion` (C18). The first exception of a reading hook ends it for the others (C63_refuted).
* The pipeline serializes the input as given, not as modified by `modify_before_serialization`, and resolves the endpoint for it (C19_refuted, `aio/client.py` 284, 390).
* A failure before transmission leaves the caller of a streaming operation waiting for ever (C20_refuted).
* The signer gets the option's identity properties as signer properties (C56_signer_properties_refuted, `aio/client.py` 435).
* Completion hooks get no transport response after a later failure (C64_refuted).

### HTTP
* A single header value holding a comma is written bare and read as two (C21). A leading empty query parameter disappears (C23). An empty last label adds a segment; a label of `..` is written as it is (C24).
* The API key signer replaces the path by the password and does not percent-encode the key (C26, `apikey.py` 69). The user agent suffix is raw (C27_suffix_refuted).
* Merging a collection with itself never ends; merged collections share fields (C65). The host prefix is lost when the endpoint is set, endpoint headers are never used (C66).
* `_seek` returns None, so an unsized stream with `requiresLength` always raises; a member bound to Content-Type or Content-Length is sent next to the computed one; `hostLabel` with another binding raises KeyError; query map entries do not give way to `httpQuery` members; a response ENUM payload is written through the codec and read raw; empty header lists are lost (C59).
* Blobs cannot be headers; decimals are rounded to 28 digits (C60).
* The keys of a map of headers by prefix are spelled as the names arrive, so a proxy or HTTP/2, which fold names, changes the output (C94_prefix_refuted, `deserializers.py` prefix headers).
* awsQuery reads the result and the error only if they are the first element of the response: `ResponseMetadata` or `RequestId` before them makes the call fail with XMLParseError, although the error's code, which is looked for by name, has been found (C95_order_refuted, C95_error_order_refuted, `deserializers.py` 92-97). A successful response with a nonzero Content-Length and no body raises the parser's exception (C95_lost_refuted).
* A stream of an input that can be iterated again from its start is wrapped in a reader that starts it again for every read, so that the request never ends, over HTTP/2 too (C96_restarting_refuted, `serializers.py` 130). The CRT client sends user and password of an endpoint in the Host header (C96_user_refuted, `crt.py` 293-296). A query member whose value is empty is lost through aiohttp (C96_blank_refuted, `aiohttp.py` 108).
* `parse_rest_json_error_info` splits a code at the number sign before the colon: of `FooError:http://h/#x` it takes `x`, where the protocol says FooError (C98_uri_refuted, `aio/restjson.py` 56-58). A body that is JSON but no object, and a body with broken UTF-8, raise AttributeError and UnicodeDecodeError although the code is in the header (C98_body_refuted, lines 36-46).
* `UnknownEnumMixin.__eq__` is not asked when an instance of another subclass of `str` or `int` stands on the left: `JsonString("") == placeholder` is true and `placeholder == JsonString("")` false (C99_subclass_refuted, `types.py` 109-112). A pickled placeholder comes back as an ordinary unknown value, or as the declared member of its value (C99_unpickled_refuted). An enumeration without members raises TypeError for every value (C99_empty_refuted). A placeholder given to another enumeration becomes unknown there although its value is declared (C99_other_enum_refuted).
* A cancelled call runs neither `read_after_attempt` nor `read_after_execution`, which are documented as always called (C100_hooks_refuted, `aio/client.py` 525, 314 and 562-591 catch Exception only), and does not give back the retry quota its token holds (C100_quota_refuted).
* Texts that are not base64 are read as blobs, because `b64decode` is called without `validate=True` (JSON `_private/deserializers.py` 119 and `_private/documents.py` 42, XML `_private/deserializers.py` 116, HTTP `deserializers.py` 201): `"aGk=bG8="` is read as `hi`, and characters outside the alphabet are skipped (C101_tail_refuted, C101_junk_refuted).
* Cancelling a task in `await_output` (for example by a timeout around it) cancels the whole call for everybody, because the task is awaited without `shield` (C102_apart_refuted, `aio/eventstream.py` 173).
* Cancelling the caller of `input_stream` before the request is sent does not stop the call: the request is still given to the transport, `set_result` then raises InvalidStateError, and nobody waits for or cancels the transport task (C102_given_up_refuted, `aio/client.py` 131-135 and 466-470).
* With `uri_encode_path=False`, which Amazon S3 needs, the signers still remove dot segments from the path (`signers.py` 311-312), while the published rules sign an S3 path as it is: an object key with a `.` or `..` segment is signed as another key (C104_unencoded_refuted).
* `ShapeSerializer.write_data_stream` lacks a return: bytes are written in full as a blob and UnsupportedStreamError is raised all the same (C105_stream_refuted, core `serializers.py` 218-220).
* `DuplexEventStream.close` awaits the output before it closes the input stream (core `aio/eventstream.py` 108-112): with a service that answers only when its input has ended it waits for ever, and after a failed call it raises and never closes the input stream (C106_close_waits_refuted, C106_close_failed_refuted).
* Tasks that await a duplex output share one task, so cancelling one of them cancels all; cancelled before that task first runs, it leaves the call running with nobody to stop it (C106_apart_refuted, C106_given_up_refuted, core `aio/client.py` 210-240).
* `JsonString.as_json` caches the object it returns, and `from_json` the one it is given, but tests the cache for truth (core `types.py` 40-43, 45-49): a change to a returned list or dict is seen by later callers while the text stays, unless it empties it, and the value of an empty or zero one is parsed at every call (C107_shared_refuted). `from_json(float("nan"))` is not JSON (C107_nan_refuted).
* `Field.__eq__` compares names as they are written (`smithy_http/__init__.py` 85-89, signers `_http.py` 97-101) although the class says that case variance must be treated as equivalent (C108_case_refuted). `ShapeID.__eq__` compares its text with `str(other)` (`shapes.py` 81), so it equals foreign objects that hash differently (C108_object_refuted). `EventMessage.__eq__` encodes both headers before it looks at anything (`events.py` 220-226), so comparing a message with a header that cannot be encoded raises, even with itself (C108_raises_refuted). `Document(True) == Document(1)` (`documents.py` 424, C108_kind_refuted), and a document changed below its top level equals what it was before (C108_stale_refuted).
* `EnvironmentCredentialsResolver` keeps `_credentials` (`environment.py` 11-42) and inherits the `invalidate` that does nothing (`aio/interfaces/identity.py` 22-27), although that method promises that the next resolution re-reads its source (it may do nothing for what cannot be refreshed, but the environment can change): neither an invalidation nor a change of the environment has any effect once it has answered, also inside a chain (C109_environment_refuted). A chain stops invalidating at the first resolver that raises, and the later ones keep their identities (C109_raises_refuted).
* `MockHTTPClient.send` records `copy(request)` (`mockhttp.py` 71), which shares the headers: what `captured_requests` shows changes with the headers of the request that was sent (C110_shared_refuted). `add_response` keeps the caller's list of headers unless it is empty (`mockhttp.py` 53), so changing the list before the response is given changes the response (C110_queued_refuted).
* An invalidation during a call has no effect: `CachingIdentityResolver.get_identity` (`aio/identity.py` 23), `IMDSCredentialsResolver` and `ContainerCredentialsResolver` store what they were given after the await, so what was asked for before `invalidate()` is kept and returned to later calls (C111_in_flight_refuted, C38_stale_refuted).
* An invalidation that suspends half-way can be undone: `ChainedIdentityResolver.invalidate` (`aio/identity.py` 64-68) forgets its own identity first and its resolvers' afterwards. No resolver of the library suspends there, but if somebody's own does, a call in between is given what the later resolvers still keep, and the chain keeps it beyond the end of the invalidation (C111_partway_refuted). In the opposite order it would not.
* A header list of one text with a comma comes back as two texts, an empty one as unset; an enumeration payload comes back with the codec's quotes; an empty header prefix also collects the headers of other members; reading fails on an unset document payload when the codec refuses the empty text (C82_*_refuted, `serializers.py` 310, `deserializers.py` 108-153, 238-260).
* A list header sent in two lines is not split at commas: the lines `a, b` and `c` give two elements, where one line `a, b, c` gives three (C82_lines_refuted, `deserializers.py` 224-235).
* Converting a JSON document to a shape ignores `jsonName` and `timestampFormat`: a member sent under its `jsonName` is silently lost, a timestamp in another format raises (C83_name_refuted, C83_format_refuted). It also raises on null members, on integers for floats and decimals, and on `"Infinity"`, `"-Infinity"` and `"NaN"`, which direct reading accepts (C83_null_refuted, C83_integer_refuted, C83_infinity_refuted; `smithy_json/_private/documents.py`, `smithy_core/documents.py`). A structure without members converts from any document. Direct reading accepts `true` and `false` for numbers. Assigning into a JSON document makes plain `Document` children (`smithy_core/documents.py` 373-398), which are no longer read the JSON way (read, not modelled).
* Error responses without a code in a JSON body, codes starting with `#` and query codes raise parse errors instead of a service error; "reason" shows the status (C47_*_refuted, `aio/protocols.py` 242).
* An HTTP/1.1 request with an asynchronous body may go to a connection closed meanwhile (C55_body_refuted); two concurrent calls each connect, and one connection is dropped without being closed.
* `consume_body_async` of a synchronous reader raises TypeError; `consume_body` of an asynchronous one returns a coroutine (C76). A re-iterable body is sent without end by aiohttp (C77_restarting_refuted).
* The host filled in by the CRT client stays for retries to other endpoints; aiohttp drops blank query parameters (C78).
* A host with a newline at its end is accepted, and the newline reaches the authority and the Host header (C84_newline_refuted, `rfc3986.py` 111: `$` matches before it). `::999.0.0.1` and zones after a bare `%` are accepted, `[V1.a]` is refused (C84_lax_refuted).
* User and password of a URI are not checked: the user `evil.com/` makes the text of a URI for another host (C85_user_refuted). Without a host, a path `//evil.com/x` becomes the authority (C85_path_refuted).
* Of an endpoint given as text, `;parameters` of the last segment and the user are dropped silently; a bad port raises ValueError, a bad host SmithyError (C86_*_refuted, `endpoints.py` 79-91).

### Readers and providers
* `AsyncBytesReader` restarts a re-iterable source on every read (C28). Relative seeks below zero and short-reading sources lose data (C29).
* The asynchronous signer takes an `X-Amz-Content-SHA256` header that is already there as the payload line without looking at the body, so that the signature does not cover the body (C89_preset_digest_refuted); the synchronous one computes it.
* The instance metadata client does not look at the status of answers: the body of an error page becomes the token, the profile in the next path, or the credentials (C90_status_refuted). The age of a token is measured with the local clock, which moves when daylight saving time ends. An expiration with an offset is read as if it were UTC (C90_offset_refuted, as C42_offset_refuted). Of a given endpoint only scheme, host and port are used.
* The signers' `AsyncBytesReader` waits for a chunk it does not need, and does not await a coroutine `close` (C87). A cancelled read loses the chunks it had collected, and moves a seekable reader to the end of its buffer (C88).
* `AsyncBytesProvider`: two blocked writers lose a wake-up, a completed flush does not wake writers, a blocked writer takes the wake-up of a flush, a cancelled flush leaves the provider flushing; `close` flushes by default though documented otherwise (C31).

### Signing

* `HTTPRequest` has no `__deepcopy__`, and the SigV4 signer deep-copies it with its body: a body read from a file or a generator raises TypeError (C91_uncopyable_refuted).
* `/../` becomes the empty path, `/..//b` becomes `/b` (C33). A body that can be read once is drained from the caller's request (C32). Preset date and token headers are kept though others are signed (C67). A default port in the destination is signed without and sent with; list values with commas are signed quoted and sent bare (C68).

### Configuration and identity
* Lines are split at form feeds, NEL and similar inside values; `key = # x` keeps the comment as value (C34). Two spellings of one profile in one file: the earlier may win (C35). The region pattern accepts a trailing newline (C37).
* An identity fetched while the cache is invalidated is cached afterwards (C38_stale_refuted). Offsets of expirations are ignored, credentials without expiration are fetched each time, a document that is no object stops the chain, the query of the full URI is dropped, 4xx are retried and a sleep follows the last attempt (C42). The token's status is never looked at (C71). Metadata and profile sources are never reported as present (C70).

### Schemas, documents, JSON, XML, query, time
* `expect_trait` does not convert (C49). `DefaultTrait`'s id is misspelt ("smithy.appi#default", `traits.py` 96).
* `IdempotencyTokenTrait` and `UnitTypeTrait` are declared under names Smithy does not have (`traits.py` 206 and 164): what is generated for idempotencyToken stays a dynamic trait, and `APIOperation.idempotency_token_member` is always None (C97_names_refuted, C97_token_refuted).
* `RestJson1Trait` and `AwsQueryTrait` fail with AssertionError when made from a dynamic trait: the first looks at its argument instead of the value it stored, the second has the constructor `dataclass` writes (C97_dynamic_refuted, smithy-aws-core `traits.py` 29 and 49).
* The `__post_init__` of the trait classes is never called, since they are declared with `init=False`: a header trait without a name is taken (C97_undeclared_refuted). The one of `EndpointTrait` would refuse the values Smithy gives it.
* Changes inside nested documents are invisible to `as_value` and equality (C50_nested_refuted); union items get the union's schema (C50_union_refuted); a null container in a sparse map cannot be converted (C74_null_refuted); shared serializer state mixes threads (C75_threads_refuted).
* NaN is written bare; decimals are rounded to 28 digits; infinite decimals are written as strings that are not read; skipping a root document ends early at an object member with an empty name; integers accept booleans; null documents are dropped from non-sparse collections (C44, C45, C72).
* Flattened lists of structures are refused (C52_structures_refuted). Query parameter names can clash with Action and Version (C46).
* Years below 1000 are written unpadded on Linux and not read back; epoch floats lose microseconds beyond 2^33 s; the last microsecond of 9999 is not read (C53). HTTP dates of years below 100 are misread (C73). `split_every` with a negative count returns nothing (C54). `popitem` of typed properties takes the first item (C58).
