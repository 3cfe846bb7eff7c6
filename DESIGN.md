# Formal model of two-hundred/celerity in Rocq (Coq 8.16.1)

## Approach

The repository holds a Go CLI (`apps/cli`) and a Rust runtime (`libs/runtime/*`).
Each component becomes a small family of files in `rocq/theories`:

* `XModel.v`  – executable Gallina model, one definition per function of the code,
  each with a comment citing file and lines; no proofs.
* `XSpec.v`   – the property vocabulary, written without using the model's helpers.
* `XProofs.v` – lemmas.
* `XProps.v`  – only `Theorem … exact lemma. Qed.`, non-vacuity `Example`s and
  `Print Assumptions`.

Conventions of the model

* A Rust `panic!`/index out of bounds/`expect` failure is an explicit `Panic`
  outcome, never a default value. Errors are explicit values.
* Concurrent code is a step machine; theorems quantify over every list of steps
  (schedule, history, crash point).
* External behaviour (handlers, clock, persistence, HMAC, JSON path engine, random
  numbers, the queue service) is a function parameter or an oracle that theorems
  quantify over. No axioms.
* Unbounded recursion of the code (workflow runs, the retry loop) becomes a run of a
  step machine of any length.
* Where the claimed property is false of the faithful model, a theorem named
  `…_refuted` gives a witness, and the part that is true is proved beside it.

## Plan per property

| Property | Modelled | Proof |
|---|---|---|
| C01–C03 | `config.Provider` with its four maps (nil-able defaults), Go's `TrimSpace`, `strconv.ParseInt/ParseUint/ParseBool` | refinement of `GetString` to "first source that supplies a value"; exact characterisation of the typed getters against a positional-value spec and a print/read round trip; C03 refuted |
| C04 | validators as functions on strings | exact acceptance sets |
| C05 | the select loop as a nondeterministic step relation | invariant over all schedules; exit status characterised |
| C06 | Bubble Tea update functions as a step function over messages | invariant over all message lists; the "finishes when stream closes" half refuted |
| C07–C08 | queue + processing map + waiters, step machine | invariants/refinement over all histories; FIFO and at-most-once |
| C09 | loop over the batch with a send oracle | induction on the batch |
| C10–C12 | map + order vector | refinement to a history-indexed spec; C12 refuted |
| C13–C16, C18–C20, C58, C59 | the state machine as threads advancing by atomic steps, with the mutex, and with handlers, persistence, template engine and clock as answers of the environment; log of save/broadcast/handler effects | invariant over all schedules; a phase invariant for chains; C19 lists every reason for which an execution ends without a completion or crashes; C15 refuted by "n further calls for every n"; C14, C16, C18–C20 partly refuted; C18 by an invariant on what a branch has done (a handler call is the last of it); the text beside the status by an invariant on the execution and on those put aside to be saved |
| C17 | the delay computation over IEEE 754 doubles (Flocq) | rounding and monotonicity lemmas; partly refuted |
| C57 | runtime configuration endpoint | exact characterisation |
| C60 | wait time derivation | exact; JSON path variants refuted |
| C21, C27, C68 | scanner and recursive-descent parser | print/parse round trip by induction on the written grammar; scanner invariants; termination by a measure on the remaining characters; C21 and C68 partly refuted |
| C22, C69 | renderer over JSON trees with the modelled functions and an abstract path engine | structural induction against a relational specification; exact crash conditions |
| C23–C25 | template functions on JSON values (doubles as `spec_float`, related to reals with Flocq) | algebraic laws; refutations of panics |
| C26 | `jsonpath_inject_root` | case analysis |
| C28–C30, C70 | the polling task and its heartbeat tasks as a transition system over all interleavings (`Sqs*.v`); requests and answers are events, batches carry ghost numbers | invariants by induction over executions, a rank for the distance to the next poll, a credit argument for late extensions; counterexample executions for the refuted parts |
| C31–C33, C61 | ack worker as a step machine with explicit time; the main loop, the periodic checker and each waiter interleave freely; log of records, decisions, hand-overs and answers | the map is proved to be a function of the log; then induction over histories; C33 refuted, C32 and C61 partly refuted |
| C34–C36, C62 | any number of nodes; per node: registry, ack worker (Ack model), retry consumer, listener, outgoing, subscription and incoming queues; every await is a step; Redis hands every published message to every subscription in order | transition relation, per-node invariants over histories, conservation of messages across the bus, counting for delivery, a weight that every bus step decreases; misdelivery by retries and success without delivery refuted |
| C37–C41 | string-level model of create/verify with an abstract MAC | round trip, soundness, exact freshness window, the exact requests accepted and those that crash the verifier, base64 against a bit-level definition; C40, C41 refuted with the exact true part |
| C42–C44, C71–C73 | frame processing on byte lists; all sessions, their handlers, the registry and all sends of a node as one transition system, with the fair lock of each socket as a queue (`Ws*.v`) | exact dispatch; invariants by induction over executions; position in the lock's queue for delivery; stuckness as an invariant for the refuted parts |
| C45–C50, C74–C78 | `transform_config`, `select_resources` and the setup of the server on blueprint records; hash maps are lists in iteration order (`Api*.v`) | exact characterisation of what is collected, when setup fails and how paths are converted; independence of order up to permutation; C75 composes setup with the session model of C43; C45, C46, C50, C74, C75, C77, C78 and part of C76 refuted |
| C79–C84 | as C05, C06 (`Cli*.v`); the client's options | invariants over all runs; refutations as invariants or as constructed runs |
| C85–C88 | `from_env` on any environment (`Env*.v`) | equivalence with a field-by-field specification |
| C89–C91 | registration, routing and the life of an application (`Route*.v`) | induction over registrations; invariants over histories of setups, registrations, runs and shutdowns |
| C92–C97 | what the Node and Python SDKs and the C interface do with requests and responses (`Sdk*.v`) | characterisations by small specifications; invariants over interleavings of the Python worker; induction over operations on a response |
| C98 | X-Ray trace ids (`Xray*.v`) | induction over hexadecimal digits |
| C99–C103 | the workflow application's API, executions and streams (`WfApp*.v`) | invariants over histories of requests, saves, events and reads |
| C104–C108 | reading a workflow from YAML (`WfYaml*.v`) | a declarative relation between documents and definitions, equivalence by induction on documents |
| C109–C111 | resolving the references of a workflow (`WfResolve*.v`) | a declarative relation between definitions and resolved workflows, equivalence by induction on the nesting of branches |
| C112–C115 | The readers of every resource spec, of metadata, link selectors, variables and blueprint metadata over YAML trees. | Each reader is shown to accept exactly the documents a field-by-field relation describes, by a fold invariant per field; the relation is over the set of entries, so key order cannot matter. Loss, references and required fields follow or are refuted for arbitrary documents. |
| C116–C119 | Resolving the specs of all ten resource types, resource metadata and blueprint metadata (`SpecResolve*`). | Exactness against relations written per field; the names of the choices; refutations for typed route keys and unchecked guards. |
| C120–C122 | A whole YAML blueprint, from the document to the resolved blueprint (`Load*`, the generic model of `Blueprint*` with the readers and resolvers in place). | A generic lemma for loops that set fields, composed with C112 and C116; refutations of C121 and C122 by equal loads. |
| C123–C126 | Reading specs, metadata, selectors and variables from JSON (`SpecJson*`): the derived serde readers as combinators over a JSON tree. | `okis` (no panic, and success exactly on the relation) composed through each combinator; refutations by general families of documents. |
| C127–C128 | A whole JSON blueprint, from the tree to the resolved and validated blueprint (`LoadJson*`). | An invariant over the prefix of members read so far (what is given, given last, comes first), composed with C123 and C116; refutation of C128 by equal loads. |
| C129–C131 | The command line: finding the command, reading its flags, the settings in force (`Cmd*`). | The reader of arguments is proved equal to a grammar of option forms (both directions, induction on the arguments); C130 and C131 by equalities of outcomes for all command lines. |
| C132–C133 | The dialogues about the language and the blueprint, with the widgets as parameters (`Tui*`). | Invariants over all sequences of messages (the widgets' states as functions of the history); refutations by equal runs. |
| C134 | Failures that are neither retried nor caught, and failing saves, in the state machine already modelled (`StateMachineFail*`). | From any reachable situation, the thread's steps are composed into one run whose effects are listed in full; the record of a final error is one lemma used by all cases. |
| C135 | The view of a loaded blueprint that the setup model starts from, the choice of the file format, and the composition of loading and setup with any iteration order of the maps (`Setup*`). | Every resource of the view is related to its declaration by facts about membership only, which survive reordering; the theorems about setup (C46 to C50, C74, C77) are then carried over to the document. |
| C136 | Nothing new: `Sig*`; the reasons are a separate inductive definition (`SigWhySpec`). | Both directions by cases along the verification; every rule states all that is in order before the fault, so the rules exclude each other. |
| C137 | Nothing new: `Payload*`; the numbered draws are a separate inductive definition (`PayloadDrawSpec`). | Equivalence of the renderer with the relation, by induction on expressions and templates. |
| C138 | Nothing new: `SpecYaml*`, `SpecJson*`, `SpecResolve*`; portable documents are defined in `PortableSpec`. | From the exact descriptions of what each reader accepts (C112, C123) and of resolution (C116): one agreement lemma per record, by induction on lists of values. |
| C139 | Nothing new: `Load*`, `LoadJson*`; portable documents in `PortableDocSpec`. | From C120 and C127 and the agreement lemmas, by induction on the resources; each exclusion is refuted without it. |
| C140 | Nothing new: `StateMachineModel`; vocabulary in `StateMachineAttemptSpec`. | Invariant over all interleavings (`StateMachineAttemptProps`); the count is refuted for every workflow without self-loops. |
| C141 | `WireModel`: the derived readers and writers of events, results and messages as functions on JSON trees, and the API's handlers on documents. Vocabulary: `WireSpec`. | What each document is taken for, in both directions; the losses refuted for all documents. |
| C142 | As C141. | Writing then reading is the identity, by cases on the kind and induction on maps and lists. |
| C143 | As C141, with the types of `ClusterModel`. | Round trip; exact condition for acknowledgements. |
| C144 | As C141, with `ws_messages` of `LocalApiModel`. | Exact condition for being read; refutation for every batch. |
| C145 | `LostModel`: the event's bytes, with serde_json's escapes; JSON strings as a grammar in `LostSpec`; reading by `WsModel`. | Induction on the id; the grammar is unambiguous by induction on derivations. |
| C146 | `NapiModel`: the loader script as a function of the machine, and the published packages. Vocabulary: `NapiSpec` (table of targets). | Case analysis on the table, for all machines and behaviours of `require`. |
| C147 | `StallModel`: the listener and the action loop of a node as tasks over the sessions and socket locks of `WsModel`. | Invariant over all continuations in which a client is silent; a projection to `WsModel` gives the positive part. |
| C148 | As C147. | Invariants tying the tasks at hand to the items taken up, over all interleavings. |
| C149 | As C135, with the JSON reader. | Setup does not depend on resources of other types; the rest of a portable document is shown to be the same by the lemmas of C139. The handlers in JSON are traced back to the document. |
| C150 | The cluster of C34-C36, with the task of registry.rs 117-162 that ends when a notice fails. | Invariant of the node: the task is over exactly if a notice failed; invariant of the tracker: a loss decided on has enough sends recorded; induction over continuations; the task run to the end of its queue. |
| C151 | The cluster of C34-C36 with the four channels bounded and the Redis task holding at most one message. | Refinement to the unbounded cluster; the weight of C36 with the held message; case analysis of a node that cannot go on, and of one none of whose tasks can work; induction over continuations of a jam; the numbers for the code's capacities; a history that jams, by induction over the capacities. |
| C152–C154 | The task of pubsub.rs with anything on the channel, halves that can be dropped and a connection that can be lost; the owners of a registry on top. | Invariant of a link relating its log, its queues and what arrived; induction over continuations for what never ends. |
| C155 | The choice of a connection as a function of the settings, with the hosts' answers as a parameter. | Case analysis; exact conditions for both modes; partly refuted. |
| C156 | The id of a request as a function of its headers, on the sessions of C42–C44 and C71–C73. | Histories built from any reachable state for the takeover; an invariant for what an unlisted session never gets; refuted, with the positive part for new ids. |
| C157 | The HTTP API of C99–C103 and any number of state machines of C13–C20 in one system, with the store and the event channel between them. | Invariants over every history (what each machine did, its record, its events, each stream); refuted for the workflow that setup yields. |
| C158 | Stops of the process in the system of C157, with a service that keeps its records or not. | Invariants over every continuation of a stop; a constructed history for a run that is asked for again; refuted. |
| C159 | The layers around every route as functions from services to services, in the order the code puts them (Trace*) | The answer is the handler's by computation under any layers; the lines are the last two entries |
| C160 | The span of a request as a list of entries; a process as its one subscriber and what is run and shut down in it (Trace*) | Fields by computation, both directions; induction over histories for what the process keeps; refuted for upstream traces, second runs and test mode |
| C161 | A process of the CLI: what its command line starts (`Cmd*`), the log files, the handler or the terminal program (`Cli*`) with signals, the status (`Exit*`) | The terminal program with signals is simulated by that of `Cli*`, so C06 carries over; C05 gives the rest; constructed runs for the refuted parts |
| C162 | A server that runs: a document loaded and set up (`Setup*`), its handlers registered and routed (`Route*`), inside the layers (`Trace*`), put together in `Serve*` | C135, C89 and C159/C160 composed; the code of the handlers is a parameter |
| C163 | The same server with the functions of the Node SDK as handlers (`NodeServe*`, over `Serve*` and `Sdk*`) | C162 and C92–C94 composed; failures answered as successes (refuted part) |
| C51–C53, C63 | the interpolation state machine and the substitution grammar on code points | round trip by induction over segments; no-panic invariant; C52 and part of C63 refuted |
| C54–C55, C64, C66 | resolution over an environment oracle; the JSON and YAML readers of mapping nodes | structural induction, exact characterisation of every outcome; C64 and C66 partly refuted |
| C56, C65, C67 | both blueprint readers from a document value to the resolved blueprint, with the readers and resolvers of specs, metadata and variables as parameters | folds that skip entries; simulation of one reader by the other; C56 (JSON), C65 and C67 partly refuted |

## Trusted base

* Coq's kernel (8.16.1; `vm_compute` in examples) and the fidelity of the
  hand-written model to the cited code.
* `Print Assumptions` at the end of every `…Props.v` file. All theorems are closed
  under the global context, except the C17 theorems about the length of a delay
  and the C25 theorems about arithmetic,
  which use the standard library's real numbers through Flocq:
  `ClassicalDedekindReals.sig_not_dec`, `ClassicalDedekindReals.sig_forall_dec`,
  `FunctionalExtensionality.functional_extensionality_dep`,
  `Classical_Prop.classic`. No other axioms; none of our own. (`coqchk` also lists
  the `Coq.ssr.ssrunder` parameters of the standard library because some loaded
  library files import ssreflect; no theorem uses them.)

## What is modelled, and what is not

See the table in `## Scope` below.

## Scope

| Code | Files | Left out or simplified |
|---|---|---|
| `apps/cli/internal/config`, argument validators | Config* | float getters; viper's file decoding is a parameter |
| `libs/runtime/core` local runtime API | LocalApi* | HTTP framing (axum), serde errors |
| `workflow/src/workflow_executions.rs` | ExecStore* | `duration` |
| `workflow/src/state_machine.rs` | StateMachine*, Wait* | durations, log lines, the handler table's lock, tracing spans; template engine and JSON paths are parameters; the broadcast channel is unbounded |
| `workflow/src/helpers.rs` | RetryDelay* | `powf` and the random draw are parameters |
| `signature/src/sigv1.rs`, `errors.rs` | Text, Sig* | HMAC is a parameter; only the first value of a repeated header; base64 modelled |
| `ws-registry/src/acks.rs` | Ack* | dropped receivers (only log lines), channel capacities; map iteration order is list order |
| `ws-registry/src/registry.rs`, `ws-redis/src/pubsub.rs` | Cluster* | Redis is reliable and ordered; connections are ids (a re-added id is the same connection); sockets are one write with an outcome; channel capacities; serde; the connection map's lock |
| `helpers/src/scanner.rs` | Chars, Scanner* | characters are code points; callbacks are functions |
| `blueprint-config-parser/src/parse_substitutions.rs` | Subst* | character classes are a parameter constrained on ASCII; error messages reduced to kind and position |
| `blueprint-config-parser/src/resolve_substitutions.rs` 1637-1919, `parse_mapping_node.rs`, `yaml_helpers.rs` 10-51 | Resolve* | field names in errors; `f64::from_str`, the environment and JSON-in-JSON decoding are parameters; map iteration order is list order |
| `blueprint-config-parser/src/parse.rs`, `parse_yaml.rs` 38-110 and 193-352, `parse_helpers.rs`, `parse_blueprint_resource.rs`, `validate_parsed.rs` | Blueprint* | the text-level JSON/YAML readers; readers and resolvers of specs, metadata, selectors, variables are parameters |
| `workflow/src/template_func_parser.rs` | TemplateParser* | `JsonPath::from_str` and `f64::from_str` are parameters; recursion is bounded by fuel that is proved sufficient; error texts and positions |
| `workflow/src/template_functions_v1.rs` | Value, Bytes, TemplateFunc*, TemplateNum* | error texts; serde_json's reader, writer and number printing, sha2 and the random draws are parameters; objects are key-sorted lists (`BTreeMap`); doubles are the standard library's `spec_float`, related to real numbers with Flocq |
| `workflow/src/payload_template.rs`, `helpers/src/jsonpath.rs` 40-81 | Payload* | jsonpath-rust (parsing and `find`) is a parameter; path forms other than root, field and chain are one form; random draws are numbered; error texts |
| `consumer-sqs/src/message_consumer.rs`, `visibility_timeout.rs`, `errors.rs` | Sqs* | queue attribute names, tracing, the wording of errors, durations other than as numbers; answers to visibility requests (they are only logged) |
| `core/src/websocket.rs`, `request.rs`, connections in `ws-registry/src/registry.rs` | Ws* | JSON parsing is a parameter; message ids, contents of ping, pong and close frames, failing socket writes, tracing; a handler sends at most one message for which it waits; sends to other nodes are in Cluster* |
| `core/src/transform_config.rs`, `blueprint_helpers.rs`, setup in `application.rs` | Api* | auth, cors and other unused fields; error messages; the HTTP router (axum) and the registration of HTTP handlers; number annotations are given by how they print |
| `apps/cli/internal/handlers/validate.go`, `tui/validateui`, `engine/client.go`, `engine/errors.go` | Cli* | rendering and key bindings of the lists; the remote sources of blueprints; an event is its level and message; the client may do anything; creating a validation and opening its stream are one step in the terminal |
| `core/src/config.rs` (`from_env`), ports and interfaces in `application.rs` | Env* | `TcpListener::bind` is a test of the port and an oracle for the system |
| `core/src/application.rs` (setup, registration, run, shutdown) | Route* | axum's `Router::route` is modelled by its documentation; the path matcher (matchit) is a parameter; telemetry is in Trace*; failing to bind is the only failure of `run` |
| `sdk/node/src/lib.rs`, `sdk/python/src/lib.rs`, `sdk/bindgen-ffi/src/{application,response,http_handler,app_config}.rs` | `Sdk*`, `NodeServe*` | the http crate's header syntax, the JSON of an error and UTF-8 decoding are parameters; calls into the language runtimes are their results and times; the Java and .NET bindings are not modelled |
| `core/src/aws_telemetry.rs` (trace ids) | Xray* | `TraceId` (third party) is a 128-bit number and its documented text |
| `workflow/src/application.rs`, `transform_config.rs` | WfApp* | what a state machine does inside (see StateMachine*) is any sequence of saves and events; the broadcast channel (tokio) keeps a number of events that is a parameter; a failed save saves nothing; JSON bodies are their contents |
| `blueprint-config-parser/src/yaml_workflow.rs`, `yaml_helpers.rs` | WfYaml* | the YAML reader (third party) has produced the tree, keys distinct; a real is its text and the reading of it a parameter; error values keep their kind only; hash maps are lists in document order |
| `blueprint-config-parser/src/resolve_substitutions.rs` 495-968 | WfResolve* | field names in errors left out; hash maps are lists in iteration order |
| parse_yaml.rs 112-191, 316-1805 | SpecYaml* | error messages and positions left out; a HashMap is a list of entries with distinct keys; YAML text to tree (the yaml-rust2 library) not modelled |
| `blueprint-config-parser/src/resolve_substitutions.rs` 110-493, 970-1608 (resolving specs and metadata) | `SpecResolve*` | The environment is a partial function of the name; parsing floats is a parameter; the messages of errors are dropped; hash maps are association lists |
| `blueprint-config-parser/src/parse.rs` 50-82 (YAML loading end to end) | `Load*` | reading the file and YAML text to tree not modelled; the error of a reader or resolver is collapsed to one kind |
| `blueprint-config-parser/src/blueprint_with_subs.rs`, `blueprint.rs`, `parse_blueprint_resource.rs`, `parse_substitutions.rs`, `parse_mapping_node.rs` (reading from JSON) | `SpecJson*` | JSON text to tree (serde_json), its nesting limit of 128 and the wording and order of errors not modelled; a resource `type` written as a one-member object and a resource written as an array are errors in the model of the enclosing document (`Blueprint*`) |
| `blueprint-config-parser/src/parse.rs` 16-49, `parse_helpers.rs`, `validate_parsed.rs` (JSON loading end to end) | `LoadJson*` | reading the file, stripping comments and JSON text to tree not modelled; the error of a reader or resolver is collapsed to one kind |
| `apps/cli/cmd/main.go`, `apps/cli/cmd/commands/{root,init,validate,version}.go` (command line) | `Cmd*` | the command-line libraries (cobra 1.8.1, pflag 1.0.5) are not in the repository and are modelled from their known behaviour, for the kinds of flags and commands registered here; their own commands `help` and `completion` are only recognised; error texts are kinds; opening the log file succeeds |
| `apps/cli/internal/tui/initui/tui.go`, `apps/cli/internal/tui/validateui/select_blueprint_local_file.go` | `Tui*` | the widgets (bubbles) are parameters that may do anything; rendering is reduced to which of the screens is shown; commands of the program are recorded, not run (`Cli*` runs them) |
| `core/src/application.rs` 73-87, 340-347 (document to application) | `Setup*` | composition of `Load*`, `LoadJson*` and `Api*`; reading the file and the YAML and JSONC crates are parameters; how a number is displayed is a parameter |
| `core/src/types.rs`, `workflow/src/types.rs` 16-47, `ws-registry/src/types.rs` 3-33, `ws-redis/src/pubsub.rs` 108-114, 140-150, 167-171 (wire formats); `core/src/runtime_local_api.rs` 50-102 with documents | `Wire*` | JSON text to tree (serde_json) and its nesting limit, axum's limits and content type check, and the wording of errors not modelled |
| `ws-registry/src/message_helpers.rs` | `Lost*` | serde_json's escape table is transcribed |
| `sdk/node/index.js`, `sdk/node/npm/*/package.json` | `Napi*` | what `require`, `existsSync` and the process report give are parameters; a loaded library is a truthy value; `files`, `engines` and versions of the packages not modelled |
| `ws-registry/src/registry.rs` 99-225 with the sockets of `core/src/websocket.rs` | `Stall*` | channels are unbounded; the ack worker's answers are arbitrary; a write to a locked socket succeeds |
| `ws-redis/src/pubsub.rs` 86-163 with `ws-registry/src/registry.rs` 99-225: capacities | `Pump*` | the Redis task does not end; hearing and asking the tracker is one step; the lock around the tracker's sender only delays |
| `ws-redis/src/pubsub.rs`: `connect`, `get_redis_connection`, life of the task; `ws-registry/src/registry.rs`: who owns a registry | `Redis*` | channels are unbounded; the redis client's part (URLs, protocol, loss) is transcribed from its documentation |
| `core/src/request.rs` | `Id*` | header names in lower case; nanoid's text is a parameter |
| `workflow/src/application.rs` with `state_machine.rs`: the running application, and its stops | `WfSys*` | a request is one step; steps of a machine as in `StateMachineModel`; nothing else shares the store |
| `core/src/telemetry.rs`, the layers of `core/src/application.rs` | Trace* | the tracing, opentelemetry and axum crates are modelled by their documentation; formats, batching, the log bridge and the exporter's network are left out |
| `apps/cli/cmd/main.go`, `cmd/commands/validate.go` 28-77, `cmd/utils/utils.go` 61-82 | `Exit*` | opening a file is a test; formats of logs, usage and help texts left out; bubbletea's loop transcribed |
| `core/src/application.rs` 166-210, 291-437: the whole way of a request | `Serve*` | parts from `Setup*`, `Route*`, `Trace*`; the body of answers to HEAD is not dropped |
