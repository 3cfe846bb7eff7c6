{"id": "C01", "title": "CLI option precedence", "statement": "The string value the CLI reads for an option is taken from the first of these sources that supplies one: the command-line flag when it was given with a non-blank value, the bound environment variable when it is set to a non-blank value, the loaded config file when it contains the key, the flag's default when non-empty, the registered default. The accompanying 'is default' answer is true exactly when the value came from one of the last two.", "quantifier": "every option name, every combination of flag binding/value/changed state, environment, config file content and defaults", "why_tests_cant": "tests pick a handful of source combinations; the claim is about every combination including blank and whitespace values", "anchors": ["apps/cli/internal/config/provider.go: Provider.GetString, NewProvider, BindPFlag, BindEnvVar, LoadConfigFile"]}
{"id": "C02", "title": "CLI typed options", "statement": "Reading an option as a 32/64-bit signed/unsigned integer yields exactly the integer denoted by the option's string value when that string is a decimal numeral in range, and 0 otherwise (malformed, out of range, empty); reading it as a boolean yields true exactly for the accepted spellings of true. The 'is default' answer is the one of the string read. Consequently every in-range integer that is printed into a config source is read back unchanged.", "quantifier": "every option value string and every in-range integer", "why_tests_cant": "the domain of strings and integers (incl. the 2^31/2^63/2^64 boundaries and arbitrary leading zeros) is unbounded", "anchors": ["apps/cli/internal/config/provider.go: GetInt32, GetInt64, GetUint32, GetUint64, GetBool"]}
{"id": "C03", "title": "CLI registered defaults", "statement": "A default registered for an option is returned (flagged as default) whenever no flag, environment variable or config file supplies a value.", "quantifier": "every option name and default value, every provider built by the public constructor", "why_tests_cant": "needs reasoning over all sequences of provider operations; the repository's tests never register a default", "anchors": ["apps/cli/internal/config/provider.go: NewProvider, SetDefault, GetString"]}
{"id": "C04", "title": "CLI argument validation", "statement": "Before any command runs, a connect protocol is accepted exactly when it is 'tcp', or 'unix' on an operating system other than Windows; an init language is accepted exactly when it is empty or one of nodejs, python, java, dotnet, go, rust; a config file is accepted only with a .yaml, .yml, .json or .toml extension. Everything else is rejected with an error and the command does not run.", "quantifier": "every string value and every operating system name", "why_tests_cant": "acceptance must be exact over all strings", "anchors": ["apps/cli/cmd/commands/root.go: NewRootCmd, validateConnectProtocol", "apps/cli/cmd/commands/init.go: validateLanguage", "apps/cli/internal/config/provider.go: LoadConfigFile"]}
{"id": "C05", "title": "Headless validate streaming", "statement": "In non-interactive mode, `validate` prints every event the engine streamed before termination, once each and in the order received; it reports success only after the stream was closed by the engine and reports an error whenever it stops for any other reason (validation could not be created, stream could not be opened, stream error, cancellation).", "quantifier": "every sequence of stream events, errors, closures and cancellation, and every choice the scheduler makes between ready channels", "why_tests_cant": "the select statement picks nondeterministically among ready channels; tests see one schedule", "anchors": ["apps/cli/internal/handlers/validate.go: NewValidateHandler"]}
{"id": "C06", "title": "Interactive validate single stream", "statement": "In interactive mode, at most one validation is started per session however often a blueprint is selected, results are shown in arrival order, and the session ends with an error status if and only if an error message was received while validating.", "quantifier": "every sequence of user-interface messages", "why_tests_cant": "message sequences are unbounded and interleave user input with background results", "anchors": ["apps/cli/internal/tui/validateui/tui.go: MainModel.Update", "apps/cli/internal/tui/validateui/validate_model.go: ValidateModel.Update", "apps/cli/internal/tui/validateui/commands.go"]}
{"id": "C07", "title": "Local runtime event hand-out", "statement": "Through the local runtime API, every event enqueued by the runtime is handed to exactly at most one poller, in the order enqueued, and a poll on an empty queue returns no event.", "quantifier": "every history of enqueue, poll and result operations", "why_tests_cant": "needs all interleavings of pollers, producers and responders", "anchors": ["libs/runtime/core/src/runtime_local_api.rs: next_event_handler, event_result_handler", "libs/runtime/workflow/src/workflow_runtime_local_api.rs"]}
{"id": "C08", "title": "Local runtime result routing", "statement": "A result posted for an event id is delivered to the waiter of the event that was handed out under that id and to no other, at most one result reaches each waiter, and posting a result for an id that is not being processed is answered 'not found' and changes nothing.", "quantifier": "every history of enqueue, poll, result and waiter-gone operations with any ids", "why_tests_cant": "same as C07; also needs repeated and unknown ids", "anchors": ["libs/runtime/core/src/runtime_local_api.rs: event_result_handler", "libs/runtime/workflow/src/workflow_runtime_local_api.rs: event_result_handler"]}
{"id": "C09", "title": "WebSocket batch send semantics", "statement": "Posting a batch of WebSocket messages to the local API sends them in order and stops at the first failure: the messages before it have been sent, none after it, and the answer is 'ok' exactly when all were sent; without a registry nothing is sent and the request is refused.", "quantifier": "every batch and every pattern of per-message send outcomes", "why_tests_cant": "all failure positions in batches of all sizes", "anchors": ["libs/runtime/core/src/runtime_local_api.rs: websockets_messages_handler"]}
{"id": "C10", "title": "Execution store read-your-writes", "statement": "The in-memory workflow execution store returns for an id the data last saved under it, reports 'not found' for ids never saved, and a save never alters what is stored under another id.", "quantifier": "every history of save/get operations", "why_tests_cant": "histories are unbounded and ids repeat", "anchors": ["libs/runtime/workflow/src/workflow_executions.rs: MemoryWorkflowExecutionService"]}
{"id": "C11", "title": "Latest executions listing", "statement": "Listing the latest executions with a limit returns exactly min(limit, number of distinct saved ids) executions: those whose first save is most recent, each id once, ordered by first save, each with its last saved data.", "quantifier": "every history of saves and every limit (including 0 and limits above the number stored)", "why_tests_cant": "boundary arithmetic over all histories", "anchors": ["libs/runtime/workflow/src/workflow_executions.rs: get_latest_workflow_executions"]}
{"id": "C12", "title": "Workflow output is kept", "statement": "After a workflow completes, reading the stored execution returns the workflow's output.", "quantifier": "every workflow run that completes with an output", "why_tests_cant": "concerns every output value and every reachable stored execution", "anchors": ["libs/runtime/workflow/src/workflow_executions.rs: save_workflow_execution", "libs/runtime/workflow/src/state_machine.rs: record_completed_workflow_execution"]}
{"id": "C13", "title": "Sequential workflow execution order", "statement": "A workflow made of step states linked by `next` and finished by `end` runs, when every handler succeeds, each state's handler exactly once in chain order, feeding each handler the previous state's output, and completes as succeeded with the last state's output recorded in a completion event.", "quantifier": "every chain length, every handler behaviour (functions from input to output) and every initial input", "why_tests_cant": "unbounded chain lengths and arbitrary handler functions", "anchors": ["libs/runtime/workflow/src/state_machine.rs: start, execute_state, execute_step, handle_state_success, record_transition, record_completed_state, record_completed_workflow_execution"]}
{"id": "C14", "title": "State transitions are persisted before they are announced", "statement": "Whenever a state-transition, state-failure or workflow-completion event is broadcast, the execution containing that change has already been persisted successfully; if persisting a transition fails, the state's handler is not invoked and no transition event is broadcast for it.", "quantifier": "every workflow, every handler behaviour, and every pattern of persistence failures (crash points)", "why_tests_cant": "needs every failure point of the store combined with every workflow", "anchors": ["libs/runtime/workflow/src/state_machine.rs: record_transition, record_error, record_completed_workflow_execution, execute_state_and_handle_error"]}
{"id": "C15", "title": "Retries are bounded", "statement": "A failing state configured with a maximum number of attempts is attempted at most that many times.", "quantifier": "every maximum and every always-failing handler", "why_tests_cant": "the number of attempts is unbounded; only a proof over all run lengths settles it", "anchors": ["libs/runtime/workflow/src/state_machine.rs: handle_retryable_error, retry_or_catch, check_exceeded_max_attempts, extract_state_from_workflow_execution"]}
{"id": "C16", "title": "Error matching and catch routing", "statement": "An error is matched by a retry or catch rule exactly when the rule lists its name or the wildcard '*'; the first catch rule in order that matches decides the state the workflow continues with, which receives the failed state's input with the error information placed at the rule's result path.", "quantifier": "every rule list, every error name", "why_tests_cant": "all rule lists and orders", "anchors": ["libs/runtime/workflow/src/state_machine.rs: error_matches, catch, prepare_input_from_catch"]}
{"id": "C17", "title": "Retry delay", "statement": "Without jitter the delay before retry number k is interval*1000*rate^k milliseconds capped at the maximum delay; with jitter it lies between 0 and that value. It never exceeds the configured maximum delay.", "quantifier": "every interval, rate, cap, attempt number and random draw", "why_tests_cant": "numeric ranges and random draws", "anchors": ["libs/runtime/workflow/src/helpers.rs: calculate_retry_wait_time_ms", "libs/runtime/workflow/src/state_machine.rs: retry_or_catch"]}
{"id": "C18", "title": "Parallel branch results", "statement": "The result of a parallel state whose branches all succeed is the list of branch outputs in branch order; if any branch fails, the parallel state fails. (Refuted, too, that the record of a parallel state shows its branches: no state is ever saved with any; and that a branch carries on after a step: once a branch without parallel and wait states has called a handler it is seen to do nothing more and does not end, so that the parallel state fails.)", "quantifier": "every number of branches and every pattern of branch outcomes and completion orders", "why_tests_cant": "completion order of concurrently running branches is nondeterministic", "anchors": ["libs/runtime/workflow/src/state_machine.rs: execute_parallel, handle_parallel_results"]}
{"id": "C19", "title": "Workflow failure is visible", "statement": "When a state fails with an error that is neither retried nor caught, the execution ends recorded as failed and a completion event is broadcast. An execution that ends has announced a completion unless it started a state of a type that is not implemented, or an input path, a template or the time of a wait failed with no rule to catch it; it crashes only when a state is missing, the last save fails, a wait blames another state, or a rule that catches a failed input path cannot place the error. An execution recorded as over has announced a completion once nothing can go on, or crashed; one that ended without a word was never recorded as over (refuted part). The text saved beside the status names the current state while the execution runs, and the state, the error and its message when it failed. (Refuted, that it tells of success: an execution that succeeded keeps the text it had, which says that its last state is being executed.)", "quantifier": "every workflow, state and error kind", "why_tests_cant": "all error kinds at all states", "anchors": ["libs/runtime/workflow/src/state_machine.rs: execute_state_and_handle_error, handle_catchable_error, handle_retryable_error, record_error"]}
{"id": "C20", "title": "Input path selects the handler input", "statement": "When a state declares an input path, its handler receives the part of the state input selected by that path.", "quantifier": "every input document and path", "why_tests_cant": "all documents", "anchors": ["libs/runtime/workflow/src/state_machine.rs: execute_state, prepare_state_input, execute_step"]}
{"id": "C21", "title": "Template function call parsing", "statement": "Parsing the textual form of a template function call (nested calls, JSON paths, strings with escapes, integers, floats, booleans, null) yields that call: every call written in the documented syntax is understood as written.", "quantifier": "every well-formed call of any nesting depth and argument count", "why_tests_cant": "recursive grammar of unbounded depth", "anchors": ["libs/runtime/workflow/src/template_func_parser.rs", "libs/runtime/helpers/src/scanner.rs"]}
{"id": "C22", "title": "Template rendering preserves structure", "statement": "Rendering a payload template yields a document of the same shape in which every scalar that is neither a function call nor a JSON path is unchanged, every JSON path is replaced by what it selects from the input and every function call by its result; the first error aborts rendering.", "quantifier": "every template and input document", "why_tests_cant": "templates are unbounded trees", "anchors": ["libs/runtime/workflow/src/payload_template.rs: render, render_scalar, render_sequence, compute_func_call, extract_json_path_value"]}
{"id": "C23", "title": "Template list functions", "statement": "chunk_list splits a list into consecutive chunks of the given size (all but the last full) whose concatenation is the list; remove_duplicates keeps exactly the first occurrence of each value in order; contains_elem decides membership; list_elem returns the element at the index or an error when out of range; len counts elements.", "quantifier": "every list, size and index", "why_tests_cant": "lists of any length, boundary sizes", "anchors": ["libs/runtime/workflow/src/template_functions_v1.rs: chunk_list, list_elem, remove_duplicates, contains, len"]}
{"id": "C24", "title": "Template string and merge functions", "statement": "split and join are inverse (joining the pieces with the separator gives the string back, no piece contains the separator); hash gives the digest of the text by the named algorithm; jsonmerge gives the second object's value for keys present in both and keeps all other keys; base64 decoding inverts encoding; format replaces the i-th placeholder with the i-th argument.", "quantifier": "every string, separator, object pair, byte string and argument list", "why_tests_cant": "unbounded strings and objects", "anchors": ["libs/runtime/workflow/src/template_functions_v1.rs: split, jsonmerge, b64encode, b64decode, format"]}
{"id": "C25", "title": "Template numeric functions", "statement": "add, sub, mult and div return the double-precision result of the operation or an error, division by zero is an error, and random numbers lie in [min, max).", "quantifier": "every pair of numbers", "why_tests_cant": "numeric ranges incl. overflow to infinity", "anchors": ["libs/runtime/workflow/src/template_functions_v1.rs: math_add, math_sub, math_mult, math_div, math_rand"]}
{"id": "C26", "title": "Result injection", "statement": "Injecting a result at `$.field` of an object sets exactly that field and leaves every other field unchanged; for any other path or non-object input the document is unchanged and the injection is reported as failed.", "quantifier": "every document, path and value", "why_tests_cant": "all documents and path shapes", "anchors": ["libs/runtime/helpers/src/jsonpath.rs: jsonpath_inject_root", "libs/runtime/workflow/src/payload_template.rs: inject"]}
{"id": "C27", "title": "Text scanner positions", "statement": "The scanner consumes input strictly left to right: no operation moves the cursor beyond the input, peeking never moves it, backtracking returns to the position of the matching save, and a scan that reports no match leaves a position from which the remaining input is a suffix of the original.", "quantifier": "every input and every sequence of scanner operations", "why_tests_cant": "operation sequences and inputs are unbounded", "anchors": ["libs/runtime/helpers/src/scanner.rs: Scanner"]}
{"id": "C28", "title": "Queue messages deleted only after handling", "statement": "A received queue message is deleted only after the handler returned for its batch; after a handler failure it is deleted only if deletion on failure is configured, and never when deletion is disabled; each poll issues at most one delete request, covering exactly the messages of its batch.", "quantifier": "every sequence of polls, batches, handler outcomes (success, failure, timeout, missing handler) and configuration", "why_tests_cant": "all histories and configurations", "anchors": ["libs/runtime/consumer-sqs/src/message_consumer.rs: receive_messages, delete_messages, handle_messages, derive_handler_future"]}
{"id": "C29", "title": "Queue consumer liveness across errors", "statement": "No outcome of a poll (receive error of any kind, handler failure, timeout, delete failure) stops the consumer from polling again.", "quantifier": "every sequence of poll outcomes", "why_tests_cant": "all failure sequences", "anchors": ["libs/runtime/consumer-sqs/src/message_consumer.rs: start, receive_messages"]}
{"id": "C30", "title": "Visibility heartbeat lifetime", "statement": "While a handler runs, the visibility of exactly its batch is extended, starting no earlier than receipt and not again after the batch's handler finished and the heartbeat was stopped; on failure with visibility termination enabled the last visibility change of the batch sets it to zero.", "quantifier": "every interleaving of heartbeat ticks, in-flight extension requests and handler completion", "why_tests_cant": "interleavings of two concurrent tasks and in-flight requests", "anchors": ["libs/runtime/consumer-sqs/src/visibility_timeout.rs: start_heartbeat, run_heartbeat_task, change_visibility_timeout", "libs/runtime/consumer-sqs/src/message_consumer.rs: receive_messages, terminate_visibility_timeout"]}
{"id": "C31", "title": "Message acknowledgement tracking", "statement": "For every message awaiting acknowledgement the tracker reports pending until an acknowledgement is recorded or the attempts are exhausted; asking about an unknown message reports lost; a waiter is answered received only if an acknowledgement was recorded for that message id.", "quantifier": "every sequence of sends, acknowledgements, checks, waits and timer ticks", "why_tests_cant": "unbounded interleavings of timers and messages", "anchors": ["libs/runtime/ws-registry/src/acks.rs: Worker, record_ack, check_for_actions_periodic, handle_ack_wait"]}
{"id": "C32", "title": "Bounded resends", "statement": "A message that is never acknowledged is resent at most max-attempts minus one times, each resend at least the message timeout after the previous attempt, and is then reported lost to the clients that asked to be informed and forgotten.", "quantifier": "every timing of ticks and every set of concurrently pending messages", "why_tests_cant": "unbounded times and tick schedules", "anchors": ["libs/runtime/ws-registry/src/acks.rs: check_for_actions_periodic, record_ack"]}
{"id": "C33", "title": "Resends reach the original connection", "statement": "A resend of an unacknowledged message is addressed to the same connection as the original send.", "quantifier": "every connection id, message id and history", "why_tests_cant": "all histories leading to a resend", "anchors": ["libs/runtime/ws-registry/src/acks.rs: check_for_actions_periodic", "libs/runtime/ws-registry/src/registry.rs: start_ack_worker"]}
{"id": "C34", "title": "Send outcome", "statement": "Sending to a connection held by this node delivers the message to that connection only; otherwise, with a broadcaster, the message is published exactly once to the other nodes and recorded as pending; connections of other ids never receive it.", "quantifier": "every registry state, connection id and message", "why_tests_cant": "all registry states", "anchors": ["libs/runtime/ws-registry/src/registry.rs: send_message, add_connection, remove_connection, listen"]}
{"id": "C35", "title": "Cluster message filtering", "statement": "A node never processes its own published messages, processes every WebSocket message published by another node, and processes an acknowledgement exactly when it is addressed to it.", "quantifier": "every message, source node and receiving node", "why_tests_cant": "all node sets and messages", "anchors": ["libs/runtime/ws-redis/src/pubsub.rs: connect"]}
{"id": "C36", "title": "Cluster-wide delivery", "statement": "In a cluster of nodes joined by the broadcast channel, a message sent on any node to a connection id held by some node is delivered to that node's connection, delivered to no connection with another id, and the sending node learns of the acknowledgement.", "quantifier": "every number of nodes, placement of connections and order of broadcast processing", "why_tests_cant": "distributed schedules over any number of nodes", "anchors": ["libs/runtime/ws-registry/src/registry.rs: send_message, listen", "libs/runtime/ws-redis/src/pubsub.rs: connect"]}
{"id": "C37", "title": "Signature round trip", "statement": "A request signed with a key pair verifies with the same key pair for any set of custom headers, for as long as the verifier's clock is within the allowed skew of the signed date.", "quantifier": "every key id and secret, header set, date and clock", "why_tests_cant": "all header sets, dates and clocks", "anchors": ["libs/runtime/signature/src/sigv1.rs: create_signature_header, verify_signature, create_message, sign_message"]}
{"id": "C38", "title": "Signature covers what it names", "statement": "If verification succeeds then the presented signature is the MAC, under the secret registered for the presented key id, of the text naming that key id, the date and every listed custom header with its value; so without a MAC collision changing the date, a listed header value or the key id makes verification fail.", "quantifier": "every request and every modification of it", "why_tests_cant": "all tampering patterns", "anchors": ["libs/runtime/signature/src/sigv1.rs: verify_signature, create_message, verify_message"]}
{"id": "C39", "title": "Signature freshness", "statement": "A correctly signed request is accepted exactly when the verifier's clock is within the configured skew (default 300 s) before or after the signed date.", "quantifier": "every date, clock and skew", "why_tests_cant": "integer boundaries incl. overflow", "anchors": ["libs/runtime/signature/src/sigv1.rs: verify_signature"]}
{"id": "C40", "title": "Signature header robustness", "statement": "Verifying any request, however malformed its signature header, returns a result (accept or a specific error) and does not crash the service.", "quantifier": "every header text", "why_tests_cant": "all byte strings", "anchors": ["libs/runtime/signature/src/sigv1.rs: unpack_signature, unpack_key_id, unpack_headers, unpack_signature_value"]}
{"id": "C41", "title": "Signed text is unambiguous", "statement": "Two requests with different lists of signed (header, value) pairs, key id or date never have the same signed text.", "quantifier": "every pair of requests", "why_tests_cant": "pairs of arbitrary header sets", "anchors": ["libs/runtime/signature/src/sigv1.rs: create_message"]}
{"id": "C42", "title": "Binary message routing", "statement": "A binary message built as length byte, route, payload is routed to exactly that route with exactly that payload; messages whose declared route length exceeds the message or whose route is not text are dropped without closing the connection.", "quantifier": "every route of up to 255 bytes and every payload; every byte string for robustness", "why_tests_cant": "all byte strings", "anchors": ["libs/runtime/core/src/websocket.rs: resolve_binary_route, process_message"]}
{"id": "C43", "title": "JSON message routing", "statement": "A JSON message is dispatched to the handler registered for the string found at the route key; messages that are not objects or lack a string at the key are dropped; the connection stays open; every other message kind is ignored except close, which ends the session and deregisters the connection.", "quantifier": "every message sequence on a connection", "why_tests_cant": "unbounded sessions", "anchors": ["libs/runtime/core/src/websocket.rs: process_message, resolve_route, handle_socket"]}
{"id": "C44", "title": "Connection registry consistency", "statement": "A connection is registered from the start of its session until the session ends for any reason, and not afterwards.", "quantifier": "every session (sequence of frames, including malformed ones) ", "why_tests_cant": "all frame sequences", "anchors": ["libs/runtime/core/src/websocket.rs: handle_socket", "libs/runtime/ws-registry/src/registry.rs: add_connection, remove_connection"]}
{"id": "C45", "title": "Handlers linked to an API are selected by label", "statement": "A resource is linked to an API exactly when it has the handler type and carries every label (key and value) of the API's link selector.", "quantifier": "every blueprint", "why_tests_cant": "all label maps", "anchors": ["libs/runtime/core/src/blueprint_helpers.rs: select_resources"]}
{"id": "C46", "title": "Handler timeout", "statement": "The effective timeout of a handler is taken from its own spec, else from the linked handler config, else from the blueprint's shared handler config, else 60 seconds, and never exceeds 3600 seconds.", "quantifier": "every combination of configured timeouts", "why_tests_cant": "all integers and combinations", "anchors": ["libs/runtime/core/src/transform_config.rs: resolve_handler_timeout"]}
{"id": "C47", "title": "Handler location and tracing", "statement": "A handler's code location is taken from the first of handler spec, linked handler config, shared handler config that provides it, and a handler without one anywhere is rejected; tracing is enabled by the first of the same sources that states it and is otherwise off.", "quantifier": "every combination of sources", "why_tests_cant": "all combinations", "anchors": ["libs/runtime/core/src/transform_config.rs: resolve_handler_location, resolve_tracing_enabled"]}
{"id": "C48", "title": "Route conversion", "statement": "Converting a blueprint path to a router path replaces every `{name}` segment by `:name` (and every `{name+}` by `*name`) and leaves the rest unchanged.", "quantifier": "every path", "why_tests_cant": "all strings", "anchors": ["libs/runtime/core/src/transform_config.rs: to_axum_path"]}
{"id": "C49", "title": "Every linked HTTP handler is collected once", "statement": "Application setup collects each handler linked to the API and annotated as an HTTP handler exactly once, with its declared method and path (defaults GET and /), and fails if one handler is linked twice.", "quantifier": "every blueprint", "why_tests_cant": "all blueprints", "anchors": ["libs/runtime/core/src/transform_config.rs: collect_http_handler_definitions, check_handler_already_collected"]}
{"id": "C50", "title": "Hybrid APIs start", "statement": "An API that declares both the http and websocket protocols can be started when distinct base paths are configured.", "quantifier": "every API configuration", "why_tests_cant": "all configurations reach the same code path", "anchors": ["libs/runtime/core/src/application.rs: resolve_websocket_base_path", "libs/runtime/core/src/transform_config.rs: collect_api_config"]}
{"id": "C51", "title": "Substitution parsing", "statement": "A string made of literal text and `${variables.name}` / `${variables[\"name\"]}` references is parsed into exactly those literals and references in order; text without `${` is a single literal.", "quantifier": "every alternation of literals and references of any length", "why_tests_cant": "unbounded strings", "anchors": ["libs/runtime/blueprint-config-parser/src/parse_substitutions.rs: parse_substitutions"]}
{"id": "C52", "title": "Unsupported substitutions are kept verbatim", "statement": "Substitutions the runtime does not support are left in the text unchanged, and do not affect the handling of other text and substitutions of the same string.", "quantifier": "every string", "why_tests_cant": "all mixtures of supported and unsupported substitutions", "anchors": ["libs/runtime/blueprint-config-parser/src/parse_substitutions.rs: parse_substitutions, concat_adjacent_string_values"]}
{"id": "C53", "title": "Substitution parsing never crashes", "statement": "Parsing any string terminates with a non-empty list of parts or a parse error; no input makes it panic.", "quantifier": "every string", "why_tests_cant": "all strings", "anchors": ["libs/runtime/blueprint-config-parser/src/parse_substitutions.rs"]}
{"id": "C54", "title": "Variable resolution", "statement": "Resolving a string replaces each variable reference by the value of the corresponding CELERITY_VARIABLE_ environment variable, leaves literals unchanged, fails when a referenced variable is missing, and a lone reference is typed as integer, float, boolean or string in that order of preference.", "quantifier": "every string of parts and every environment", "why_tests_cant": "all environments and values", "anchors": ["libs/runtime/blueprint-config-parser/src/resolve_substitutions.rs: resolve_string_or_substitutions_to_string, resolve_scalar_value_from_string_or_substitutions, resolve_substitution"]}
{"id": "C55", "title": "Mapping resolution preserves structure and bounds depth", "statement": "Resolving a nested mapping keeps its shape, resolving each leaf, whenever its nesting depth is at most 20, and rejects it with a depth error otherwise.", "quantifier": "every mapping tree", "why_tests_cant": "unbounded trees", "anchors": ["libs/runtime/blueprint-config-parser/src/resolve_substitutions.rs: resolve_mapping_node, MAX_RESOLVE_DEPTH"]}
{"id": "C56", "title": "Unknown resources are ignored", "statement": "Resources of types the runtime does not support do not affect the parsed blueprint: parsing a blueprint with additional unsupported resources gives the same result as without them, and a blueprint left with no supported resource is rejected.", "quantifier": "every set of resources", "why_tests_cant": "all blueprints", "anchors": ["libs/runtime/blueprint-config-parser/src/parse_yaml.rs: validate_populate_resources, build_intermediate_blueprint_config_from_yaml"]}
{"id": "C57", "title": "Runtime configuration listing", "statement": "The configuration that the handlers executable fetches from the local runtime API lists every HTTP, WebSocket, consumer, schedule and workflow-state handler of the application exactly once, with its own name, timeout, tracing switch and a tag; two HTTP handlers with the same tag have the same method and path.", "quantifier": "every application configuration", "why_tests_cant": "all combinations of present/absent sections and all handler lists; tag uniqueness ranges over all methods and paths", "anchors": ["libs/runtime/core/src/runtime_local_api.rs: create_local_runtime_api_config and the functions it calls", "libs/runtime/workflow/src/workflow_runtime_local_api.rs: create_local_runtime_state_handlers"]}
{"id": "C58", "title": "A workflow execution keeps its identity", "statement": "Every document saved for an execution shows the input and start time it was created with, and every completion event its id, input and start time.", "quantifier": "every workflow definition, handler behaviour, schedule of branches and pattern of save failures", "why_tests_cant": "unboundedly many interleavings and error paths rewrite the execution document", "anchors": ["libs/runtime/workflow/src/state_machine.rs: transition_to_state, record_state_completion, record_error, complete_workflow"]}
{"id": "C59", "title": "A workflow execution never deadlocks", "statement": "At every moment of an execution either some thread of control can advance (given the answer it waits for) or all have ended.", "quantifier": "every workflow definition, schedule and environment answers, any number of parallel branches", "why_tests_cant": "a deadlock is a property of all schedules", "anchors": ["libs/runtime/workflow/src/state_machine.rs: the workflow_execution mutex, execute_parallel"]}
{"id": "C60", "title": "Wait states wait for the configured time", "statement": "A wait state with literal seconds waits exactly that long, one with a timestamp until that time (whole seconds), timestamps that have passed or cannot be read are reported as a failure of the state, and seconds or timestamps may be taken from the input by a JSON path.", "quantifier": "every wait configuration, input and clock reading", "why_tests_cant": "all numbers, timestamps, clocks and inputs", "anchors": ["libs/runtime/workflow/src/state_machine.rs: derive_wait_time_seconds, derive_wait_time_from_seconds_field, derive_wait_time_from_timestamp_field, wait_time_from_timestamp"]}
{"id": "C61", "title": "An acknowledgement is final", "statement": "Once a message has been acknowledged and is not sent again, it is never resent, reported lost or forgotten.", "quantifier": "every interleaving of acknowledgements, sends, scans and hand-over of actions, any number of messages", "why_tests_cant": "the race window lies between the checker's scan and the hand-over of its actions; only all schedules settle it", "anchors": ["libs/runtime/ws-registry/src/acks.rs: check_for_actions_periodic, record_ack"]}
{"id": "C62", "title": "A successful send was delivered", "statement": "A send reported as successful was written to the connection, or, when the connection is not on this node, handed to the other nodes; a successful send that waited for the acknowledgement was written to the connection by the node holding it.", "quantifier": "every number of nodes, placement of connections, schedule of calls, listeners, bus and trackers, and pattern of socket and publish failures", "why_tests_cant": "the acknowledgement crosses several queues and tasks on two nodes, in any interleaving with other sends", "anchors": ["libs/runtime/ws-registry/src/registry.rs: send_message, wait_for_ack, listen", "libs/runtime/ws-registry/src/acks.rs: handle_ack_wait"]}
{"id": "C63", "title": "A reported reference is written in the text", "statement": "Every variable reference the substitution parser reports is written in the text in one of the two documented forms, and the braces contain nothing but that reference.", "quantifier": "every string", "why_tests_cant": "the scanner keeps several flags and buffers across characters; only a proof over all strings rules out invented or mangled names", "anchors": ["libs/runtime/blueprint-config-parser/src/parse_substitutions.rs: parse_substitutions, parse_substitution"]}
{"id": "C64", "title": "A setting means the same in JSON and YAML", "statement": "A mapping value written in a JSON blueprint resolves to the same value as the same document written in YAML, including variable references and integers.", "quantifier": "every document value, environment and character classification", "why_tests_cant": "documents are unbounded trees and the two readers are separate code", "anchors": ["libs/runtime/blueprint-config-parser/src/parse_mapping_node.rs: visit_str, visit_u64", "libs/runtime/blueprint-config-parser/src/yaml_helpers.rs: validate_mapping_node"]}
{"id": "C65", "title": "A blueprint means the same in JSON and YAML", "statement": "A blueprint document is accepted in JSON exactly when it is accepted in YAML, with the same resources.", "quantifier": "every document, and every way its specs, metadata and selectors are read and resolved", "why_tests_cant": "the two readers are separate code over unbounded documents, keys in any order", "anchors": ["libs/runtime/blueprint-config-parser/src/parse_yaml.rs: build_intermediate_blueprint_config_from_yaml, validate_resource_type", "libs/runtime/blueprint-config-parser/src/parse_helpers.rs: deserialize_resource_map, deserialize_optional_string_or_vec", "libs/runtime/blueprint-config-parser/src/parse_blueprint_resource.rs: visit_map"]}
{"id": "C66", "title": "Typed settings accept every value of their type", "statement": "An integer, float, boolean or text setting given by a literal or a variable reference accepts exactly the values that denote one of its type: a whole number is a valid float and any text is a valid text.", "quantifier": "every list of parts, environment and float syntax", "why_tests_cant": "ranges over all variable values", "anchors": ["libs/runtime/blueprint-config-parser/src/resolve_substitutions.rs: resolve_optional_mapping_node_to_int, resolve_optional_mapping_node_to_float, resolve_optional_mapping_node_to_bool, resolve_mapping_node_to_string"]}
{"id": "C67", "title": "Reading a blueprint never crashes", "statement": "Reading any blueprint text either gives a blueprint or reports an error; it never panics.", "quantifier": "every document, and a file without any document", "why_tests_cant": "a panic can hide behind any shape of document", "anchors": ["libs/runtime/blueprint-config-parser/src/parse.rs: from_yaml_str, from_yaml_file, from_jsonc_str"]}
{"id": "C68", "title": "Only well-formed template function calls are accepted", "statement": "Parsing any text as a template function call ends, and a text that is not one call in the documented syntax (unclosed, followed by other text, with words that are not literals) is rejected.", "quantifier": "every text, JSON path parser, float parser and character classification", "why_tests_cant": "backtracking over unbounded nesting; only a proof over all texts rules out loops and misreadings", "anchors": ["libs/runtime/workflow/src/template_func_parser.rs: parse_func, func_call, func_args, func_arg, bool_literal", "libs/runtime/helpers/src/scanner.rs: scan, save_pos, backtrack"]}
{"id": "C69", "title": "Rendering a payload never crashes", "statement": "Rendering a payload template with any input document ends with a document or an error; no template function call and no number brings the runtime down.", "quantifier": "every template, input document and result of the random functions", "why_tests_cant": "arguments range over all documents; crashes hide in boundary numbers", "anchors": ["libs/runtime/workflow/src/payload_template.rs: render, compute_args, compute_func_call", "libs/runtime/workflow/src/template_functions_v1.rs: chunk_list, list_elem, math_rand, math_add, math_sub, math_mult, math_div"]}
{"id": "C70", "title": "Every queue message reaches the handler once per receipt", "statement": "With a handler registered, every batch of messages received from the queue is given to the handler exactly once, complete and unchanged: a single message as a single message, several as one batch; the handler is called for nothing else.", "quantifier": "every history of polls, batches and handler outcomes", "why_tests_cant": "all histories and batch contents", "anchors": ["libs/runtime/consumer-sqs/src/message_consumer.rs: start, receive_messages, handle_messages, derive_handler_future"]}
{"id": "C71", "title": "A message sent to a connected WebSocket client is delivered", "statement": "A message sent to the id of a connected client is written to that client's socket, once, and to no other socket, whether or not the client sends anything itself.", "quantifier": "every history of sessions, frames, handler calls and sends, every interleaving", "why_tests_cant": "all schedules of the socket lock; a test client that keeps talking hides the wait", "anchors": ["libs/runtime/core/src/websocket.rs: handle_socket", "libs/runtime/ws-registry/src/registry.rs: send_message"]}
{"id": "C72", "title": "A WebSocket handler can answer its client", "statement": "A handler may send a message to any connection, the one it is called for included, wait for the result and return.", "quantifier": "every history and schedule", "why_tests_cant": "absence of deadlock over all schedules", "anchors": ["libs/runtime/core/src/websocket.rs: handle_socket, process_message", "libs/runtime/ws-registry/src/registry.rs: send_message"]}
{"id": "C73", "title": "The messages of a connection are handled one at a time", "statement": "A message of a client is read only after the handler of its previous message has returned; calls happen in the order of the messages.", "quantifier": "every history and schedule", "why_tests_cant": "all schedules", "anchors": ["libs/runtime/core/src/websocket.rs: handle_socket, process_message"]}
{"id": "C74", "title": "The configured WebSocket route key is used", "statement": "Setting up an API with WebSocket handlers collects each linked and annotated handler once with its declared route, and messages are routed by the key that the API's protocol configuration names (by default \"event\").", "quantifier": "every blueprint and API name", "why_tests_cant": "all blueprints; a test with the default key cannot tell", "anchors": ["libs/runtime/core/src/transform_config.rs: collect_websocket_handler_definitions, collect_api_config", "libs/runtime/core/src/application.rs: setup_http_server_app"]}
{"id": "C75", "title": "Declared WebSocket handlers are called", "statement": "After setup, a message from a client with the route of a declared WebSocket handler calls that handler.", "quantifier": "every blueprint, every history of clients and messages", "why_tests_cant": "all blueprints and histories", "anchors": ["libs/runtime/core/src/application.rs: setup_http_server_app", "libs/runtime/core/src/websocket.rs: process_message"]}
{"id": "C76", "title": "Setup does not depend on hash map order", "statement": "Setting up the same blueprint twice gives the same handlers with the same settings, in whatever order the hash maps of its resources, labels, annotations and selectors are iterated.", "quantifier": "every blueprint and every iteration order", "why_tests_cant": "iteration orders are random per process", "anchors": ["libs/runtime/core/src/transform_config.rs: get_api_spec, collect_api_config", "libs/runtime/core/src/blueprint_helpers.rs: select_resources"]}
{"id": "C77", "title": "A missing API is reported", "statement": "Setting up an application for an API name that the blueprint does not contain fails.", "quantifier": "every blueprint and name", "why_tests_cant": "all blueprints and names", "anchors": ["libs/runtime/core/src/application.rs: setup", "libs/runtime/core/src/transform_config.rs: get_api_spec"]}
{"id": "C78", "title": "Handler definitions name their handler", "statement": "The handler definitions handed to the handlers executable carry the name of each handler.", "quantifier": "every blueprint", "why_tests_cant": "all blueprints", "anchors": ["libs/runtime/core/src/transform_config.rs: collect_http_handler_definitions, collect_websocket_handler_definitions"]}
{"id": "C79", "title": "Interactive validation ends with the engine's stream", "statement": "In a terminal, validate stops collecting results and finishes when the deploy engine closes the stream of validation events; nothing is shown as a result that the engine did not send.", "quantifier": "every order of messages, key presses and engine events", "why_tests_cant": "all interleavings of commands, keys and stream events", "anchors": ["apps/cli/internal/tui/validateui/commands.go: waitForNextResultCmd", "apps/cli/internal/tui/validateui/validate_model.go: Update"]}
{"id": "C80", "title": "A stream error is reported whenever it comes", "statement": "In a terminal, an error of the validation stream ends the session with that error, at whatever time it comes.", "quantifier": "every time at which the error comes, relative to all messages", "why_tests_cant": "the check for errors is a goroutine that gives up; all timings matter", "anchors": ["apps/cli/internal/tui/validateui/commands.go: checkForErrCmd", "apps/cli/internal/tui/validateui/validate_model.go: Update"]}
{"id": "C81", "title": "The blueprint shown is the one validated", "statement": "The results that are shown belong to the blueprint file that is shown as selected.", "quantifier": "every history of selections and results", "why_tests_cant": "all histories", "anchors": ["apps/cli/internal/tui/validateui/tui.go: Update", "apps/cli/internal/tui/validateui/validate_model.go: Update", "apps/cli/internal/tui/validateui/commands.go: startValidateStreamCmd"]}
{"id": "C82", "title": "The request names the blueprint file", "statement": "The validation that validate creates names the blueprint file given on the command line.", "quantifier": "every file and run", "why_tests_cant": "all files; the client is mocked", "anchors": ["apps/cli/internal/handlers/validate.go: ValidateHandler", "apps/cli/internal/tui/validateui/commands.go: startValidateStreamCmd"]}
{"id": "C83", "title": "Exit status reflects the diagnostics", "statement": "validate fails when the deploy engine reports a diagnostic of level error.", "quantifier": "every sequence of events", "why_tests_cant": "all event sequences", "anchors": ["apps/cli/internal/handlers/validate.go: ValidateHandler", "apps/cli/cmd/commands/validate.go"]}
{"id": "C84", "title": "The configured engine is used", "statement": "The deploy engine client uses the endpoint and connection protocol that flags, environment or configuration file give.", "quantifier": "every configuration", "why_tests_cant": "all configurations", "anchors": ["apps/cli/internal/engine/client.go: Create", "apps/cli/cmd/commands/root.go"]}
{"id": "C85", "title": "Runtime settings come from their variables", "statement": "The runtime's configuration is determined by its documented environment variables, each field by its own variable; when a required variable is missing or a value is malformed the runtime does not start.", "quantifier": "every environment", "why_tests_cant": "all environments and values", "anchors": ["libs/runtime/core/src/config.rs: RuntimeConfig::from_env"]}
{"id": "C86", "title": "Documented defaults of the runtime", "statement": "A missing variable gives the documented default: the platform \"other\", the trace collector http://otelcollector:4317, local API port 8592, level info, test mode off, loopback only, default health check.", "quantifier": "every environment", "why_tests_cant": "all environments", "anchors": ["libs/runtime/core/src/config.rs: RuntimeConfig, from_env", "libs/runtime/core/src/consts.rs"]}
{"id": "C87", "title": "A configured port can be listened on", "statement": "The server listens on the configured port, and a number that is not a port is rejected as configuration.", "quantifier": "every environment and system", "why_tests_cant": "all numbers", "anchors": ["libs/runtime/core/src/config.rs: from_env", "libs/runtime/core/src/application.rs: run_http_server_app, start_runtime_local_api"]}
{"id": "C88", "title": "Servers are only exposed on request", "statement": "The server takes connections from other machines only if CELERITY_SERVER_LOOPBACK_ONLY is \"false\"; the local API for handlers never does and only runs in http call mode.", "quantifier": "every environment", "why_tests_cant": "all environments", "anchors": ["libs/runtime/core/src/application.rs: run_http_server_app, start_runtime_local_api"]}
{"id": "C89", "title": "Declared HTTP handlers are served", "statement": "When every HTTP handler found by setup is registered at its declared path and method, a request reaches a handler exactly when its path and method are that handler's (HEAD also reaches a GET handler); any set of declared handlers can be registered.", "quantifier": "every blueprint, path, method and request", "why_tests_cant": "all sets of handlers", "anchors": ["libs/runtime/core/src/application.rs: register_http_handler, setup_http_server_app"]}
{"id": "C90", "title": "A registered handler is served", "statement": "A handler registered with an application is served from then on, whenever it is registered.", "quantifier": "every history of setups, registrations and runs", "why_tests_cant": "all histories", "anchors": ["libs/runtime/core/src/application.rs: setup, register_http_handler, run"]}
{"id": "C91", "title": "Shutdown stops every server", "statement": "After shutdown every server the application started has been told to stop, no server stops before it is told, at most two serve at a time, and shutdown can be called at any time.", "quantifier": "every history of an application", "why_tests_cant": "all histories", "anchors": ["libs/runtime/core/src/application.rs: run, run_http_server_app, start_runtime_local_api, shutdown"]}
{"id": "C92", "title": "A failing handler gives an error response", "statement": "A handler that throws, is missing or takes longer than 30 seconds is answered with an error status and its message.", "quantifier": "every failure and time", "why_tests_cant": "all times and messages", "anchors": ["libs/runtime/sdk/node/src/lib.rs: HandlerError, register_http_handler", "libs/runtime/sdk/python/src/lib.rs: HandlerError", "libs/runtime/sdk/bindgen-ffi/src/http_handler.rs"]}
{"id": "C93", "title": "A handler's response is sent as it is", "statement": "The client gets the status, headers and body that the handler returned.", "quantifier": "every response", "why_tests_cant": "all responses", "anchors": ["libs/runtime/sdk/node/src/lib.rs: IntoResponse for Response", "libs/runtime/sdk/python/src/lib.rs: IntoResponse for Response", "libs/runtime/sdk/bindgen-ffi/src/response.rs"]}
{"id": "C94", "title": "A handler receives the request", "statement": "A handler sees the method, URI, headers and body of its request.", "quantifier": "every request", "why_tests_cant": "all requests", "anchors": ["libs/runtime/sdk/node/src/lib.rs: Request::from_axum_req, method, uri, headers, body", "libs/runtime/sdk/python/src/lib.rs: register_http_handler"]}
{"id": "C95", "title": "Python requests are answered once, in order and by their own handler", "statement": "Each request to a Python handler calls the handler last registered for its path and method at most once, gets that handler's result, in order of arrival, and is not held up by another request's handler.", "quantifier": "every set of registrations and every interleaving", "why_tests_cant": "all interleavings", "anchors": ["libs/runtime/sdk/python/src/lib.rs: python_worker, register_http_handler"]}
{"id": "C96", "title": "A C-interface response is what was sent first", "statement": "Through the C interface the client gets the body of the first send with the status set last before it, or a time-out if there is no send within 30 seconds; the response object may be used at any time.", "quantifier": "every sequence of operations on the response, with their times", "why_tests_cant": "all sequences and times", "anchors": ["libs/runtime/sdk/bindgen-ffi/src/response.rs", "libs/runtime/sdk/bindgen-ffi/src/application.rs: register_http_handler"]}
{"id": "C97", "title": "C-interface registration and listing", "statement": "The C interface lists every HTTP handler that setup found, in order, and registers a handler at the path and method that are given.", "quantifier": "every application configuration", "why_tests_cant": "all configurations", "anchors": ["libs/runtime/sdk/bindgen-ffi/src/application.rs", "libs/runtime/sdk/bindgen-ffi/src/app_config.rs"]}
{"id": "C98", "title": "X-Ray trace ids keep the trace", "statement": "The X-Ray form of a trace id is 1-, the 32 highest bits in 8 small hexadecimal digits, -, the rest in 24; reading it back gives the id, different ids have different forms, and the invalid id is refused. A text is read as an id exactly when it has three parts between dashes, the last two of which together are hexadecimal digits of a number above zero and below 2^128.", "quantifier": "every 128-bit trace id", "why_tests_cant": "2^128 ids", "anchors": ["libs/runtime/core/src/aws_telemetry.rs: XrayTraceId"]}
{"id": "C99", "title": "Running a workflow", "statement": "A request to run a workflow is answered with an id under which a new execution with the given input is stored, and exactly one execution is started for it; if it cannot be stored the answer is an error and nothing runs.", "quantifier": "every request and every history", "why_tests_cant": "all histories and names", "anchors": ["libs/runtime/workflow/src/application.rs: run_handler"]}
{"id": "C100", "title": "Executions do not disturb each other", "statement": "What is stored for an execution is what it saved itself last, whatever other executions are started or do.", "quantifier": "every history of runs and saves", "why_tests_cant": "all interleavings and reused names", "anchors": ["libs/runtime/workflow/src/application.rs: run_handler", "libs/runtime/workflow/src/state_machine.rs"]}
{"id": "C101", "title": "Executions can be retrieved", "statement": "GET /executions/:id returns the stored execution, GET /executions the stored executions.", "quantifier": "every history", "why_tests_cant": "all histories", "anchors": ["libs/runtime/workflow/src/application.rs: get_execution_handler, get_executions_handler"]}
{"id": "C102", "title": "The stream of an execution", "statement": "A stream opened for an execution carries that execution's events, in order and without gaps, including its completion.", "quantifier": "every history of executions, events, streams and reads", "why_tests_cant": "all interleavings and rates of reading", "anchors": ["libs/runtime/workflow/src/application.rs: execution_stream_handler", "libs/runtime/workflow/src/consts.rs: EVENT_BROADCASTER_CAPACITY"]}
{"id": "C103", "title": "Setting up a workflow application", "statement": "Setup yields the workflow that the blueprint declares, with its state handlers, and fails exactly when there is none.", "quantifier": "every blueprint", "why_tests_cant": "all blueprints", "anchors": ["libs/runtime/workflow/src/transform_config.rs: collect_workflow_app_config", "libs/runtime/workflow/src/application.rs: setup"]}
{"id": "C104", "title": "A YAML workflow is read exactly as declared", "statement": "Reading a workflow definition from YAML yields the start state and the states that it declares, field by field, through any depth of parallel branches and whatever the order of the keys, and never panics.", "quantifier": "every YAML document of any depth", "why_tests_cant": "all documents, depths of branches and key orders", "anchors": ["libs/runtime/blueprint-config-parser/src/yaml_workflow.rs: parse_workflow_spec, parse_workflow_state", "libs/runtime/blueprint-config-parser/src/yaml_helpers.rs", "libs/runtime/blueprint-config-parser/src/blueprint_with_subs.rs"]}
{"id": "C105", "title": "A misspelt key in a workflow definition is rejected", "statement": "A key that the workflow format does not know is an error wherever in the definition it appears.", "quantifier": "every YAML document, every place in it and every unknown key", "why_tests_cant": "all keys and positions at any depth", "anchors": ["libs/runtime/blueprint-config-parser/src/yaml_workflow.rs"]}
{"id": "C106", "title": "No part of a workflow definition is silently lost", "statement": "When a workflow definition is accepted, every declared state, decision, condition, retry, catch and branch is in the result.", "quantifier": "every YAML document that is accepted", "why_tests_cant": "all documents", "anchors": ["libs/runtime/blueprint-config-parser/src/yaml_workflow.rs"]}
{"id": "C107", "title": "A workflow's required fields are enforced", "statement": "A workflow without start state or states, a state without type, a rule or catch without next state and a condition without inputs or function are rejected.", "quantifier": "every YAML document", "why_tests_cant": "all documents", "anchors": ["libs/runtime/blueprint-config-parser/src/yaml_workflow.rs", "libs/runtime/blueprint-config-parser/src/blueprint_with_subs.rs"]}
{"id": "C108", "title": "Numbers in a workflow definition", "statement": "A number written where the format expects a number is accepted and arrives unchanged.", "quantifier": "every number and every numeric field", "why_tests_cant": "all numbers", "anchors": ["libs/runtime/blueprint-config-parser/src/yaml_workflow.rs", "libs/runtime/blueprint-config-parser/src/yaml_helpers.rs"]}
{"id": "C109", "title": "The references of a workflow are resolved everywhere", "statement": "Resolving a workflow yields the same workflow with every text and value, in every field of every state and of the states of its branches, replaced by what it stands for in the environment; it is an error exactly when something in it does not stand for anything of the right type, and never a panic.", "quantifier": "every workflow definition of any depth and every environment", "why_tests_cant": "all definitions, nesting depths and environments", "anchors": ["libs/runtime/blueprint-config-parser/src/resolve_substitutions.rs: resolve_workflow_spec, resolve_workflow_state"]}
{"id": "C110", "title": "The type of a state", "statement": "A state has one of the documented types; a definition with another type is rejected when it is loaded.", "quantifier": "every type text", "why_tests_cant": "all texts", "anchors": ["libs/runtime/blueprint-config-parser/src/resolve_substitutions.rs: resolve_workflow_state_type"]}
{"id": "C111", "title": "A free-form value is accepted wherever the format allows one", "statement": "A value that is accepted as a state's result is also accepted as an input of a condition and in a payload template.", "quantifier": "every value of any depth", "why_tests_cant": "all depths", "anchors": ["libs/runtime/blueprint-config-parser/src/resolve_substitutions.rs: resolve_mapping_node, resolve_workflow_condition"]}
{"id": "C112", "title": "Specs, metadata, selectors and variables are read as written", "statement": "For each type of resource, reading its spec from YAML yields exactly the fields the document declares, with the documented defaults for those left out, and fails exactly when a declared field does not have the type it must have or a checked field is missing. The same holds for the metadata of a resource, link selectors, variables and the metadata of the blueprint. Reading never panics and does not depend on the order of the keys.", "quantifier": "every YAML document in which no mapping has a key twice, and every resource type", "why_tests_cant": "all documents, nesting and key orders", "anchors": ["libs/runtime/blueprint-config-parser/src/parse_yaml.rs: validate_resource_spec, validate_resource_metadata, validate_link_selector, validate_populate_variables, validate_populate_blueprint_metadata"]}
{"id": "C113", "title": "Nothing declared in a resource is silently lost", "statement": "Every entry a document declares in a spec, in metadata or in a link selector is either read or rejected; none is dropped without an error.", "quantifier": "every YAML document and every entry in it", "why_tests_cant": "all keys, shapes and positions", "anchors": ["libs/runtime/blueprint-config-parser/src/parse_yaml.rs: validate_celerity_api_auth_guards, validate_consumer_external_events_config_map, populate_by_label_selectors, validate_celerity_api_spec, validate_resource_metadata"]}
{"id": "C114", "title": "A reference may stand for any value of a spec", "statement": "Wherever a spec holds a number, a truth value, a protocol or a guard type, a ${variables.x} reference is accepted in its place, and no other text is taken for a number or a truth value.", "quantifier": "every field, document and text", "why_tests_cant": "all texts and fields", "anchors": ["libs/runtime/blueprint-config-parser/src/parse_yaml.rs: validate_api_protocol, validate_celerity_api_auth_guard_type, validate_single_substitution", "libs/runtime/blueprint-config-parser/src/resolve_substitutions.rs: resolve_api_protocol, resolve_api_auth_guard_type"]}
{"id": "C115", "title": "Required fields of a spec are enforced", "statement": "A spec in which a field that is not optional is missing is rejected when it is read, and the configuration of an event source has the shape its type asks for.", "quantifier": "every YAML document", "why_tests_cant": "all documents and combinations of missing fields", "anchors": ["libs/runtime/blueprint-config-parser/src/parse_yaml.rs: validate_celerity_handler_spec, validate_celerity_schedule_spec, validate_consumer_external_event_config, validate_celerity_api_domain, validate_celerity_api_auth_guard, validate_celerity_api_auth_value_source_config"]}
{"id": "C116", "title": "Specs resolve to what their references stand for", "statement": "Resolving the spec of a resource, its metadata, or the metadata of the blueprint succeeds exactly when every reference in it has a value of the type and among the names its place asks for, and the result is then the declared values with every reference replaced. It never panics. Reading a spec from YAML and resolving it is the composition of what the document says and what its references stand for.", "quantifier": "every YAML document without duplicate keys, resource type and environment", "why_tests_cant": "all documents, fields and environments", "anchors": ["libs/runtime/blueprint-config-parser/src/resolve_substitutions.rs: resolve_resource_spec, resolve_handler_spec, resolve_celerity_api_spec, resolve_consumer_spec, resolve_blueprint_metadata_substitutions"]}
{"id": "C117", "title": "Choices in specs are checked", "statement": "A security policy, guard type, storage event, protocol or auth strategy is accepted exactly when the text its parts stand for is one of the documented names, and a base path or token source configuration without a protocol never loads.", "quantifier": "every text, written literally or through references, and every environment", "why_tests_cant": "all texts and environments", "anchors": ["libs/runtime/blueprint-config-parser/src/resolve_substitutions.rs: resolve_api_protocol, resolve_api_domain_security_policy, resolve_api_auth_guard_type, resolve_object_storage_event_type"]}
{"id": "C118", "title": "A text field takes whatever text a variable holds", "statement": "A field that holds text, set to one reference, takes the value of the variable as it is, whatever the value looks like.", "quantifier": "every text field, variable and value", "why_tests_cant": "all values, including those that read as numbers or truth values", "anchors": ["libs/runtime/blueprint-config-parser/src/resolve_substitutions.rs: resolve_string, resolve_web_socket_config"]}
{"id": "C119", "title": "Guards are consistent", "statement": "An API that loads declares its default guard, and each of its token guards says who issues tokens and where they are found.", "quantifier": "every API spec", "why_tests_cant": "all specs", "anchors": ["libs/runtime/blueprint-config-parser/src/resolve_substitutions.rs: resolve_api_auth", "libs/runtime/blueprint-config-parser/src/parse_yaml.rs: validate_celerity_api_auth"]}
{"id": "C120", "title": "A YAML blueprint loads as it reads", "statement": "Loading a YAML blueprint succeeds exactly when its version is the supported one, it has a resource of a supported type, and every part of it that the runtime reads is well formed and has all its references resolved; the result is then the version, the transform, the variable declarations, the resources and the shared handler configuration the document declares. The order of the top-level entries does not matter, only the first document counts, and loading never panics.", "quantifier": "every YAML document without duplicate keys and every environment", "why_tests_cant": "all documents and environments, across reader and resolver", "anchors": ["libs/runtime/blueprint-config-parser/src/parse.rs: BlueprintConfig::from_yaml_str, from_yaml_file", "libs/runtime/blueprint-config-parser/src/parse_yaml.rs: build_intermediate_blueprint_config_from_yaml", "libs/runtime/blueprint-config-parser/src/resolve_substitutions.rs: resolve_blueprint_config_substitutions"]}
{"id": "C121", "title": "Nothing in a blueprint is silently lost", "statement": "Every entry of a YAML blueprint that loads is either in the result or named in an error.", "quantifier": "every document", "why_tests_cant": "all documents and positions in them", "anchors": ["libs/runtime/blueprint-config-parser/src/parse.rs: BlueprintConfig::from_yaml_str, from_yaml_file", "libs/runtime/blueprint-config-parser/src/parse_yaml.rs: build_intermediate_blueprint_config_from_yaml", "libs/runtime/blueprint-config-parser/src/resolve_substitutions.rs: resolve_blueprint_config_substitutions"]}
{"id": "C122", "title": "Variable declarations are honoured", "statement": "A declared default stands in for a variable that the environment does not set, and a value outside of the declared allowed values keeps the blueprint from loading.", "quantifier": "every document, declaration and environment", "why_tests_cant": "all documents and environments", "anchors": ["libs/runtime/blueprint-config-parser/src/parse.rs: BlueprintConfig::from_yaml_str, from_yaml_file", "libs/runtime/blueprint-config-parser/src/parse_yaml.rs: build_intermediate_blueprint_config_from_yaml", "libs/runtime/blueprint-config-parser/src/resolve_substitutions.rs: resolve_blueprint_config_substitutions", "libs/runtime/blueprint-config-parser/src/blueprint.rs: BlueprintVariable"]}
{"id": "C123", "title": "A JSON resource spec is read as it is written", "statement": "Reading the spec of a resource of each type from JSON succeeds exactly when the document declares one, with exactly what it declares, field by field; so for metadata, link selectors, variables and shared handler configuration. The order of members does not matter, reading never panics, and what was read resolves exactly to what it stands for.", "quantifier": "every JSON value, resource type and environment", "why_tests_cant": "all documents at all depths", "anchors": ["libs/runtime/blueprint-config-parser/src/blueprint_with_subs.rs: BlueprintResourceMetadataWithSubs, CelerityHandlerSpecWithSubs, CelerityApiSpecWithSubs, CelerityConsumerSpecWithSubs, CelerityWorkflowSpecWithSubs and the other *WithSubs structs", "libs/runtime/blueprint-config-parser/src/parse_blueprint_resource.rs: BlueprintResourceVisitor::visit_map", "libs/runtime/blueprint-config-parser/src/parse_mapping_node.rs: MappingNode Deserialize", "libs/runtime/blueprint-config-parser/src/parse_substitutions.rs: StringOrSubstitutions Deserialize"]}
{"id": "C124", "title": "Mistakes in a JSON spec are reported", "statement": "A spec with a member that is given twice, that is misspelt, that is missing though required, or that has the wrong shape is rejected; no entry of a map is lost.", "quantifier": "every JSON value and resource type", "why_tests_cant": "all documents and positions in them", "anchors": ["libs/runtime/blueprint-config-parser/src/blueprint_with_subs.rs: BlueprintResourceMetadataWithSubs, CelerityHandlerSpecWithSubs, CelerityApiSpecWithSubs, CelerityConsumerSpecWithSubs, CelerityWorkflowSpecWithSubs and the other *WithSubs structs", "libs/runtime/blueprint-config-parser/src/parse_blueprint_resource.rs: BlueprintResourceVisitor::visit_map", "libs/runtime/blueprint-config-parser/src/parse_mapping_node.rs: MappingNode Deserialize", "libs/runtime/blueprint-config-parser/src/parse_substitutions.rs: StringOrSubstitutions Deserialize"]}
{"id": "C125", "title": "References work everywhere in a JSON spec", "statement": "Wherever a spec written in JSON holds a whole number, a truth value or a free-form value, a reference to a variable can be used instead, as in YAML.", "quantifier": "every number field of every resource type, every text and environment", "why_tests_cant": "all fields, texts and environments", "anchors": ["libs/runtime/blueprint-config-parser/src/blueprint_with_subs.rs: BlueprintResourceMetadataWithSubs, CelerityHandlerSpecWithSubs, CelerityApiSpecWithSubs, CelerityConsumerSpecWithSubs, CelerityWorkflowSpecWithSubs and the other *WithSubs structs", "libs/runtime/blueprint-config-parser/src/parse_blueprint_resource.rs: BlueprintResourceVisitor::visit_map", "libs/runtime/blueprint-config-parser/src/parse_mapping_node.rs: MappingNode Deserialize", "libs/runtime/blueprint-config-parser/src/parse_substitutions.rs: StringOrSubstitutions Deserialize", "libs/runtime/blueprint-config-parser/src/resolve_substitutions.rs: resolve_mapping_node_to_int"]}
{"id": "C126", "title": "The configuration of an event source matches its type in JSON", "statement": "An external event of a consumer is accepted only if the configuration of its source has the shape its source type asks for.", "quantifier": "every event document", "why_tests_cant": "all combinations of type and configuration", "anchors": ["libs/runtime/blueprint-config-parser/src/blueprint_with_subs.rs: BlueprintResourceMetadataWithSubs, CelerityHandlerSpecWithSubs, CelerityApiSpecWithSubs, CelerityConsumerSpecWithSubs, CelerityWorkflowSpecWithSubs and the other *WithSubs structs", "libs/runtime/blueprint-config-parser/src/parse_blueprint_resource.rs: BlueprintResourceVisitor::visit_map", "libs/runtime/blueprint-config-parser/src/parse_mapping_node.rs: MappingNode Deserialize", "libs/runtime/blueprint-config-parser/src/parse_substitutions.rs: StringOrSubstitutions Deserialize", "libs/runtime/blueprint-config-parser/src/blueprint_with_subs.rs: EventSourceConfigurationWithSubs, ExternalEventConfigurationWithSubs"]}
{"id": "C127", "title": "A JSON blueprint loads as it reads", "statement": "Loading a JSON blueprint succeeds exactly when it is an object whose version is the supported one, with a transform and at least one resource of a known type that has a spec, whose variables all have a type, and every part of which that the runtime reads is well formed and has all its references resolved; the result is then exactly what the document declares. The order of the top-level members does not matter, and loading never panics.", "quantifier": "every JSON document and environment", "why_tests_cant": "all documents and environments, across reader, resolver and validation", "anchors": ["libs/runtime/blueprint-config-parser/src/parse.rs: BlueprintConfig::from_jsonc_str, from_jsonc_file", "libs/runtime/blueprint-config-parser/src/blueprint_with_subs.rs: BlueprintConfigWithSubs", "libs/runtime/blueprint-config-parser/src/parse_helpers.rs: ResourceMapVisitor, deserialize_transform", "libs/runtime/blueprint-config-parser/src/parse_blueprint_resource.rs: BlueprintResourceVisitor::visit_map", "libs/runtime/blueprint-config-parser/src/resolve_substitutions.rs: resolve_blueprint_config_substitutions", "libs/runtime/blueprint-config-parser/src/validate_parsed.rs: validate_blueprint_config"]}
{"id": "C128", "title": "Nothing in a JSON blueprint is silently lost", "statement": "Every member of a JSON blueprint that loads is either in the result or named in an error.", "quantifier": "every document", "why_tests_cant": "all documents and positions in them", "anchors": ["libs/runtime/blueprint-config-parser/src/parse.rs: BlueprintConfig::from_jsonc_str, from_jsonc_file", "libs/runtime/blueprint-config-parser/src/blueprint_with_subs.rs: BlueprintConfigWithSubs", "libs/runtime/blueprint-config-parser/src/parse_helpers.rs: ResourceMapVisitor, deserialize_transform", "libs/runtime/blueprint-config-parser/src/parse_blueprint_resource.rs: BlueprintResourceVisitor::visit_map", "libs/runtime/blueprint-config-parser/src/resolve_substitutions.rs: resolve_blueprint_config_substitutions", "libs/runtime/blueprint-config-parser/src/validate_parsed.rs: validate_blueprint_config"]}
{"id": "C129", "title": "The command line means what its options say", "statement": "A command line that names one of the commands version, init or validate and gives it options it has, in any of the accepted forms (--name value, --name=value, -x value, -x=value, -xvalue, switches with and without a truth value) and before or after the command's name, starts that command exactly if the configuration file is there and readable and the connect protocol in force is allowed; then init starts with the language in force, if that is supported, and validate with the blueprint file in force, where a setting in force is the option's last non-blank value, else the environment variable, else the configuration file, else the default. No other command line without a help option starts a command, only the last value of an option counts, and no command line crashes the process.", "quantifier": "all lists of arguments, environments, operating systems, files and their contents", "why_tests_cant": "there are unboundedly many ways to write the same options, and a command line that is misread looks like one that was meant differently", "anchors": ["apps/cli/cmd/commands/root.go NewRootCmd", "apps/cli/cmd/commands/init.go setupInitCommand", "apps/cli/cmd/commands/validate.go setupValidateCommand", "apps/cli/cmd/commands/version.go setupVersionCommand", "apps/cli/cmd/main.go main", "apps/cli/internal/config/config.go Provider"]}
{"id": "C130", "title": "The configuration file can be named on the command line", "statement": "The file named with --config (or -c) is the one a command reads its settings from, and a command whose settings are all given otherwise needs no configuration file. Refuted: the option belongs to the program without a command only, so that with a command it is always an error, wherever it stands; whatever the command line, only celerity.config.toml in the current directory is read; and without that file no command starts, not even the one that prints the version.", "quantifier": "all command lines, environments and files", "why_tests_cant": "that a file is never read is a statement about every command line, not about a sample", "anchors": ["apps/cli/cmd/commands/root.go NewRootCmd", "apps/cli/internal/config/config.go LoadConfigFile"]}
{"id": "C131", "title": "Nothing on the command line is ignored", "statement": "Every argument either has an effect or is reported as a mistake. Proved: an option that the command does not have is reported, and so is a command there is not. Refuted: words after the command are ignored, so that 'validate my.yaml' validates the default file, and --deploy-config-file, --engine-endpoint and --skip-plugin-config-validation make no difference to any command, whatever their values.", "quantifier": "all command lines, environments and files", "why_tests_cant": "that an argument never makes a difference ranges over all values and all other arguments", "anchors": ["apps/cli/cmd/commands/root.go NewRootCmd", "apps/cli/cmd/commands/validate.go setupValidateCommand", "apps/cli/internal/engine/client.go Create"]}
{"id": "C132", "title": "The language of a new project is the one asked for", "statement": "In the dialogue of init, the language chosen is the one highlighted when Enter was last pressed, and the one given by --language if it never was; the dialogue ends exactly at Enter, esc and ctrl+c. Refuted for a language that is given: the dialogue waits for a key all the same, Enter replaces the language by the highlighted one, whatever was given, and meanwhile the question it waits for is never shown.", "quantifier": "all sequences of keys and other messages, all languages given, any behaviour of the list widget", "why_tests_cant": "the dialogue's outcome depends on the whole history of keys", "anchors": ["apps/cli/internal/tui/initui/tui.go Update", "apps/cli/internal/tui/initui/tui.go NewInitApp", "apps/cli/internal/tui/initui/tui.go View", "apps/cli/cmd/commands/init.go"]}
{"id": "C133", "title": "The blueprint to validate is the one the user picks, where they say it is", "statement": "In the dialogue of validate, a file is selected exactly by a key at which the files report a file of an accepted type, and only after a source was chosen; a file of another type undoes the selection and is named in an error. Refuted: the source that is chosen makes no difference (the same local files are picked from and the same commands are given), and while the source is asked for the keys also act on the files that are not shown, among them the Enter that chooses the source, so that the files are shown from another directory if the first entry is a directory.", "quantifier": "all sequences of keys and other messages, any behaviour of the list and of the file picker", "why_tests_cant": "the state of a hidden widget depends on the whole history of keys", "anchors": ["apps/cli/internal/tui/validateui/select_blueprint_local_file.go Update", "apps/cli/internal/tui/validateui/select_blueprint_local_file.go NewSelectBlueprint"]}
{"id": "C134", "title": "An execution that cannot go on says so, with the cause", "statement": "A state without a registered handler, without branches, without a usable wait or of unknown type, and one that neither ends the execution nor names a successor, fails the execution at once; the record of the state and the execution carry the name of the state, the kind of error and the cause, and are stored and announced. An input path that selects nothing is routed, with the cause, by the first rule that names it, and a rule that cannot place the error into the input fails the execution with that second cause. Refuted: that the store shows every failed execution as failed. When the start or the result of a state cannot be saved, the failure is announced and no save is attempted again; a successor that does not exist, and a failing save of the end of the execution, crash the execution, with nothing stored or announced.", "quantifier": "every workflow, reachable situation, state, answer of a handler and answer of the store", "why_tests_cant": "all kinds of error at all states of all workflows, in all interleavings before", "anchors": ["libs/runtime/workflow/src/state_machine.rs: execute_state", "libs/runtime/workflow/src/state_machine.rs: handle_state_success", "libs/runtime/workflow/src/state_machine.rs: record_transition", "libs/runtime/workflow/src/state_machine.rs: record_completed_state", "libs/runtime/workflow/src/state_machine.rs: record_completed_workflow_execution", "libs/runtime/workflow/src/state_machine.rs: record_error", "libs/runtime/workflow/src/state_machine.rs: prepare_input_from_catch"]}
{"id": "C135", "title": "An application serves what its blueprint document declares", "statement": "From a YAML document to the started application: the HTTP and the WebSocket handlers are exactly the declared handlers whose labels share a key with the link selector of the API asked for and whose annotation is true (written down, or a reference to a variable with that value), each once, at the method, path or route of its annotations or the defaults, with code location, tracing and timeout from the first of handler, handler config and shared config that gives one. The application starts when the handlers are of one kind, are linked by one label each and have a location; a handler linked by two labels, marked for both kinds or without a location is an error. The format of the file follows its name. Refuted: that every declared handler is served or reported. A handler whose annotation is the text \"true\" is left out silently, an API with handlers of both kinds never starts, and when the API asked for is not declared the application starts without any server.", "quantifier": "every YAML document without repeated keys, every environment, every iteration order of the maps, every name of an API", "why_tests_cant": "all documents, and all orders in which hash maps can be iterated", "anchors": ["libs/runtime/core/src/application.rs: setup", "libs/runtime/core/src/application.rs: load_and_parse_blueprint", "libs/runtime/core/src/transform_config.rs: collect_api_config", "libs/runtime/blueprint-config-parser/src/parse.rs: from_yaml_file", "libs/runtime/blueprint-config-parser/src/parse_yaml.rs", "libs/runtime/blueprint-config-parser/src/resolve_substitutions.rs"]}
{"id": "C136", "title": "A refused signed request is told why", "statement": "Verification refuses a request with the error of the first thing that is wrong with it, in this order: no signature header, a signature header that cannot be read as text, one that is not three well-formed parts (the first malformed part is named), an unknown key id, a date header that is missing, unreadable or not a number, the first listed header that is missing (named) or unreadable, a code that does not match, a date outside the allowed skew. Each error is given exactly then. Signing fails exactly when the request's own date header is unreadable or not a number, or a listed header is missing or unreadable, and says which.", "quantifier": "every request, key store, time and skew, for signature headers whose values have two bytes and dates whose skew window is within range", "why_tests_cant": "all requests; errors hide one another", "anchors": ["libs/runtime/signature/src/sigv1.rs: verify_signature", "libs/runtime/signature/src/sigv1.rs: create_signature_header", "libs/runtime/signature/src/sigv1.rs: unpack_signature", "libs/runtime/signature/src/sigv1.rs: create_message", "libs/runtime/signature/src/errors.rs"]}
{"id": "C137", "title": "Every random call of a template has its own draw", "statement": "When a template is rendered, its parts are evaluated in the order of the document, arguments before the call; each call of uuid, nanoid or math_rand uses a draw made for it alone, after all earlier ones, and no other function draws. The rendered document is exactly the one obtained that way.", "quantifier": "every template, input and sequence of draws", "why_tests_cant": "templates of any depth with any number of random calls", "anchors": ["libs/runtime/workflow/src/payload_template.rs: render", "libs/runtime/workflow/src/payload_template.rs: compute_func_call", "libs/runtime/workflow/src/template_functions_v1.rs: uuid, nanoid, math_rand"]}
{"id": "C138", "title": "The spec and metadata of a resource mean the same in JSON and in YAML", "statement": "When the JSON reader and the YAML reader both take the spec (of any of the ten types) or the metadata of a resource, and both resolve it in the same environment, the results are equal, provided the document is portable: no key twice in an object, whole numbers within 64 bits, no text that is itself the JSON of a text, no array in place of an object, no references in free-form values, one source named per source configuration, and a topic or queue says whether it is fifo. Without the last condition the results always differ: YAML says it is not fifo, JSON leaves it open.", "quantifier": "every portable spec and metadata document of any size and depth, every environment", "why_tests_cant": "two independent readers over all documents; tests compare a few fixtures of each format separately", "anchors": ["libs/runtime/blueprint-config-parser/src/parse_yaml.rs: build_intermediate_blueprint_config_from_yaml", "libs/runtime/blueprint-config-parser/src/blueprint_with_subs.rs: BlueprintConfigWithSubs", "libs/runtime/blueprint-config-parser/src/resolve_substitutions.rs: resolve_blueprint_config_substitutions"]}
{"id": "C139", "title": "A blueprint means the same in JSON and in YAML", "statement": "When both readers load the same portable document, the blueprints are equal: version, transform, variables, resources in order with their metadata, description, link selector and spec, and the shared handler configuration. Portable excludes what C138 excludes, an array of transforms, resources of the types config, bucket, topic and queue, and metadata without a shared handler configuration. Each exclusion is needed: an array of transforms is lost in YAML, such metadata is lost in YAML, resources of those types are lost in YAML, and a reference in a free-form value is replaced in YAML and kept as text in JSON.", "quantifier": "every document both readers load, every environment", "why_tests_cant": "two independent readers over all documents", "anchors": ["libs/runtime/blueprint-config-parser/src/parse.rs: BlueprintConfig::from_jsonc_str, from_yaml_str", "libs/runtime/blueprint-config-parser/src/parse_yaml.rs: build_intermediate_blueprint_config_from_yaml"]}
{"id": "C140", "title": "The attempt number counts the attempts", "statement": "Each attempt at a state that is announced or recorded carries the number of the attempt: the first is 1 and each retry one more than the one before it. What holds: the first record of a state has number 1, and an announced attempt is one more than the earlier record announced with it. What fails: the earlier record is always the first one, so where no state names itself as the next one, every retry has number 2, however many came before.", "quantifier": "every workflow, input, handler behaviour and interleaving of branches", "why_tests_cant": "histories with any number of retries; tests fail a handler once", "anchors": ["libs/runtime/workflow/src/state_machine.rs: execute_state, record_transition, retry_or_catch, extract_state_from_workflow_execution"]}
{"id": "C141", "title": "The result a handler posts is the result delivered", "statement": "The body of POST /events/result is delivered to the waiter of the event it names with everything it says. What holds: an HTTP response keeps status, headers (last of repeated names), body and context; an outcome keeps success and error message; any other body is refused and changes nothing; in a workflow the data are kept whatever they are. What fails: every object with a boolean success and a readable errorMessage is taken for a WebSocket outcome, so the messages a consumer reports as failed are lost, and no result is ever taken for that of a schedule or an event.", "quantifier": "every JSON document, every state of the API", "why_tests_cant": "all documents: any members, repeated, missing, in any order, of any type", "anchors": ["libs/runtime/core/src/types.rs: EventResult, EventResultData", "libs/runtime/core/src/runtime_local_api.rs: event_result_handler", "libs/runtime/workflow/src/types.rs: EventResult"]}
{"id": "C142", "title": "A polled event reads back as the event that was queued", "statement": "The document answered to a poll is null exactly when no event waits, and otherwise has the documented members and reads back as exactly the event at the head of the queue, for every kind of event. What fails: message attributes that are null read back as absent.", "quantifier": "every event of every kind, with any texts, maps, message lists and vendor values", "why_tests_cant": "unbounded events; tests write a few literal ones", "anchors": ["libs/runtime/core/src/types.rs: EventData, EventDataPayload", "libs/runtime/core/src/runtime_local_api.rs: next_event_handler", "libs/runtime/workflow/src/types.rs: EventData"]}
{"id": "C143", "title": "A message published to the other nodes is read as published", "statement": "Whatever WebSocket message or acknowledgement a node publishes, with its source node, every subscriber reads exactly that message; different messages have different documents; an object is taken for an acknowledgement exactly when it says so once and names node and message once.", "quantifier": "every message with any texts and client lists; every object", "why_tests_cant": "all messages and all objects", "anchors": ["libs/runtime/ws-registry/src/types.rs: Message, WebSocketMessage, AckMessage", "libs/runtime/ws-redis/src/pubsub.rs: MessageWithSourceNode, connect"]}
{"id": "C144", "title": "A batch of WebSocket messages needs only what is used", "statement": "The body of POST /websockets/messages is read exactly when it is a list of messages with connectionId, messageId, message, sourceNode and optionally informClientsOnLoss, and then sent as C09 says; a body that is not read sends nothing. What fails: sourceNode is never used (any value gives the same effect) and yet a batch in which one message leaves it out is refused as a whole.", "quantifier": "every document, every sender and state", "why_tests_cant": "all documents and senders", "anchors": ["libs/runtime/ws-registry/src/types.rs: WebSocketMessages, WebSocketMessage", "libs/runtime/core/src/runtime_local_api.rs: websockets_messages_handler"]}
{"id": "C145", "title": "A client told of a loss can read which message was lost", "statement": "The event sent to clients when a message could not be delivered is, for every message id, a well-formed binary message with the one-byte route 3 whose payload is UTF-8 JSON text of an object with the single member messageId, and that text can be read as no other id; events for different ids differ.", "quantifier": "every message id, of any characters and length", "why_tests_cant": "all ids: quotes, backslashes, control characters, any Unicode", "anchors": ["libs/runtime/ws-registry/src/message_helpers.rs: create_message_lost_event", "libs/runtime/ws-registry/src/registry.rs: send_message"]}
{"id": "C146", "title": "The native library loaded by the Node.js SDK is the one built for the machine", "statement": "A library that is loaded is that of the machine's platform, architecture and C library (on macOS the universal one first), taken from the file beside the script if there is one, else from the package; machines without a target are told so, and only those; a package npm installs on the machine is the one asked for. What fails: not every machine the script has a target for has a published package, and a file beside the script that does not load hides a package that would.", "quantifier": "every platform, architecture, C library, set of files and behaviour of require", "why_tests_cant": "a test runs on one machine; the choice ranges over all of them", "anchors": ["libs/runtime/sdk/node/index.js: nativeBinding, isMusl", "libs/runtime/sdk/node/npm/*/package.json: name, os, cpu, libc"]}
{"id": "C147", "title": "One client does not hold up the messages of the others", "statement": "A node works through the messages of the other nodes, and through resends and loss notices, in the order of arrival and leaves none out. What fails: when one of them is for a client that is connected and sends nothing, the whole queue stops until that client sends a frame or leaves: no later message is delivered or acknowledged, no acknowledgement is recorded, nothing is resent. What holds: between two frames of that client the write is done and the queue can go on.", "quantifier": "every reachable state of a node, every client, every item and every continuation in which the client is silent", "why_tests_cant": "all interleavings of sessions, socket locks and queues, with no bound on how long", "anchors": ["libs/runtime/ws-registry/src/registry.rs: listen, start_ack_worker, send_message", "libs/runtime/core/src/websocket.rs: handle_socket"]}
{"id": "C148", "title": "A node acknowledges what it has delivered and does what its queue asks", "statement": "A node acknowledges a message of another node only after it has called write on the socket of a session opened under that connection id (whether the write succeeds is another matter: see C62), and tells the node the message came from. Everything its queues do is for an item they took up; when the next item is taken up, an acknowledgement has been recorded, a message to be resent has been delivered or recorded and published, and every client to be informed of a loss has been sent the event.", "quantifier": "every history of a node with any sessions, items and interleavings", "why_tests_cant": "all interleavings of sessions and queues", "anchors": ["libs/runtime/ws-registry/src/registry.rs: listen, start_ack_worker, send_message", "libs/runtime/core/src/websocket.rs: handle_socket"]}
{"id": "C149", "title": "The format of its blueprint makes no difference to an application", "statement": "A blueprint that is loaded both from a JSON and from a YAML file sets up the same application: the same API, handlers, routes, settings and errors. What fails: a handler whose mark is written as a text, such as a reference to a variable, is never served from a JSON file, and is served from a YAML file when the reference stands for true. What holds: documents without such texts set up the same application, whatever their transform, whatever types of resources they have, and with or without shared settings.", "quantifier": "every document, environment, name of an application, health setting and iteration order", "why_tests_cant": "all documents and iteration orders", "anchors": ["libs/runtime/core/src/application.rs: setup, load_and_parse_blueprint", "libs/runtime/core/src/transform_config.rs: collect_api_config", "libs/runtime/blueprint-config-parser/src/parse_mapping_node.rs", "libs/runtime/blueprint-config-parser/src/blueprint.rs"]}
{"id": "C150", "title": "A notice of a loss that cannot be delivered does no harm", "statement": "A node that cannot tell a client of a lost message goes on resending unacknowledged messages, goes on telling other clients of losses, and ends every waiting call. What fails: from the first notice that cannot be written to its socket, the node never again resends a message or tells any client of a loss, and a call waiting for a message that is not acknowledged, and of which fewer sends than allowed are recorded, waits for ever. What holds: as long as no notice has failed, everything handed to the task is worked off: every message to resend is looked up again and every client to be told that is connected to the node is told.", "quantifier": "every cluster, history, node, message and call", "why_tests_cant": "a claim about every continuation of every history", "anchors": ["libs/runtime/ws-registry/src/registry.rs: start_ack_worker, send_message", "libs/runtime/ws-registry/src/acks.rs: check_messages, wait_for_ack"]}
{"id": "C151", "title": "Full queues never stop a node", "statement": "A node never stops processing what the bus brings it and what it is given for the bus: full queues only make senders wait until there is room. What fails: with queues of any size two nodes can come, by successful steps only, to a state in which one of them waits to pass a message on to its listener while the listener waits to hand over an acknowledgement; from then on the node publishes, takes, hears and delivers nothing from or to other nodes, whatever anyone does, and a call for a connection elsewhere that has not handed over its message never returns. What holds: no queue ever holds more than its capacity; the capacities add no behaviour that unbounded queues would not have; left to themselves the nodes come to rest after finitely many steps, and a node that cannot go on is either at rest or in exactly that state; a node comes to that state only after it was given as many messages as its outgoing queue holds and took two more than its incoming queue holds.", "quantifier": "every capacity, cluster, history, continuation, node and call", "why_tests_cant": "a claim about every schedule of six tasks per node and every continuation; the bad state needs over a thousand messages at once", "anchors": ["libs/runtime/ws-redis/src/pubsub.rs: connect", "libs/runtime/ws-registry/src/registry.rs: start_ack_worker, listen, send_message, record_pending_ack, wait_for_ack", "libs/runtime/ws-registry/src/acks.rs: check_for_actions_periodic"]}
{"id": "C152", "title": "A node hears exactly the messages that concern it, whatever else is on the Redis channel", "statement": "Of everything Redis pushes to a node, the application receives exactly the messages of other nodes and the other nodes' acknowledgements of this node's messages, in the order in which they were pushed; its own messages, acknowledgements for others, texts that are no messages, payloads that are not text and notices of other kinds are skipped and stop nothing. What the application sends is handed to Redis in order, once each, under the node's name. As long as the application keeps the receiver, and the connection or a sender is left, the link goes on.", "quantifier": "every history of pushes, sends, receives, drops and failed publishes", "why_tests_cant": "a claim about every sequence of pushes, including malformed ones, and every interleaving with what the application does", "anchors": ["libs/runtime/ws-redis/src/pubsub.rs: connect"]}
{"id": "C153", "title": "Letting go of a registry or of a Redis link shuts it down", "statement": "When the application drops a registry that it put on a Redis link in the documented way, its tasks end and the subscription is given up. What fails: the listener, the link's task, the registry and the subscription keep each other for ever, and so do the tracker and the task that consumes its actions; a bare link of which both halves were dropped stays subscribed as long as no message concerns the node. What holds: exactly two things end a link, a message for the node after the receiver was dropped, and the loss of both the connection and every sender; after that sends fail and the receiver sees the end. A listener ends only after the link has ended and it has read everything, and then drops the receiver.", "quantifier": "every history of the link and of the owners of a registry, every continuation", "why_tests_cant": "that something never ends is a claim about every continuation", "anchors": ["libs/runtime/ws-redis/src/pubsub.rs: connect", "libs/runtime/ws-registry/src/registry.rs: start_ack_worker, listen"]}
{"id": "C154", "title": "An application learns that its Redis connection is gone", "statement": "After the connection of a link is lost, a send fails or the receiver sees the end. What fails: for ever after every send succeeds although nothing is published, and the receiver gets what had been pushed before and then waits.", "quantifier": "every history, every continuation in which the application keeps the link", "why_tests_cant": "a claim about every continuation after the loss of the connection at any moment", "anchors": ["libs/runtime/ws-redis/src/pubsub.rs: connect"]}
{"id": "C155", "title": "A Redis connection is made with the configured nodes and password", "statement": "The link is made if and only if the configured hosts let in the configured password. What fails: outside cluster mode the configured password makes no difference, and an empty list of nodes panics. What holds: outside cluster mode there is a link exactly if the first URL is good, asks for RESP3, and its host lets in the password of the URL; in cluster mode exactly if all URLs are good and the hosts let in the configured password, or without one that of the first URL, which all must then share; nothing else panics.", "quantifier": "every setting and every behaviour of the hosts", "why_tests_cant": "every combination of settings, URLs and servers, without servers to test against", "anchors": ["libs/runtime/ws-redis/src/pubsub.rs: get_redis_connection, subscribe"]}
{"id": "C156", "title": "No client can take the place of another", "statement": "What is sent to a connection reaches the client that opened it and nobody else. What fails: the id of a connection is the x-request-id of its request, which the client chooses; whoever connects with the id of a connected client is sent everything that is meant for that client from then on, and when either leaves, the other is connected but can never be found again, and gets nothing that is sent later, whatever happens. What holds: without a readable header the id is a generated one; with ids that were never used before every client has its own, and what it gets was sent to that id and to no other client's.", "quantifier": "every history of sessions, frames and sends, every client and id, every continuation", "why_tests_cant": "a claim about every history and every continuation after a second client chose a given id", "anchors": ["libs/runtime/core/src/request.rs: request_id", "libs/runtime/core/src/websocket.rs: handler, handle_socket", "libs/runtime/ws-registry/src/registry.rs: add_connection, remove_connection"]}
{"id": "C157", "title": "A deployed workflow runs and can be followed", "statement": "In an application that serves a workflow, each accepted run is one execution of that workflow with the input that was sent, unaffected by other runs: its record is always what it saved last, a client that opened a stream before and keeps up sees everything it announces in order, and a sequence of steps ends recorded and announced as succeeded with every step's outcome. What fails: an application set up from a blueprint is given an empty workflow whatever the blueprint declares, so no handler is ever called, no stream carries an event, and every run's record says for ever that it is being prepared. (Refuted for a run that ends without announcing a completion: no event ever says that it completed, and its record says that it is in progress, for good.)", "quantifier": "every workflow, table of handlers, template engine, and every history of requests, steps of the executions, failing saves and stops of the process; every blueprint", "why_tests_cant": "a claim about all interleavings of any number of runs with all requests", "anchors": ["libs/runtime/workflow/src/application.rs: setup, run_handler, execution_stream_handler", "libs/runtime/workflow/src/transform_config.rs: collect_workflow_app_config", "libs/runtime/workflow/src/state_machine.rs: StateMachine::start"]}
{"id": "C158", "title": "An execution survives a stop of the process", "statement": "After the process stops and is started again, the executions that were running go on from the state that was recorded. What fails: no execution that was started before a stop ever does anything again, and its record stays as it was, in progress; with the execution service that comes with the runtime there is no record; and a run asked for again under the same id begins at the first state, so handlers that had succeeded are called again. Answers that stream events break off, and their clients are sent nothing more.", "quantifier": "every workflow, every history up to a stop, every continuation", "why_tests_cant": "every crash point and every continuation", "anchors": ["libs/runtime/workflow/src/application.rs: WorkflowApplication::new, run_handler", "libs/runtime/workflow/src/workflow_executions.rs: MemoryWorkflowExecutionService"]}
{"id": "C159", "title": "Tracing does not change what clients are answered", "statement": "Whether an application traces, on whatever platform and at whatever log level, each request is answered by its handler, which sees the request as it came together with its id and the peer's address; no request is rejected by the layers around the routes. Where lines of level info come out, each request is logged once as received and once, last, as processed with the status it was answered with; elsewhere nothing is logged.", "quantifier": "every request, handler, platform, log level and tracing setting", "why_tests_cant": "the claim ranges over all requests and settings, and depends on the order of the layers", "anchors": ["libs/runtime/core/src/application.rs: run_http_server_app, attach_tracing_layers", "libs/runtime/core/src/telemetry.rs: log_request, enrich_span", "libs/runtime/core/src/request.rs: request_id"]}
{"id": "C160", "title": "Requests can be followed in traces", "statement": "The span of a request to a traced application records exactly the peer's address, the trace id, the request id, also as connection id, the client that the request names, and on AWS the X-Ray form of the trace id; the first traced application of a process decides what comes out. What fails: a trace begun by a client or gateway is never continued, as no header but the request id and the user agent makes a difference; once a traced application has run in a process no other, nor the same again after a shutdown, can be run; and in test mode, where tracing is set up as well, nothing is ever recorded or logged. A shutdown ends the application that is shut down and no other, and a run that fails changes nothing.", "quantifier": "every request; every history of runs and shutdowns in a process", "why_tests_cant": "a claim about all headers and all histories of a process", "anchors": ["libs/runtime/core/src/telemetry.rs: setup_tracing, enrich_span", "libs/runtime/core/src/application.rs: run, shutdown, attach_tracing_layers"]}
{"id": "C161", "title": "The exit status of validate can be relied on", "statement": "A process that validates ends with status 0 or with status 1 and a reason. Not in a terminal: with 0 exactly if its log file could be opened and the engine closed the stream. In a terminal: with 0 only if the session was ended and no error came while results were shown, and with 1 if one came. What fails: in a directory that cannot be written to nothing can be validated; in a terminal, a process that is asked to terminate before its first message crashes, and that is the only way any command line crashes; and one that is asked to later reports success although nothing was asked of the engine. Any other command ends with status 0, unless the command line is a mistake or the terminal of init fails, and the reason that is reported is the reason.", "quantifier": "every command line, environment, configuration file, engine behaviour, order of messages and time of a signal", "why_tests_cant": "all interleavings of messages, engine events and signals", "anchors": ["apps/cli/cmd/main.go: main", "apps/cli/cmd/commands/validate.go: setupValidateCommand", "apps/cli/cmd/utils/utils.go: SetupLogger", "apps/cli/internal/tui/validateui/tui.go: NewValidateApp, MainModel.Update"]}
{"id": "C162", "title": "An application answers with the code its blueprint document names", "statement": "An application that was set up from a blueprint document, with the code of each handler registered for its definition, answers a request whose method and path are those of a handler that the document declares for the API with that handler's code, given all that came and the request's id, whether it traces or not. Nothing else runs: a path without a route is not found, a method that a path has no handler for is not allowed, and the health check and the WebSocket route answer only at their own paths. A request has a span exactly if the document turns tracing on for the API. The same holds if the document is written in JSON, for portable documents that load in both formats.", "quantifier": "every document, environment, API asked for, request, order of tables, and handlers' code", "why_tests_cant": "all documents and all requests; goes through loading, setup, registration, layers and routing together", "anchors": ["libs/runtime/core/src/application.rs: Application::setup, register_http_handler, run", "libs/runtime/core/src/transform_config.rs: collect_api_config", "libs/runtime/blueprint-config-parser/src/parse.rs"]}
{"id": "C163", "title": "A client gets what the Node function of the handler its request is for returned", "statement": "In an application of the Node SDK that was set up from a blueprint document, with a function registered for each handler, a client whose request has the method and path of a handler that the document declares for the API is sent the response of that handler's function, called with this very request: its method, whole URI, headers and body. This holds for each response that HTTP has a form for and that comes within half a minute. (Refuted for failures: a function that throws, rejects or is late is answered with the status of success, and one whose response has no form in HTTP is not answered at all.) Nothing else that a client gets comes from a function.", "quantifier": "every document, environment, request, set of functions and time that they take", "why_tests_cant": "all documents, requests and functions; goes through loading, setup, registration, layers, routing and the SDK together", "anchors": ["libs/runtime/sdk/node/src/lib.rs: CoreRuntimeApplication::new, setup, register_http_handler, JsRequestWrapper, Response, HandlerError", "libs/runtime/core/src/application.rs: Application::setup, register_http_handler, run"]}
