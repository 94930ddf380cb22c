{
 "g20": "C64_sources_support did not mention the counting source although its claim says \"however counted\"; it now does (any number of counting sources around any stack)",
 "h52": "Survived: C10_counting_callback only spoke of sections of a fresh counting source. Added C10_counting_any_time (any history of Resume, reads and Sections).",
 "i46": "Survived: C59 only spoke of a new checker sink, and nothing of Nuke. Added C59_after_nuke (after any history, Nuke forgets everything and a correct extraction passes)."
}