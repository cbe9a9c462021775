#!/bin/bash
# regenerate documents, commit, vcheck
cd /verif && python3 tools/props.py && python3 tools/design.py && python3 tools/manifest.py && git add -A && git commit -qm "${1:-progress}" && vcheck 2>&1 | tail -3 | grep -o "\"manifest_status.*"
