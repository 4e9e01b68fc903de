{"SERVER": "`Json`, `Server`", "COMMON": ", `Spawn`", "DATA": ", `Spawn`", "EXECC": ", `Spawn`"}